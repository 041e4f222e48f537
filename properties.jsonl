{"id": "C01", "title": "select keeps exactly the matching rows", "statement": "For an in-memory data set and a well-formed query made of comma separated comparisons, select(query) returns a data set that holds exactly the rows satisfying every comparison, in their original order, with their original rid and all their cells unchanged; with copy=True the data set it was called on still holds the same rows.", "quantifier": "every data set (any columns, any number of rows), every conjunction of comparisons between a column and a literal of its kind, both values of copy; integers compared as float64 within 2**53 (larger ones: C10); raw text ids once internal ids are assigned: C09", "why_tests_cant": "The query language times the row contents is unbounded; tests fix one frame and a handful of queries.", "anchors": ["DRecPy/Dataset/mem_dataset.py:select", "DRecPy/Dataset/mem_dataset.py:_apply_query"]}
{"id": "C02", "title": "queries compose", "statement": "select(q1).select(q2) holds the same rows as select('q1, q2'), and as select(q2).select(q1): filters can be applied in any order or all at once.", "quantifier": "every data set and every pair of queries that are each accepted", "why_tests_cant": "Two free queries over an arbitrary frame.", "anchors": ["DRecPy/Dataset/mem_dataset.py:select", "DRecPy/Dataset/mem_dataset.py:_apply_query"]}
{"id": "C03", "title": "copies of an in-memory data set are independent", "statement": "After c = ds.copy() (or c = ds.select/drop/unique(..., copy=True)), no later sequence of calls on c changes anything ds returns, and vice versa, although the two share the same underlying frame.", "quantifier": "every history of copy/select/drop/apply/assign_internal_ids/remove_internal_ids calls over any number of live data sets", "why_tests_cant": "Aliasing bugs need a particular interleaving of calls on two handles; the space of histories is infinite.", "anchors": ["DRecPy/Dataset/mem_dataset.py:copy", "DRecPy/Dataset/mem_dataset.py:apply", "DRecPy/Dataset/mem_dataset.py:assign_internal_ids", "DRecPy/Dataset/mem_dataset.py:drop", "DRecPy/Dataset/mem_dataset.py:unique"]}
{"id": "C04", "title": "drop(keep=True) and drop() partition the rows", "statement": "For any list of record ids, drop(ids, keep=True) and drop(ids) split the data set: every row ends up in exactly one of the two, unchanged and in order; ids which do not exist are ignored.", "quantifier": "every data set and every list of ids, including unknown and repeated ids", "why_tests_cant": "Arbitrary id lists over arbitrary frames.", "anchors": ["DRecPy/Dataset/mem_dataset.py:drop", "DRecPy/Dataset/db_dataset.py:drop"]}
{"id": "C05", "title": "unique keeps the first row of every distinct combination", "statement": "unique(cols) has exactly one row for each distinct combination of values of cols, namely the first one in the data set, in order; count_unique(cols) is the number of those rows.", "quantifier": "every data set and every non-empty list of columns", "why_tests_cant": "Requires an argument for every multiset of rows.", "anchors": ["DRecPy/Dataset/mem_dataset.py:unique", "DRecPy/Dataset/mem_dataset.py:count_unique"]}
{"id": "C06", "title": "max/min are attained bounds", "statement": "max(col) (min(col)) of a non-empty numeric column is a value occurring in that column, and no row has a larger (smaller) one.", "quantifier": "every data set with at least one row", "why_tests_cant": "Universal statement over all rows of all frames.", "anchors": ["DRecPy/Dataset/mem_dataset.py:max", "DRecPy/Dataset/mem_dataset.py:min"]}
{"id": "C07", "title": "internal ids are a gap-free bijection in order of first appearance", "statement": "After assign_internal_ids(), user_to_uid maps the distinct raw users one to one onto 0..n_users-1 numbered by first appearance, uid_to_user inverts it, unknown raw or internal ids give None, every row carries the uid/iid of its own user/item, and the same holds for items.", "quantifier": "every data set with integer ids or string ids", "why_tests_cant": "Bijection over an arbitrary set of ids.", "anchors": ["DRecPy/Dataset/mem_dataset.py:assign_internal_ids", "DRecPy/Dataset/mem_dataset.py:user_to_uid", "DRecPy/Dataset/mem_dataset.py:uid_to_user", "DRecPy/Dataset/dataset_abc.py"]}
{"id": "C08", "title": "remove_internal_ids undoes assign_internal_ids", "statement": "assign_internal_ids() followed by remove_internal_ids() restores the columns and every row, and the id conversions are unavailable (raise) as before the assignment; assigning twice is the same as assigning once.", "quantifier": "every data set that does not already have uid/iid columns", "why_tests_cant": "Round trip over all frames.", "anchors": ["DRecPy/Dataset/mem_dataset.py:assign_internal_ids", "DRecPy/Dataset/mem_dataset.py:remove_internal_ids"]}
{"id": "C09", "title": "assigning internal ids does not change the meaning of raw-id queries", "statement": "For any query on the user or item column, the rows selected by raw id are the same before and after assign_internal_ids().", "quantifier": "every data set (integer, string and float id columns), every comparison operator", "why_tests_cant": "The implementation rewrites the query to internal ids for non-integer columns; needs all operators and all id types.", "anchors": ["DRecPy/Dataset/mem_dataset.py:_apply_query", "DRecPy/Dataset/mem_dataset.py:user_to_uid"]}
{"id": "C10", "title": "selecting a user by its formatted id returns precisely that user's rows", "statement": "select(f'user == {u}') returns precisely the rows whose user is u, for every user u that occurs in the data set (idiom used by all splits and evaluation processes).", "quantifier": "every data set and every user in it, including string ids and very large integer ids", "why_tests_cant": "Id space is unbounded; failing ids (beyond 2**53, bare strings) are rare in tests.", "anchors": ["DRecPy/Dataset/mem_dataset.py:_apply_query", "DRecPy/Evaluation/Splits/leave_k_out.py", "DRecPy/Evaluation/Splits/matrix_split.py", "DRecPy/Evaluation/Processes/ranking_evaluation.py"]}
{"id": "C11", "title": "interaction vectors equal the matrix of summed interactions", "statement": "Right after internal ids were assigned, entry i of select_user_interaction_vec(u) (and entry u of select_item_interaction_vec(i)) is the sum of the interactions of the rows with internal ids (u, i), and 0 if there are none; the user and item vectors are rows and columns of the same matrix.", "quantifier": "every non-empty data set with numeric interactions whose vectors were not read before, every valid uid/iid", "why_tests_cant": "Dense/sparse matrix correctness over any data set.", "anchors": ["DRecPy/Dataset/mem_dataset.py:select_user_interaction_vec", "DRecPy/Dataset/mem_dataset.py:select_item_interaction_vec", "DRecPy/Dataset/mem_dataset.py:_build_interaction_matrix"]}
{"id": "C12", "title": "interaction vectors always describe the current rows", "statement": "At any point of a history of calls, select_user_interaction_vec/select_item_interaction_vec describe the rows the data set currently holds (no stale cache, no failure for a valid internal id), however often they are called.", "quantifier": "every history of select/drop/apply/assign calls and repeated vector reads", "why_tests_cant": "Cache staleness only shows on specific histories.", "anchors": ["DRecPy/Dataset/mem_dataset.py:select_user_interaction_vec", "DRecPy/Dataset/mem_dataset.py:select_item_interaction_vec", "DRecPy/Dataset/mem_dataset.py:_build_interaction_matrix", "DRecPy/Dataset/mem_dataset.py:drop", "DRecPy/Dataset/mem_dataset.py:select"]}
{"id": "C13", "title": "apply rewrites one column and nothing else", "statement": "apply(col, f) replaces the value of col by f(value) in each row, keeps row order, rids and all other cells, and refuses the reserved columns; apply(col, f) then apply(col, g) equals apply(col, g after f).", "quantifier": "every non-empty data set, every column, every function (for the result: one returning values of one type; a raising one changes nothing)", "why_tests_cant": "Universally quantified function and frame.", "anchors": ["DRecPy/Dataset/mem_dataset.py:apply"]}
{"id": "C14", "title": "row readers agree with each other", "statement": "values, values_list, select_one, exists and len all describe the same sequence of rows: select_one(q) is the first row of select(q), exists(q) holds iff select(q) is not empty, and the list form and dict form of a row have the same cells in the order of the requested columns.", "quantifier": "every data set, query and column list (integers up to 2**53 in mixed numeric columns)", "why_tests_cant": "Cross-method consistency for all inputs.", "anchors": ["DRecPy/Dataset/mem_dataset.py:values", "DRecPy/Dataset/mem_dataset.py:select_one", "DRecPy/Dataset/dataset_abc.py:values_list", "DRecPy/Dataset/dataset_abc.py:exists"]}
{"id": "C15", "title": "saving writes the requested columns", "statement": "save(path, columns=cs) writes one line per row holding exactly the columns cs in that order, on both the in-memory and the database data set.", "quantifier": "every data set and every column list", "why_tests_cant": "Any list of columns.", "anchors": ["DRecPy/Dataset/mem_dataset.py:save", "DRecPy/Dataset/db_dataset.py:save"]}
{"id": "C16", "title": "random_split is a partition of the requested size", "statement": "random_split(ds, test_ratio) returns train and test sets that partition the rows of ds, the test set has floor(n * test_ratio) rows and both keep the rows unchanged; ds itself is unchanged. If that number is 0 the call raises instead.", "quantifier": "every data set, ratio in (0, 1) and behaviour of the random generator", "why_tests_cant": "All ratios, sizes and random draws.", "anchors": ["DRecPy/Evaluation/Splits/random_split.py"]}
{"id": "C17", "title": "leave_k_out removes exactly k records per eligible user", "statement": "For integer k and integer ids: train and test are disjoint; a user with fewer than min_user_interactions rows disappears from both; any other user with more than k rows has exactly k rows in test and the rest in train; any other user stays entirely in train.", "quantifier": "every data set, k, min_user_interactions, random draws and thread schedule", "why_tests_cant": "All interleavings of the worker threads and all random draws.", "anchors": ["DRecPy/Evaluation/Splits/leave_k_out.py"]}
{"id": "C18", "title": "leave_k_out with a ratio removes floor(n*k) records per user", "statement": "For 0 < k < 1 the same holds with floor(n_u * k) test rows for a user with n_u rows (users for which this is 0 stay in train).", "quantifier": "every data set, ratio, random draws and thread schedule", "why_tests_cant": "Real-valued ratios and all interleavings.", "anchors": ["DRecPy/Evaluation/Splits/leave_k_out.py"]}
{"id": "C19", "title": "every user of the leave_k_out test set is in the train set", "statement": "For integer user ids there are never users in the test set that are not in the train set.", "quantifier": "every data set, k (integer or ratio), min_user_interactions, draws and schedules", "why_tests_cant": "Docstring promise over all executions.", "anchors": ["DRecPy/Evaluation/Splits/leave_k_out.py"]}
{"id": "C20", "title": "leave_k_out(last_timestamps=True) holds out the latest interactions", "statement": "With last_timestamps=True the k held out records of a user are k records with the largest timestamps of that user.", "quantifier": "every data set and every order of the rows", "why_tests_cant": "Only true for certain row orders; the repo's own test pins the wrong result.", "anchors": ["DRecPy/Evaluation/Splits/leave_k_out.py:_leave_k_out_user"]}
{"id": "C21", "title": "matrix_split holds out a sub-matrix and keeps every user trainable", "statement": "For integer user ids: test rows belong to sampled users and sampled items; train and test are disjoint; a sampled user either keeps at least one row in train or has no row in test; users below min_user_interactions disappear from both; all other rows are in train.", "quantifier": "every data set, ratios, draws and thread schedules", "why_tests_cant": "All draws and interleavings.", "anchors": ["DRecPy/Evaluation/Splits/matrix_split.py"]}
{"id": "C22", "title": "splits do not depend on thread scheduling or thread count", "statement": "For a fixed seed the returned train and test sets are the same for every interleaving of the workers and every value of max_concurrent_threads.", "quantifier": "every schedule of the worker threads", "why_tests_cant": "Schedules cannot be enumerated by tests.", "anchors": ["DRecPy/Evaluation/Splits/leave_k_out.py", "DRecPy/Evaluation/Splits/matrix_split.py"]}
{"id": "C23", "title": "splits always return", "statement": "A split call on a valid data set terminates, with verbose on or off, whatever the type of the user ids.", "quantifier": "every data set and schedule", "why_tests_cant": "Hang only shows for ids whose task fails; liveness is not testable.", "anchors": ["DRecPy/Evaluation/Splits/leave_k_out.py", "DRecPy/Evaluation/Splits/matrix_split.py"]}
{"id": "C24", "title": "splits leave the source data set untouched", "statement": "After a split, the source data set still returns the same rows, columns and ids; the two results can be modified without affecting it or each other.", "quantifier": "every data set, split and later history", "why_tests_cant": "Aliasing over all histories.", "anchors": ["DRecPy/Evaluation/Splits/leave_k_out.py", "DRecPy/Evaluation/Splits/matrix_split.py", "DRecPy/Evaluation/Splits/random_split.py"]}
{"id": "C25", "title": "hit ratio, recall and precision are proportions", "statement": "HitRatio, Recall and Precision return a value in [0, 1] on non-empty inputs; it is 0 exactly when no recommended item is relevant; Recall@k and HitRatio@k never decrease when k grows; HitRatio equals Recall when the relevant list has no duplicates.", "quantifier": "every recommendation list (duplicates included), relevant list and non-negative k", "why_tests_cant": "All lists.", "anchors": ["DRecPy/Evaluation/Metrics/ranking.py:HitRatio", "DRecPy/Evaluation/Metrics/ranking.py:Recall", "DRecPy/Evaluation/Metrics/ranking.py:Precision"]}
{"id": "C26", "title": "recall reaches 1 when everything relevant is recommended", "statement": "If every relevant item is among the first k recommendations, Recall (and HitRatio) is 1; if every one of the first k recommendations is relevant and distinct, Precision is 1.", "quantifier": "every pair of lists, including relevant lists with repeated items", "why_tests_cant": "All lists.", "anchors": ["DRecPy/Evaluation/Metrics/ranking.py:Recall", "DRecPy/Evaluation/Metrics/ranking.py:Precision", "DRecPy/Evaluation/Metrics/ranking.py:HitRatio"]}
{"id": "C27", "title": "F-score lies between precision and recall", "statement": "FScore(beta) lies between the smaller and the larger of precision and recall, equals them when they agree, and is 0 when no recommended item is relevant.", "quantifier": "every beta, recommendation list, relevant list and k", "why_tests_cant": "All lists and weights.", "anchors": ["DRecPy/Evaluation/Metrics/ranking.py:FScore"]}
{"id": "C28", "title": "reciprocal rank is 1 over the position of the relevant item", "statement": "ReciprocalRank is 1/p where p is the 1-based position of the first occurrence of the relevant item within the first k recommendations, and 0 if it is not there.", "quantifier": "every list and item; no k or k >= 0", "why_tests_cant": "All lists.", "anchors": ["DRecPy/Evaluation/Metrics/ranking.py:ReciprocalRank"]}
{"id": "C29", "title": "average precision is in [0, 1] and 1 exactly for perfect prefixes", "statement": "AveragePrecision is in [0, 1], and it is 1 exactly when the first min(k, n_relevant) recommendations exist and are distinct relevant items.", "quantifier": "every recommendation list and non-empty relevant list; no k or k >= 1", "why_tests_cant": "All lists.", "anchors": ["DRecPy/Evaluation/Metrics/ranking.py:AveragePrecision"]}
{"id": "C30", "title": "NDCG is in [0, 1] and 1 for an ideal ordering", "statement": "For non-negative relevancies that are not all 0, NDCG@k is in [0, 1] for every list of recommendations without repetitions drawn from the relevancy dict, and is 1 when the list is ordered by decreasing relevancy (all items of the dict, or at least the k most relevant ones); both relevancy variants.", "quantifier": "every relevancy dict and recommendation list; no k or k >= 1", "why_tests_cant": "Needs the rearrangement inequality; all lists.", "anchors": ["DRecPy/Evaluation/Metrics/ranking.py:DCG", "DRecPy/Evaluation/Metrics/ranking.py:NDCG"]}
{"id": "C31", "title": "ranking metrics at k only look at the first k recommendations", "statement": "For k >= 0, metric(recs, k=k) equals metric(recs[:k], k=k), i.e. items beyond position k never matter, for all ranking metrics.", "quantifier": "every list and k", "why_tests_cant": "All lists.", "anchors": ["DRecPy/Evaluation/Metrics/ranking.py"]}
{"id": "C32", "title": "regression metrics are distances", "statement": "MSE, RMSE and MAE are >= 0, are 0 exactly when every prediction equals its target, are symmetric, and MAE <= RMSE; different lengths or empty inputs are rejected.", "quantifier": "all pairs of real lists", "why_tests_cant": "Real-valued inputs; needs Cauchy-Schwarz.", "anchors": ["DRecPy/Evaluation/Metrics/regression.py"]}
{"id": "C33", "title": "LossTracker reports the mean batch loss of the epoch", "statement": "After any sequence of add_epoch_loss, reset_epoch_losses and add_epoch_callback_result calls, get_epoch_avg_loss() is the arithmetic mean of the losses added since the last reset (0 if none).", "quantifier": "every history of calls", "why_tests_cant": "Incremental update has to be shown equal to the mean for all histories.", "anchors": ["DRecPy/Evaluation/loss_tracker.py"]}
{"id": "C34", "title": "early stopping picks the best called epoch", "statement": "MaxValidationValueRule.compute returns, among the epochs for which callback results exist, the first one with the maximal value of the requested metric, where metric names are matched ignoring the '@k' suffix; it raises if the metric is missing.", "quantifier": "every history of callback results", "why_tests_cant": "All histories of metric values, ties included.", "anchors": ["DRecPy/Recommender/EarlyStopping/early_stopping_rule_abc.py", "DRecPy/Recommender/EarlyStopping/max_validation_value_rule.py"]}
{"id": "C35", "title": "fit leaves the model with the weights of the best epoch", "statement": "When an early stopping rule is given, after fit() the trainable weights are the ones the model had at the end of the epoch chosen by the rule.", "quantifier": "every number of epochs, callback and early stopping frequencies, metric history and weight trajectory", "why_tests_cant": "Weight trajectories and metric histories are unbounded; depends on aliasing of snapshots.", "anchors": ["DRecPy/Recommender/recommender_abc.py:fit", "DRecPy/Recommender/recommender_abc.py:_record_epoch_weights", "DRecPy/Recommender/recommender_abc.py:_revert_weights"]}
{"id": "C36", "title": "fit with an early stopping rule never fails by itself", "statement": "Whatever the callback/early stopping frequencies, the number of epochs and the state of the metric history, fit() completes without raising an internal error when the training steps themselves do not raise.", "quantifier": "all combinations of epochs, frequencies and rules", "why_tests_cant": "Specific combinations of arithmetic coincidences trigger it.", "anchors": ["DRecPy/Recommender/recommender_abc.py:fit"]}
{"id": "C37", "title": "rating standardisation is invertible and maps onto [0, 1]", "statement": "Standardising a value in [min, max] interaction and rescaling it gives the value back; the standardised value is in [0, 1] and the mapping is increasing.", "quantifier": "every min < max and every value in between", "why_tests_cant": "Real-valued inputs.", "anchors": ["DRecPy/Recommender/recommender_abc.py:_standardize_value", "DRecPy/Recommender/recommender_abc.py:_rescale_value"]}
{"id": "C38", "title": "rank returns the best candidates in order", "statement": "rank(user, items, n, novelty) returns at most n (score, item) pairs in non-increasing score order, only for requested known items; no omitted scored candidate has a higher score than a returned one; with novelty=True no returned item was rated by the user in the training data.", "quantifier": "every model, user, candidate list, n and training data", "why_tests_cant": "All candidate lists and score functions.", "anchors": ["DRecPy/Recommender/recommender_abc.py:rank", "DRecPy/Recommender/Baseline/item_knn.py:_rank", "DRecPy/Recommender/Baseline/user_knn.py:_rank", "DRecPy/Recommender/cdae.py", "DRecPy/Recommender/caser.py"]}
{"id": "C39", "title": "recommend honours n, novelty and threshold", "statement": "recommend(user, n, novelty, interaction_threshold) returns at most n items in non-increasing score order, all with a score at least the threshold, none of which the user interacted with when novelty=True.", "quantifier": "every model, user, n and threshold", "why_tests_cant": "All score functions.", "anchors": ["DRecPy/Recommender/recommender_abc.py:recommend"]}
{"id": "C40", "title": "predict/rank/recommend treat unknown ids as documented", "statement": "Unknown users or items give None (or are left out) when skip_errors=True and raise otherwise; results for known items do not depend on unknown items in the request.", "quantifier": "every mix of known and unknown ids", "why_tests_cant": "All mixes.", "anchors": ["DRecPy/Recommender/recommender_abc.py:predict", "DRecPy/Recommender/recommender_abc.py:rank", "DRecPy/Recommender/recommender_abc.py:recommend"]}
{"id": "C41", "title": "KNN neighbours are the k most similar entities with enough in common", "statement": "After fit, the neighbours of a user (UserKNN) or item (ItemKNN) are at most k, distinct, not the entity itself, of strictly positive similarity and with at least m items (users) in common, and no omitted candidate is more similar than a used one; this also holds after fitting the same model again on other data.", "quantifier": "every data set, k, m, shrinkage and similarity function", "why_tests_cant": "All data sets.", "anchors": ["DRecPy/Recommender/Baseline/item_knn.py:_compute_similarities", "DRecPy/Recommender/Baseline/item_knn.py:_compute_neighbours", "DRecPy/Recommender/Baseline/user_knn.py:_compute_similarities", "DRecPy/Recommender/Baseline/user_knn.py:_compute_neighbours", "DRecPy/Recommender/Baseline/base_knn.py"]}
{"id": "C42", "title": "KNN predictions stay within the neighbours' interactions", "statement": "A prediction of UserKNN/ItemKNN is the mean (weighted by similarity) of the interactions of the neighbours that have one; it lies between the smallest and the largest of them; when there is none it is None, or the average of the item (user) with use_averages; in all cases it lies within the range of the interactions of the data set.", "quantifier": "every data set, neighbours and parameters", "why_tests_cant": "All data sets.", "anchors": ["DRecPy/Recommender/Baseline/aggregation.py", "DRecPy/Recommender/Baseline/base_knn.py:_predict", "DRecPy/Recommender/Baseline/item_knn.py", "DRecPy/Recommender/Baseline/user_knn.py"]}
{"id": "C43", "title": "ranking by KNN agrees with predicting", "statement": "rank and recommend of UserKNN and ItemKNN return the best n candidates, best first, each with the value that predict returns for it, and omit no candidate with a better prediction.", "quantifier": "every data set, user, item list and parameter setting", "why_tests_cant": "Two different code paths over all data.", "anchors": ["DRecPy/Recommender/Baseline/item_knn.py:_rank", "DRecPy/Recommender/Baseline/base_knn.py:_predict", "DRecPy/Recommender/Baseline/user_knn.py:_rank"]}
{"id": "C44", "title": "similarity functions are symmetric and bounded", "statement": "For any two entities: cosine similarity on co-rated entries and Pearson correlation are in [-1, 1], Jaccard and MSD in [0, 1]; all are symmetric and an entity has maximal similarity to itself; non-overlapping entities have no similarity.", "quantifier": "every pair of sparse rating vectors", "why_tests_cant": "Real-valued, needs Cauchy-Schwarz.", "anchors": ["DRecPy/Recommender/Baseline/similarity.py"]}
{"id": "C45", "title": "shrinkage only pulls similarities towards 0", "statement": "With a non-negative shrinkage the similarity kept by fit has the sign of the raw one, a smaller magnitude, tends to the raw one as the number of co-ratings grows and is monotone in that number; it is the same in both directions.", "quantifier": "every non-negative shrinkage value, similarity and number of co-ratings", "why_tests_cant": "Real-valued inputs.", "anchors": ["DRecPy/Recommender/Baseline/item_knn.py:_compute_similarities", "DRecPy/Recommender/Baseline/user_knn.py:_compute_similarities", "DRecPy/Recommender/Baseline/base_knn.py:_get_sim"]}
{"id": "C46", "title": "point sampler returns n labelled samples with correct labels", "statement": "PointSampler.sample(n) returns n (user, item, value) triples; each positive is a row of the training set at or above the threshold with its own value; each negative is a pair that does not occur in the training set, labelled 0; with neg_ratio=0 there are no negatives.", "quantifier": "every data set, n, neg_ratio, threshold and behaviour of the random generator", "why_tests_cant": "All random draws.", "anchors": ["DRecPy/Sampler/point_sampler.py", "DRecPy/Dataset/mem_dataset.py:null_interaction_pair_generator", "DRecPy/Dataset/mem_dataset.py:select_random_generator"]}
{"id": "C47", "title": "null pair generator never yields an observed pair and terminates when it can", "statement": "Every pair from null_interaction_pair_generator is within the range of internal ids and is not an observed interaction; a pull returns as soon as an unobserved pair is drawn, and never returns if there is none.", "quantifier": "every data set and draw sequence", "why_tests_cant": "All draws.", "anchors": ["DRecPy/Dataset/mem_dataset.py:null_interaction_pair_generator", "DRecPy/Dataset/db_dataset.py:null_interaction_pair_generator"]}
{"id": "C48", "title": "list sampler returns ordered windows with separate targets", "statement": "ListSampler.sample_group_records yields for each sample positives followed by n_targets targets: consecutive records of one group in the order of the sort column, targets right after the positives; group samples respect min/max positives; negatives are distinct unobserved items in the configured ratio.", "quantifier": "every data set, configuration and draw", "why_tests_cant": "All draws and group lengths.", "anchors": ["DRecPy/Sampler/list_sampler.py"]}
{"id": "C49", "title": "predictive evaluation scores exactly the predictable test rows", "statement": "predictive_evaluation computes each metric over the pairs (prediction, true interaction) of the first n_test_predictions (all if None) test rows for which the model returns a prediction, in order; rows with None predictions are skipped, or count as 0 with count_none_predictions=True. Results are rounded to four decimals.", "quantifier": "every model and test set", "why_tests_cant": "All models.", "anchors": ["DRecPy/Evaluation/Processes/predictive_evaluation.py"]}
{"id": "C50", "title": "ranking evaluation averages each metric over the evaluated users", "statement": "Each value reported by ranking_evaluation and recommendation_evaluation is the average, rounded to four decimals, of the metric over the evaluated test users for which the metric returns a value (0 if there are none); it is in [0, 1] for metrics in [0, 1] and independent of thread scheduling.", "quantifier": "every model, test set, metric list and schedule", "why_tests_cant": "All schedules; metric failures on specific users.", "anchors": ["DRecPy/Evaluation/Processes/ranking_evaluation.py", "DRecPy/Evaluation/Processes/recommendation_evaluation.py"]}
{"id": "C51", "title": "generated negative items are unobserved, distinct and sufficiently many", "statement": "With generate_negative_pairs=True exactly n_neg_interactions distinct items that are not among the user's observed items are added for each evaluated user, and generation terminates.", "quantifier": "every data set, n_neg_interactions, draw sequence", "why_tests_cant": "All draws; termination.", "anchors": ["DRecPy/Evaluation/Processes/ranking_evaluation.py:_generate_negative_pairs"]}
{"id": "C52", "title": "the best item of a user is the one with the highest interaction", "statement": "ReciprocalRank in the evaluation processes is computed for the test item with the highest interaction value of the user.", "quantifier": "every test set", "why_tests_cant": "All interaction values.", "anchors": ["DRecPy/Evaluation/Processes/ranking_evaluation.py", "DRecPy/Evaluation/Processes/recommendation_evaluation.py"]}
{"id": "C53", "title": "evaluations terminate even when a user task fails", "statement": "ranking_evaluation and recommendation_evaluation return even if the evaluation of some user raises, with verbose on or off.", "quantifier": "every model and schedule", "why_tests_cant": "Liveness under failures.", "anchors": ["DRecPy/Evaluation/Processes/ranking_evaluation.py", "DRecPy/Evaluation/Processes/recommendation_evaluation.py"]}
{"id": "C54", "title": "database data set behaves like the list of its rows", "statement": "For every history of select, drop, unique and copy calls and reads, the rows, columns and length a database data set reports are those of applying the operations to the list of rows (hence the same as the in-memory data set), whether or not it materialised intermediate tables in between.", "quantifier": "every history of operations on any number of data sets sharing a database", "why_tests_cant": "Optimisation is triggered by counters after particular histories.", "anchors": ["DRecPy/Dataset/db_dataset.py:_update_state", "DRecPy/Dataset/db_dataset.py:_optimize_states", "DRecPy/Dataset/db_dataset.py:select", "DRecPy/Dataset/db_dataset.py:drop", "DRecPy/Dataset/db_dataset.py:unique", "DRecPy/Dataset/db_dataset.py:copy"]}
{"id": "C55", "title": "database data sets sharing a table are isolated", "statement": "No operation on one database data set (in place or not, including apply, close, internal id assignment and background materialisation) changes the rows another live data set reports.", "quantifier": "every history over any number of live data sets", "why_tests_cant": "Table sharing and reference counts over all histories.", "anchors": ["DRecPy/Dataset/db_dataset.py:copy", "DRecPy/Dataset/db_dataset.py:close", "DRecPy/Dataset/db_dataset.py:_optimize_states", "DRecPy/Dataset/db_dataset.py:apply", "DRecPy/Dataset/db_dataset.py:assign_internal_ids"]}
{"id": "C56", "title": "temporary tables and files live exactly as long as they are used", "statement": "A table that a live data set reads from is never dropped, and once the last data set using a temporary database is closed its file is removed.", "quantifier": "every history of copy/select/optimise/close", "why_tests_cant": "Reference counting over all histories.", "anchors": ["DRecPy/Dataset/db_dataset.py:close", "DRecPy/Dataset/db_dataset.py:__init__"]}
{"id": "C57", "title": "closing a data set does not destroy the user's file", "statement": "A database file saved by the user with save() and loaded again still holds its rows after the loaded data set is closed.", "quantifier": "every data set", "why_tests_cant": "Data loss on close of a persisted file.", "anchors": ["DRecPy/Dataset/db_dataset.py:close", "DRecPy/Dataset/db_dataset.py:save", "DRecPy/Dataset/db_dataset.py:_load_from_db"]}
{"id": "C58", "title": "data sets loaded from a saved database support the whole API", "statement": "A data set saved to .sqlite and loaded back has the same rows and supports select and internal id assignment.", "quantifier": "every data set", "why_tests_cant": "Round trip on all contents.", "anchors": ["DRecPy/Dataset/db_dataset.py:save", "DRecPy/Dataset/db_dataset.py:_load_from_db", "DRecPy/Dataset/db_dataset.py:_parse_query"]}
{"id": "C59", "title": "CSV round trip", "statement": "save(csv) followed by reading the file with the same columns gives the same rows, for both implementations.", "quantifier": "every data set, including values with separators or quotes", "why_tests_cant": "All strings.", "anchors": ["DRecPy/Dataset/db_dataset.py:save", "DRecPy/Dataset/db_dataset.py:_load_from_csv", "DRecPy/Dataset/mem_dataset.py:save"]}
{"id": "C60", "title": "library calls do not modify the caller's arguments", "statement": "Column lists passed to unique, values, save or the constructors still have the same contents after the call.", "quantifier": "every argument list and data set state", "why_tests_cant": "Any list; only fails in certain states.", "anchors": ["DRecPy/Dataset/db_dataset.py:unique", "DRecPy/Dataset/db_dataset.py:save", "DRecPy/Dataset/db_dataset.py", "DRecPy/Dataset/mem_dataset.py"]}
{"id": "C61", "title": "importing a CSV does not depend on the chunk size", "statement": "The rows and record ids of a database data set read from a CSV are the data lines of the file numbered consecutively, whatever in_memory chunking is used.", "quantifier": "every file content and chunk size", "why_tests_cant": "All chunk boundaries.", "anchors": ["DRecPy/Dataset/db_dataset.py:_load_from_csv"]}
{"id": "C62", "title": "built-in train/test data sets are complementary whatever the call order", "statement": "get_train_dataset and get_test_dataset return complementary parts of the full data set, regardless of which is called first, how often, and with which cached files are present.", "quantifier": "every order of calls and every crash between calls", "why_tests_cant": "Call histories and crash points.", "anchors": ["DRecPy/Dataset/integrated_datasets.py"]}
{"id": "C63", "title": "a crash while building a built-in data set is not persisted as a valid data set", "statement": "If the process dies at any point while downloading or generating data set files, a later call either rebuilds them or fails, but never returns truncated data.", "quantifier": "every crash point", "why_tests_cant": "Crash points cannot be unit tested.", "anchors": ["DRecPy/Dataset/integrated_datasets.py"]}
{"id": "C64", "title": "temporary files are tracked until deleted", "statement": "A path registered as temporary stays listed until unregistered, other paths are unaffected, and delete_temp_files removes exactly the listed files.", "quantifier": "every history of register/unregister/delete calls and paths", "why_tests_cant": "All histories and paths.", "anchors": ["DRecPy/Dataset/file_utils.py"]}
{"id": "C65", "title": "fitting a neighbourhood model works with every metric", "statement": "Fitting a KNN recommender on any non-empty numeric data set returns for each of the offered similarity metrics.", "quantifier": "every data set and metric", "why_tests_cant": "Depends on the values of all rows together.", "anchors": ["DRecPy/Recommender/Baseline/similarity.py", "DRecPy/Recommender/Baseline/base_knn.py:_pre_fit"]}
{"id": "C66", "title": "adjusted cosine subtracts column averages", "statement": "As documented, adjusted_cosine_sim is the cosine similarity after the average of each column has been subtracted from the values of the column.", "quantifier": "every data set", "why_tests_cant": "Real-valued.", "anchors": ["DRecPy/Recommender/Baseline/similarity.py:adjusted_cosine_sim", "DRecPy/Recommender/Baseline/similarity.py:_subtract_row_mean"]}
{"id": "C67", "title": "Jaccard similarity does not depend on the available memory", "statement": "jaccard_sim gives the same similarities whether the matrix version or, after a MemoryError, the iterative version computes them.", "quantifier": "every data set", "why_tests_cant": "The fallback only runs when memory is short.", "anchors": ["DRecPy/Recommender/Baseline/similarity.py:jaccard_sim"]}
{"id": "C68", "title": "pairs observed below the threshold count as negatives", "statement": "As documented for interaction_threshold, pairs whose interactions are below the threshold are considered negative, so the samplers can draw them as negatives.", "quantifier": "every data set, threshold and draw sequence", "why_tests_cant": "That a pair is never drawn cannot be seen in any number of runs.", "anchors": ["DRecPy/Sampler/point_sampler.py", "DRecPy/Dataset/mem_dataset.py:null_interaction_pair_generator"]}
{"id": "C69", "title": "text ids are evaluated like integer ids", "statement": "ranking_evaluation and recommendation_evaluation give the same results for a test set whose users or items are text as for the same test set with integer ids.", "quantifier": "every data set with text ids", "why_tests_cant": "The failure is swallowed: results are 0, or the call does not return.", "anchors": ["DRecPy/Evaluation/Processes/ranking_evaluation.py", "DRecPy/Evaluation/Processes/recommendation_evaluation.py"]}
{"id": "C70", "title": "HitRatio counts a user whose liked item is among the first k", "statement": "In the evaluation processes HitRatio@k of a user is 1 whenever one of the user's relevant test items is among the first k recommended items.", "quantifier": "every data set, also with float interactions", "why_tests_cant": "Depends on the column types of the test data.", "anchors": ["DRecPy/Evaluation/Processes/ranking_evaluation.py", "DRecPy/Evaluation/Processes/recommendation_evaluation.py", "DRecPy/Evaluation/Metrics/ranking.py:HitRatio"]}
{"id": "C71", "title": "each given metric has its own result", "statement": "The evaluation processes report for each metric object given and each k the average of that metric.", "quantifier": "every list of metrics", "why_tests_cant": "All lists of metrics.", "anchors": ["DRecPy/Evaluation/Processes/ranking_evaluation.py", "DRecPy/Evaluation/Processes/recommendation_evaluation.py", "DRecPy/Evaluation/Metrics/metric_abc.py"]}
{"id": "C72", "title": "an apply that raises leaves the data unchanged", "statement": "If apply on a database data set raises, the rows of the data set are what they were before the call.", "quantifier": "every data set, column and function", "why_tests_cant": "Depends on the row at which the function fails.", "anchors": ["DRecPy/Dataset/db_dataset.py:apply"]}
{"id": "C73", "title": "database interaction vectors reflect the current data", "statement": "select_user_interaction_vec of a database data set has, at every item's position, the interaction of the user with the item in the current rows.", "quantifier": "every history of operations", "why_tests_cant": "Cached results only differ after some histories.", "anchors": ["DRecPy/Dataset/db_dataset.py:select_user_interaction_vec"]}
{"id": "C74", "title": "closing a database data set twice is harmless", "statement": "A second close of a database data set does nothing and raises nothing.", "quantifier": "every set of live data sets", "why_tests_cant": "Depends on the other live data sets.", "anchors": ["DRecPy/Dataset/db_dataset.py:close"]}
{"id": "C75", "title": "database internal ids number the raw ids in record id order and are looked up both ways", "statement": "After assign_internal_ids on a database data set the uid of a user is the number of distinct users appearing before it in record id order, user_to_uid returns it (None for users that do not appear) and uid_to_user inverts it; likewise for items.", "quantifier": "every data set and state", "why_tests_cant": "All data sets.", "anchors": ["DRecPy/Dataset/db_dataset.py:assign_internal_ids", "DRecPy/Dataset/db_dataset.py:user_to_uid", "DRecPy/Dataset/db_dataset.py:uid_to_user"]}
{"id": "C76", "title": "reads do not change what internal id lookups answer", "statement": "Reading a database data set (values, count_unique, max, ...) does not change the results of user_to_uid, uid_to_user, item_to_iid and iid_to_item on it.", "quantifier": "every data set, read and number of reads", "why_tests_cant": "Only shows after the fourth read of a derived data set.", "anchors": ["DRecPy/Dataset/db_dataset.py:_record_interaction", "DRecPy/Dataset/db_dataset.py:user_to_uid"]}
{"id": "C77", "title": "importing the package leaves files of other running programs alone", "statement": "Importing the package (which deletes the temporary files listed by earlier programs) does not delete a file that another running program uses.", "quantifier": "every history of register/unregister calls of other programs", "why_tests_cant": "Needs several processes.", "anchors": ["DRecPy/Dataset/__init__.py", "DRecPy/Dataset/file_utils.py:delete_temp_files"]}
{"id": "C78", "title": "saving a database is atomic", "statement": "After save to a .sqlite path, completed or killed at any point, the file at the path is the old one or the complete new one, and no other file is affected.", "quantifier": "every path, disk contents and kill point", "why_tests_cant": "Kill points cannot be unit tested.", "anchors": ["DRecPy/Dataset/db_dataset.py:save"]}
{"id": "C79", "title": "a failed download can be repeated", "statement": "If downloading a built-in data set fails (no connection, an error answer of the server, a truncated archive), the call raises and a later call with a working server returns the data set.", "quantifier": "every data set, disk, server answer and later call", "why_tests_cant": "Needs a failing server.", "anchors": ["DRecPy/Dataset/integrated_datasets.py:download_dataset", "DRecPy/Dataset/integrated_datasets.py:is_stored"]}
{"id": "C80", "title": "fit leaves the data set of the caller as it was", "statement": "With copy_dataset=True fit works on a copy and the data set passed by the caller is unchanged; without it only internal ids are added.", "quantifier": "every data set", "why_tests_cant": "All data sets; tests use one.", "anchors": ["DRecPy/Recommender/recommender_abc.py:fit"]}
{"id": "C81", "title": "fit stores the right statistics of the training data", "statement": "After the start of fit, n_users and n_items are the numbers of different users and items, n_rows the number of rows, min_interaction and max_interaction the smallest and largest interaction (0 in place of a minimum of 1), and interaction vectors have n_items respectively n_users entries.", "quantifier": "every data set", "why_tests_cant": "All data sets.", "anchors": ["DRecPy/Recommender/recommender_abc.py:fit", "DRecPy/Dataset/mem_dataset.py:select_user_interaction_vec"]}
{"id": "C82", "title": "fit of an empty data set raises ZeroDivisionError, and of no other", "statement": "fit raises ZeroDivisionError (when computing the sparsity) exactly for data sets without rows.", "quantifier": "every data set with a numeric interaction column", "why_tests_cant": "All data sets.", "anchors": ["DRecPy/Recommender/recommender_abc.py:fit", "DRecPy/Recommender/recommender_abc.py:_log_initial_info"]}
{"id": "C83", "title": "a recommender can be fitted repeatedly", "statement": "Every call of fit on the same CDAE, DMF or Caser object trains all variables of the network it built, and only these.", "quantifier": "every number of earlier fits, every size of the networks", "why_tests_cant": "Interaction of several calls.", "anchors": ["DRecPy/Recommender/recommender_abc.py:_register_trainable", "DRecPy/Recommender/recommender_abc.py:fit", "DRecPy/Recommender/cdae.py:_pre_fit", "DRecPy/Recommender/caser.py:_pre_fit", "DRecPy/Recommender/dmf.py:_pre_fit"]}
{"id": "C84", "title": "the loss of a batch compares every prediction with its own target", "statement": "The loss of a batch of CDAE, DMF and Caser is the mean over the samples of the error of the sample's prediction against the sample's target, so that predicting every target exactly is best.", "quantifier": "every batch size, predictions, targets and error function", "why_tests_cant": "Broadcasting hides the error: the loss still falls during training.", "anchors": ["DRecPy/Recommender/cdae.py:_compute_batch_loss", "DRecPy/Recommender/cdae.py:_predict_batch", "DRecPy/Recommender/dmf.py:_compute_batch_loss", "DRecPy/Recommender/caser.py:_compute_batch_loss"]}
{"id": "C85", "title": "Caser can be trained for every sequence length", "statement": "For every L >= 1, T, neg_ratio, number of filters and batch size, training Caser computes one score for each of the T targets and T * neg_ratio negative items of each sample.", "quantifier": "every L, T, d, n_v, n_h, neg_ratio and batch size", "why_tests_cant": "Only one L is tested.", "anchors": ["DRecPy/Recommender/caser.py:_predict_batch_aux", "DRecPy/Recommender/caser.py:_predict_batch"]}
{"id": "C86", "title": "Caser ranks items for every known user", "statement": "rank (and recommend) of a fitted Caser computes a score for every item for each user of the training data.", "quantifier": "every user and number of records", "why_tests_cant": "Depends on the length of the history of the user.", "anchors": ["DRecPy/Recommender/caser.py:_rank", "DRecPy/Recommender/caser.py:_predict_batch_aux"]}
{"id": "C87", "title": "Caser learns to predict the next items of a user", "statement": "Every sample of a batch of Caser has L consecutive items of a user in the order of the sort column, the T items following them with desired value 1, and T * neg_ratio different items of the data, which are not in the history of the user, with desired value 0.", "quantifier": "every data set, parameters and random choices", "why_tests_cant": "Random choices.", "anchors": ["DRecPy/Recommender/caser.py:_sample_batch", "DRecPy/Recommender/caser.py:_predict_batch", "DRecPy/Sampler/list_sampler.py:sample_group_records"]}
{"id": "C88", "title": "CDAE reconstructs which items the user interacted with", "statement": "The vector CDAE is trained to reconstruct has 1 exactly for the items the user has a row for with an interaction of at least interaction_threshold, else 0; the input is this vector with entries set to 0 with probability q and the others divided by 1 - q.", "quantifier": "every data set, user, threshold, corruption level and draws", "why_tests_cant": "All data sets.", "anchors": ["DRecPy/Recommender/cdae.py:_reconstruct_for_training", "DRecPy/Recommender/cdae.py:_reconstruct_for_predictions"]}
{"id": "C89", "title": "training targets of DMF are in [0, 1]", "statement": "The desired values DMF gives to its cross entropy are between 0 and 1.", "quantifier": "every data set and sample", "why_tests_cant": "Depends on the smallest interaction.", "anchors": ["DRecPy/Recommender/dmf.py:_sample_batch", "DRecPy/Recommender/recommender_abc.py:_standardize_value"]}
{"id": "C90", "title": "predictions of DMF are in the range of the training data", "statement": "predict of a fitted DMF is between the smallest and the largest interaction of the training data, whatever the weights.", "quantifier": "every data set and every weights", "why_tests_cant": "All weights.", "anchors": ["DRecPy/Recommender/dmf.py:_predict", "DRecPy/Recommender/dmf.py:_predict_batch", "DRecPy/Recommender/recommender_abc.py:_rescale_value"]}
{"id": "C91", "title": "read_df keeps the data of the frame", "statement": "InteractionsDatasetFactory.read_df(df, user_label, item_label, interaction_label) raises if a label is not a column of df; otherwise the data set has one record per row of df, in order, with the labelled columns as user, item and interaction and all other columns of df.", "quantifier": "every data frame and labels", "why_tests_cant": "Labels may coincide with the names of the main columns; tests use three other names.", "anchors": ["DRecPy/Dataset/mem_dataset.py:__init__", "DRecPy/Dataset/dataset_factory.py:read_df"]}
{"id": "C92", "title": "a data set made by read_df can be used like any other", "statement": "The data set made by read_df has different columns, different record ids and values of the types of their columns, missing texts being empty.", "quantifier": "every data frame with the labelled columns", "why_tests_cant": "All frames.", "anchors": ["DRecPy/Dataset/mem_dataset.py:__init__", "DRecPy/Dataset/dataset_factory.py:read_df"]}
{"id": "C93", "title": "the factory chooses the implementation by the path", "statement": "InteractionsDatasetFactory opens paths ending in .sqlite as databases; other paths need column names, none of them uid or iid, and are loaded in memory if in_memory is True and the data fits in memory, otherwise in a database. The caller's list of columns does not change.", "quantifier": "every path, columns and flags", "why_tests_cant": "All combinations.", "anchors": ["DRecPy/Dataset/dataset_factory.py:__new__"]}
{"id": "C94", "title": "random records of a database data set are its rows", "statement": "A generator made by select_random_generator(query) of a database data set yields only records the data set has at that time and which satisfy the query; it does not raise when there are such records, yields as soon as it draws a user with records, and every record can come.", "quantifier": "every program of data set operations and pulls, every data set, random stream and order of rows", "why_tests_cant": "Random choices and interleavings.", "anchors": ["DRecPy/Dataset/db_dataset.py:select_random_generator", "DRecPy/Dataset/db_dataset.py:_select_random_generator"]}
{"id": "C95", "title": "null pairs of a database data set", "statement": "Every pair yielded by null_interaction_pair_generator(threshold) of a database data set is a pair of internal ids, not above the largest ones, without a record, or the pair of a record with an interaction below the threshold; pulls do not raise. A pair pulled later, after other operations, has no record by then or comes from the records below the threshold when the generator was started.", "quantifier": "every program, data set, threshold, random stream and order of rows", "why_tests_cant": "Random choices and interleavings.", "anchors": ["DRecPy/Dataset/db_dataset.py:null_interaction_pair_generator"]}
{"id": "C96", "title": "null pairs of a database data set keep coming, and any can come", "statement": "A pull of null_interaction_pair_generator of a database data set returns or raises, and every pair of internal ids without a record can come.", "quantifier": "every data set, threshold and random stream", "why_tests_cant": "Needs all random streams.", "anchors": ["DRecPy/Dataset/db_dataset.py:null_interaction_pair_generator"]}
{"id": "C97", "title": "null pairs of a database data set are not positive", "statement": "No pair yielded by null_interaction_pair_generator(threshold) of a database data set has a record with an interaction of at least the threshold.", "quantifier": "every data set, threshold and random stream", "why_tests_cant": "Tests have one record per pair.", "anchors": ["DRecPy/Dataset/db_dataset.py:null_interaction_pair_generator"]}
{"id": "C98", "title": "PointSampler on a database data set", "statement": "Every triple sampled by a PointSampler on a database data set is (uid, iid, 0) for a null pair if its draw asks for a negative sample, otherwise the ids and the interaction of a record at or above the threshold.", "quantifier": "every data set, threshold, neg_ratio, random streams and sequence of calls", "why_tests_cant": "Random choices, several calls.", "anchors": ["DRecPy/Sampler/point_sampler.py:sample", "DRecPy/Sampler/point_sampler.py:sample_negative", "DRecPy/Sampler/point_sampler.py:sample_positive", "DRecPy/Dataset/db_dataset.py:null_interaction_pair_generator", "DRecPy/Dataset/db_dataset.py:select_random_generator"]}
{"id": "C99", "title": "item vectors of a database data set", "statement": "select_item_interaction_vec(iid) of a database data set has one place for each user and, at each place, the interaction of the user with the item in the current data.", "quantifier": "every data set, item and program", "why_tests_cant": "Depends on earlier calls through the cache.", "anchors": ["DRecPy/Dataset/db_dataset.py:select_item_interaction_vec"]}
{"id": "C100", "title": "random_split of a database data set", "statement": "random_split(ds, ratio) of a database data set puts floor(n * ratio) rows in the test set and all others in the train set, each row in exactly one of them; other data sets and the source do not change, nothing else is left behind, the seed decides the result when SQLite returns rows by record id; it raises AssertionError, changing nothing, when floor(n * ratio) is 0.", "quantifier": "every program before the call, every complete data set of at most 2**53 rows, ratio in (0, 1), seed, random generator and order of rows", "why_tests_cant": "Programs and random choices.", "anchors": ["DRecPy/Evaluation/Splits/random_split.py:random_split", "DRecPy/Dataset/db_dataset.py:drop"]}
{"id": "C101", "title": "leave_k_out of a database data set", "statement": "When leave_k_out of a database data set with integer user ids returns, the test set has k rows (or floor(n * k)) of each user with at least min_user_interactions rows and more than k rows, the train set the other rows of these users and all rows of the others with enough rows; users with rows in the test set have rows in the train set; the source and other data sets do not change, and nothing else is left behind.", "quantifier": "every program before the call, data set, argument, random generator, schedule of the threads and order of rows", "why_tests_cant": "Schedules of threads.", "anchors": ["DRecPy/Evaluation/Splits/leave_k_out.py:leave_k_out", "DRecPy/Evaluation/Splits/leave_k_out.py:_leave_k_out_single_user", "DRecPy/Dataset/db_dataset.py:select", "DRecPy/Dataset/db_dataset.py:drop"]}
{"id": "C102", "title": "last_timestamps of leave_k_out on a database data set", "statement": "With last_timestamps=True no row of the test set is older than a row of the same user in the train set.", "quantifier": "every program, data set with integer users, argument, schedule and order of rows", "why_tests_cant": "Depends on the order of the rows.", "anchors": ["DRecPy/Evaluation/Splits/leave_k_out.py:_leave_k_out_single_user"]}
{"id": "C103", "title": "matrix_split of a database data set", "statement": "When matrix_split of a database data set with integer user ids returns, floor(u * user_test_ratio) different users and floor(i * item_test_ratio) different items were drawn, and the test set has the rows of the drawn users (with enough rows) on drawn items if the user has rows on other items, the train set all other rows of users with enough rows; the source and other data sets do not change, and nothing else is left behind.", "quantifier": "every program before the call, data set, argument, random generator, schedule and order of rows", "why_tests_cant": "Schedules of threads.", "anchors": ["DRecPy/Evaluation/Splits/matrix_split.py:matrix_split", "DRecPy/Evaluation/Splits/matrix_split.py:_matrix_split_single_user", "DRecPy/Dataset/db_dataset.py:unique"]}
{"id": "C104", "title": "splits of a database data set do not depend on the threads", "statement": "When SQLite returns rows by record id, the results of leave_k_out and matrix_split of a database data set with integer user ids depend on the seed and the arguments but not on the number of threads, the schedule or verbose.", "quantifier": "every data set, arguments, random generator and pair of schedules", "why_tests_cant": "Pairs of schedules.", "anchors": ["DRecPy/Evaluation/Splits/leave_k_out.py:leave_k_out", "DRecPy/Evaluation/Splits/matrix_split.py:matrix_split"]}
{"id": "C105", "title": "splits of a database data set return", "statement": "leave_k_out and matrix_split of a database data set with all its columns return, without an exception, whatever was done with the data set before.", "quantifier": "every program before the call, data set, argument and fair schedule", "why_tests_cant": "Large data sets and hanging calls.", "anchors": ["DRecPy/Evaluation/Splits/leave_k_out.py:leave_k_out", "DRecPy/Evaluation/Splits/matrix_split.py:matrix_split", "DRecPy/Dataset/db_dataset.py:unique", "DRecPy/Dataset/db_dataset.py:_update_state"]}
{"id": "C106", "title": "splits of database data sets with text user ids", "statement": "leave_k_out and matrix_split of a database data set whose user ids are texts hold out as many rows as for integer ids.", "quantifier": "every data set", "why_tests_cant": "Exceptions in the threads are lost.", "anchors": ["DRecPy/Evaluation/Splits/leave_k_out.py:_leave_k_out_single_user", "DRecPy/Evaluation/Splits/matrix_split.py:_matrix_split_single_user", "DRecPy/Dataset/db_dataset.py:select"]}
{"id": "C107", "title": "data sets in memory and in a database are interchangeable", "statement": "A program that creates, copies, selects, drops, numbers, changes and reads data sets gives the same data sets (columns, dtypes, rows) and the same answers (rows in any order) when its data sets are in memory and when they are in a database; what returns on one returns on the other, and ids and internal ids are translated in the same way.", "quantifier": "every sequence of calls, data set, order of rows", "why_tests_cant": "Pairs of programs; tests have one small data set for each.", "anchors": ["DRecPy/Dataset/mem_dataset.py:select", "DRecPy/Dataset/mem_dataset.py:drop", "DRecPy/Dataset/mem_dataset.py:unique", "DRecPy/Dataset/mem_dataset.py:assign_internal_ids", "DRecPy/Dataset/mem_dataset.py:values", "DRecPy/Dataset/db_dataset.py:select", "DRecPy/Dataset/db_dataset.py:drop", "DRecPy/Dataset/db_dataset.py:unique", "DRecPy/Dataset/db_dataset.py:assign_internal_ids", "DRecPy/Dataset/db_dataset.py:values"]}
{"id": "C108", "title": "a csv file is the same data set in memory and in a database", "statement": "Reading a csv file into memory and into a database gives the same data set: the same columns, dtypes and rows.", "quantifier": "every file, delimiter, header flag, list of columns, chunk size, and program before", "why_tests_cant": "All texts.", "anchors": ["DRecPy/Dataset/mem_dataset.py:__init__", "DRecPy/Dataset/db_dataset.py:__init__"]}
{"id": "C109", "title": "fit starts the same on a database data set", "statement": "fit on a data set in a database stores the same bounds of the interactions, numbers of users and items and number of rows as on the same data set in memory, and raises the same exceptions before training.", "quantifier": "every program that made the data set, with a numeric interaction column", "why_tests_cant": "Pairs of programs.", "anchors": ["DRecPy/Recommender/recommender_abc.py:fit", "DRecPy/Dataset/db_dataset.py:min", "DRecPy/Dataset/db_dataset.py:max", "DRecPy/Dataset/db_dataset.py:count_unique", "DRecPy/Dataset/db_dataset.py:assign_internal_ids"]}
{"id": "C110", "title": "neighbourhood recommenders work the same on a database data set", "statement": "UserKNN and ItemKNN fitted on a data set in a database answer every predict, rank and recommend, including the exceptions raised, as if fitted on the same data set in memory; afterwards the data set has its internal ids and nothing else, and other data sets have not changed.", "quantifier": "every program that made the data set, recommender parameters, similarity, sequence of calls and order of rows", "why_tests_cant": "Pairs of programs; tests use data sets in memory.", "anchors": ["DRecPy/Recommender/recommender_abc.py:predict", "DRecPy/Recommender/recommender_abc.py:rank", "DRecPy/Recommender/recommender_abc.py:recommend", "DRecPy/Recommender/Baseline/base_knn.py:_fit", "DRecPy/Recommender/Baseline/base_knn.py:_predict", "DRecPy/Recommender/Baseline/base_knn.py:_rank", "DRecPy/Recommender/Baseline/user_knn.py:_get_interaction", "DRecPy/Recommender/Baseline/item_knn.py:_get_interaction", "DRecPy/Dataset/db_dataset.py:select_one", "DRecPy/Dataset/db_dataset.py:unique"]}
{"id": "C111", "title": "interaction vectors are the same in a database", "statement": "select_user_interaction_vec and select_item_interaction_vec of a data set in a database with internal ids return, at each place, the sum of the interactions of the user and the item, after any earlier calls of the two; they return or raise as for the same data set in memory.", "quantifier": "every program that made the data set, sequence of calls, size of the caches and order of rows", "why_tests_cant": "Pairs of programs; caches.", "anchors": ["DRecPy/Dataset/db_dataset.py:select_user_interaction_vec", "DRecPy/Dataset/db_dataset.py:select_item_interaction_vec", "DRecPy/Dataset/mem_dataset.py:select_user_interaction_vec", "DRecPy/Dataset/mem_dataset.py:select_item_interaction_vec"]}
{"id": "C112", "title": "DMF and CDAE answer the same on a database data set", "statement": "DMF and CDAE trained on a data set in a database, when their networks are the same functions as those trained on it in memory, answer every predict, rank and recommend, including the exceptions raised, in the same way; afterwards the data set has its internal ids and nothing else, and other data sets have not changed.", "quantifier": "every networks, program that made the data set, earlier reads of vectors, sequence of calls and order of rows", "why_tests_cant": "Pairs of programs; tests use data sets in memory.", "anchors": ["DRecPy/Recommender/dmf.py:_predict", "DRecPy/Recommender/cdae.py:_predict", "DRecPy/Recommender/cdae.py:_rank", "DRecPy/Recommender/recommender_abc.py:_rank", "DRecPy/Recommender/recommender_abc.py:predict", "DRecPy/Recommender/recommender_abc.py:rank", "DRecPy/Recommender/recommender_abc.py:recommend", "DRecPy/Dataset/db_dataset.py:select_user_interaction_vec"]}
{"id": "C113", "title": "Caser answers the same on a database data set", "statement": "Caser trained on a data set in a database, when its network is the same function as the one trained on it in memory, answers every predict, rank and recommend, including the exceptions raised, in the same way; afterwards the data set has its internal ids and nothing else, and other data sets have not changed.", "quantifier": "every network, sort column, sequence length, program that made the data set, sequence of calls and order of rows", "why_tests_cant": "Pairs of programs; depends on the order of the rows.", "anchors": ["DRecPy/Recommender/caser.py:_rank", "DRecPy/Recommender/caser.py:_predict", "DRecPy/Recommender/recommender_abc.py:predict", "DRecPy/Recommender/recommender_abc.py:rank", "DRecPy/Recommender/recommender_abc.py:recommend", "DRecPy/Dataset/db_dataset.py:select", "DRecPy/Dataset/db_dataset.py:values"]}
{"id": "C114", "title": "predictive evaluation gives the same numbers on database data sets", "statement": "predictive_evaluation of a UserKNN, ItemKNN or DMF recommender trained on a data set in a database, with the training data or another data set in a database as test data, returns the same metric values as with the same data sets in memory, or raises the same exception; afterwards the training data has its internal ids and nothing else, and the test data and other data sets have not changed.", "quantifier": "every program that made the data sets, recommender, network, arguments, list of metrics and order of rows", "why_tests_cant": "Pairs of programs; depends on the order of the rows.", "anchors": ["DRecPy/Evaluation/Processes/predictive_evaluation.py:predictive_evaluation", "DRecPy/Recommender/recommender_abc.py:predict", "DRecPy/Dataset/db_dataset.py:values", "DRecPy/Dataset/db_dataset.py:select_one", "DRecPy/Dataset/db_dataset.py:select_user_interaction_vec"]}
{"id": "C115", "title": "Caser ranks from the last items of the user", "statement": "rank and recommend of Caser use the scores its network computes for the user and the items of the user's last L records, oldest first, in the order of the sort column (equal values in the order of the data set), or of the data set if there is no such column; all records if there are fewer.", "quantifier": "every data set with internal ids, user, sort column, L >= 1 and network", "why_tests_cant": "All orders of records and equal sort values.", "anchors": ["DRecPy/Recommender/caser.py:_rank", "DRecPy/Dataset/mem_dataset.py:select", "DRecPy/Dataset/mem_dataset.py:values_list"]}
{"id": "C116", "title": "ranking and recommendation evaluation give the same numbers on database data sets", "statement": "ranking_evaluation and recommendation_evaluation of a recommender trained on a data set in a database, with the training data or another data set in a database as test data, return the same metric values as with the same data sets in memory, or raise the same exception, however the threads of the users are interleaved; afterwards the training data has its internal ids and nothing else, and the test data and other data sets have not changed.", "quantifier": "every program that made the data sets, recommender, network, arguments, list of metrics, generators of random numbers, interleaving of the threads and order of rows", "why_tests_cant": "Pairs of concurrent programs; depends on the interleaving.", "anchors": ["DRecPy/Evaluation/Processes/ranking_evaluation.py:ranking_evaluation", "DRecPy/Evaluation/Processes/recommendation_evaluation.py:recommendation_evaluation", "DRecPy/Recommender/recommender_abc.py:rank", "DRecPy/Recommender/recommender_abc.py:recommend", "DRecPy/Dataset/db_dataset.py:select", "DRecPy/Dataset/db_dataset.py:unique", "DRecPy/Dataset/db_dataset.py:values_list", "DRecPy/Dataset/db_dataset.py:select_one", "DRecPy/Dataset/db_dataset.py:__len__"]}
{"id": "C117", "title": "ListSampler on a database data set", "statement": "A ListSampler on a data set in a database returns n samples of as many records of a group as it was asked for whenever a sampler with the same arguments does so on the same data set in memory; it does not change its arguments, and the data sets do not change.", "quantifier": "every program that made the data set, arguments, random streams and order of rows", "why_tests_cant": "Random choices; pairs of programs.", "anchors": ["DRecPy/Sampler/list_sampler.py:__init__", "DRecPy/Sampler/list_sampler.py:sample_group_records", "DRecPy/Dataset/db_dataset.py:unique", "DRecPy/Dataset/db_dataset.py:select"]}
{"id": "C118", "title": "Caser can be trained on a database data set", "statement": "fit of Caser on a data set in a database gets its batches whenever they can be taken from the same data set in memory; other data sets do not change.", "quantifier": "every program that made the data set, L, T, neg_ratio, threshold, sort column, number of epochs, batch size, random streams and order of rows", "why_tests_cant": "Random choices; pairs of programs; tests use data sets in memory.", "anchors": ["DRecPy/Recommender/caser.py:_pre_fit", "DRecPy/Recommender/caser.py:_sample_batch", "DRecPy/Recommender/recommender_abc.py:fit", "DRecPy/Dataset/db_dataset.py:unique"]}
{"id": "C119", "title": "batches of DMF and CDAE from a database data set", "statement": "Training DMF or CDAE on a data set in a database takes one batch of batch_size samples in each epoch. A sample is the user, item and interaction of a record at or above the threshold or, labelled by its draw, the value 0 with a pair that has no record or one below the threshold. DMF gets the vectors of the users and items and the interactions, scaled to the range of the data if use_nce is set; CDAE gets for the user of the sample which items reach the threshold, and that list with the entries whose draw is below the corruption level set to 0 and the others divided by 1 - level. Fit raises only if no record reaches the threshold, or DMF has to scale equal interactions, or CDAE has no threshold; other data sets do not change.", "quantifier": "every program that made the data set, threshold, neg_ratio, number of epochs, batch size, random streams, size of the caches and order of rows", "why_tests_cant": "Random choices over a database; tests use data sets in memory.", "anchors": ["DRecPy/Recommender/dmf.py:_sample_batch", "DRecPy/Recommender/dmf.py:_preprocess_input", "DRecPy/Recommender/cdae.py:_sample_batch", "DRecPy/Recommender/cdae.py:_reconstruct_for_training", "DRecPy/Sampler/point_sampler.py:sample", "DRecPy/Recommender/recommender_abc.py:fit", "DRecPy/Recommender/recommender_abc.py:_standardize_value", "DRecPy/Dataset/db_dataset.py:select_user_interaction_vec"]}
{"id": "C120", "title": "training DMF and CDAE on a database data set comes to an end", "statement": "Training DMF or CDAE on a data set in a database returns or raises if there is a pair of a user and an item without a record or with one below the threshold, or if no draw asks for a negative sample, provided that the random streams give every finite sequence again and again. If there is no such pair, a draw asks for one, and nothing raises for the reasons given for its batches, training never returns, for any random streams.", "quantifier": "every program that made the data set, threshold, neg_ratio, number of epochs, batch size, random streams, size of the caches and order of rows", "why_tests_cant": "Termination of loops driven by randomness; a call that never returns.", "anchors": ["DRecPy/Recommender/dmf.py:_sample_batch", "DRecPy/Recommender/cdae.py:_sample_batch", "DRecPy/Sampler/point_sampler.py:sample", "DRecPy/Dataset/db_dataset.py:null_interaction_pair_generator", "DRecPy/Dataset/db_dataset.py:select_random_generator"]}
{"id": "C121", "title": "the log file of a recommender has its messages", "statement": "The log file of a recommender made with log_file=True has the messages of that recommender, once each and in order, and no others; the console has every message of verbose recommenders once.", "quantifier": "every sequence of making recommenders and of messages", "why_tests_cant": "Global state of the logging module; depends on other recommenders of the process.", "anchors": ["DRecPy/Recommender/recommender_abc.py:__init__", "DRecPy/Recommender/recommender_abc.py:_info", "DRecPy/Recommender/recommender_abc.py:_warn", "DRecPy/Recommender/recommender_abc.py:_error"]}
{"id": "C122", "title": "saved recommenders can be loaded", "statement": "save writes a recommender to a file, and load gives it back as it was when it was saved, whatever happened in between and independent of the objects of the program; a save that fails leaves an older file as it was.", "quantifier": "every class of recommender, every history of fits, changes of data sets, saves and loads", "why_tests_cant": "Interaction of many calls; depends on every object that can be reached.", "anchors": ["DRecPy/Recommender/recommender_abc.py:save", "DRecPy/Recommender/recommender_abc.py:load", "DRecPy/Recommender/recommender_abc.py:fit", "DRecPy/Sampler/point_sampler.py:__init__", "DRecPy/Sampler/list_sampler.py:__init__"]}
{"id": "C123", "title": "evaluation after a split counts every test user", "statement": "After a data set is split, a recommender is fitted on the training part and recommendation_evaluation is called with the test part, the call returns, for every interleaving of its threads in which every task goes on, and its results are averages over one case for each of the first n_test_users test users with enough liked test items; ranking_evaluation loses no test user to an exception. Every test row can be predicted.", "quantifier": "every data set with integer ids, split function, arguments, neighbourhood model or predicting model that does not raise, generators of random numbers and interleaving of the threads", "why_tests_cant": "Composition of splitting, training and concurrent evaluation; tests use fixed parts.", "anchors": ["DRecPy/Evaluation/Splits/leave_k_out.py:leave_k_out", "DRecPy/Evaluation/Splits/matrix_split.py:matrix_split", "DRecPy/Evaluation/Splits/random_split.py:random_split", "DRecPy/Evaluation/Processes/recommendation_evaluation.py:recommendation_evaluation", "DRecPy/Evaluation/Processes/ranking_evaluation.py:ranking_evaluation", "DRecPy/Recommender/recommender_abc.py:fit", "DRecPy/Recommender/recommender_abc.py:recommend", "DRecPy/Recommender/recommender_abc.py:rank", "DRecPy/Recommender/recommender_abc.py:predict"]}
{"id": "C124", "title": "a recommender made with a seed trains the same each time", "statement": "fit of a recommender made with a seed gives the same model for the same data and arguments, whatever else the program does: makes and fits other recommenders, fits this one before, or uses Python's random module.", "quantifier": "every sequence of making and fitting recommenders and of using and seeding the global generators, every seed, data and training", "why_tests_cant": "Global state of TensorFlow; depends on the whole program.", "anchors": ["DRecPy/Recommender/recommender_abc.py:__init__", "DRecPy/Recommender/cdae.py:_pre_fit", "DRecPy/Recommender/cdae.py:_reconstruct_for_training", "DRecPy/Recommender/dmf.py:_pre_fit", "DRecPy/Recommender/caser.py:_pre_fit", "DRecPy/Sampler/point_sampler.py:__init__", "DRecPy/Sampler/list_sampler.py:__init__"]}
{"id": "C125", "title": "a PointSampler with a seed can start with any positive record", "statement": "For every record at or above the threshold there is a seed for which it is the first sample of a PointSampler.", "quantifier": "every data set with internal ids, threshold, neg_ratio, record, and every sequence of words a generator can give", "why_tests_cant": "All seeds; a link between generators that no single run shows.", "anchors": ["DRecPy/Sampler/point_sampler.py:__init__", "DRecPy/Sampler/point_sampler.py:sample", "DRecPy/Dataset/mem_dataset.py:select_random_generator"]}
{"id": "C126", "title": "verbose only changes what is shown", "statement": "fit with verbose=True leaves the model with the same weights as with verbose=False, and raises only if that does; epoch_callback_fn is called in both.", "quantifier": "every training step, callback function, early stopping rule, number of epochs and frequencies", "why_tests_cant": "Pairs of runs over all histories of metric values.", "anchors": ["DRecPy/Recommender/recommender_abc.py:fit", "DRecPy/Evaluation/loss_tracker.py:display_graph", "DRecPy/Recommender/EarlyStopping/max_validation_value_rule.py:_compute_best_epoch"]}
{"id": "C127", "title": "constructors of recommenders check their arguments", "statement": "A constructor of a recommender raises for a similarity, aggregation or loss that is not supported, for layers of DMF that are no list, are empty or end in different sizes, and for arguments it does not have, and returns otherwise. A call that raises changes nothing else: later training and logs are as without it.", "quantifier": "every class, every keyword arguments, every program that constructs recommenders, logs and draws random numbers", "why_tests_cant": "Global state of TensorFlow and the logging module after an exception; all values of arguments.", "anchors": ["DRecPy/Recommender/recommender_abc.py:__init__", "DRecPy/Recommender/cdae.py:__init__", "DRecPy/Recommender/dmf.py:__init__", "DRecPy/Recommender/caser.py:__init__", "DRecPy/Recommender/Baseline/base_knn.py:__init__"]}
{"id": "C128", "title": "early stopping rules get the metrics they require", "statement": "A rule that requires some metrics is given, for each of them, the values the callback function reported under that name or, if there are none, under that name with a suffix '@k'; fit does not use the rule while a required metric has no values. A rule that requires none cannot be made.", "quantifier": "every subclass of the base class, required metrics and history of results", "why_tests_cant": "All combinations of names with and without suffixes.", "anchors": ["DRecPy/Recommender/EarlyStopping/early_stopping_rule_abc.py:__init__", "DRecPy/Recommender/EarlyStopping/early_stopping_rule_abc.py:compute"]}
{"id": "C129", "title": "moving a better recommendation up never lowers a ranking metric", "statement": "If a relevant item is moved up past items that are not relevant, HitRatio, Recall, Precision, FScore, AveragePrecision and ReciprocalRank still return a value if they did before, and not a smaller one; the same holds for DCG and NDCG if an item is moved up past items with at most its relevancy. So no list beats the one in which the relevant items come first.", "quantifier": "every list of recommendations, with repetitions too, any number of moves, relevant items, k, beta, relevancies (for NDCG not negative; for HitRatio ids of one kind)", "why_tests_cant": "A relation between pairs of lists of any length.", "anchors": ["DRecPy/Evaluation/Metrics/ranking.py:HitRatio", "DRecPy/Evaluation/Metrics/ranking.py:AveragePrecision", "DRecPy/Evaluation/Metrics/ranking.py:FScore", "DRecPy/Evaluation/Metrics/ranking.py:DCG", "DRecPy/Evaluation/Metrics/ranking.py:NDCG"]}
{"id": "C130", "title": "answers of rank and recommend fit together", "statement": "recommend with a smaller n gives the first items of the longer list, with a threshold those at or above it, which come first, and with novelty the list without the items the user has interacted with, in the same order. A ranking of fewer items is the ranking of more items without the others, and recommend is rank with all items.", "quantifier": "every recommender of the library, data set, user, items, n, threshold and novelty", "why_tests_cant": "Relations between pairs of calls, for all lists of items.", "anchors": ["DRecPy/Recommender/recommender_abc.py:rank", "DRecPy/Recommender/recommender_abc.py:recommend", "DRecPy/Recommender/recommender_abc.py:_rank", "DRecPy/Recommender/recommender_abc.py:_recommend", "DRecPy/Recommender/cdae.py:_rank", "DRecPy/Recommender/caser.py:_rank", "DRecPy/Recommender/Baseline/user_knn.py:_rank", "DRecPy/Recommender/Baseline/item_knn.py:_rank"]}
{"id": "C131", "title": "the numbers of a data set fit those of its parts", "statement": "If select with one condition returns, select with the opposite condition returns the other records. Lengths of two such parts, and of what drop takes away and leaves, add up to the length of the data set, max and min are the larger and smaller of those of the parts, and count_unique is at least that of each part and at most their sum, which it is exactly if no combination is in both. unique a second time changes nothing, and more columns give more combinations.", "quantifier": "every data set in memory without NaN, with and without internal ids, column, operator and literal", "why_tests_cant": "Relations between several calls, for all data.", "anchors": ["DRecPy/Dataset/mem_dataset.py:select", "DRecPy/Dataset/mem_dataset.py:drop", "DRecPy/Dataset/mem_dataset.py:max", "DRecPy/Dataset/mem_dataset.py:min", "DRecPy/Dataset/mem_dataset.py:unique", "DRecPy/Dataset/dataset_abc.py:count_unique"]}
{"id": "C132", "title": "regression metrics of parts, as distances, and at another scale", "statement": "MSE and MAE of two lists of predictions together are the weighted mean of those of the lists, and RMSE the root of the weighted mean of the squares, so none is outside of the two values. MAE and RMSE of A and C are at most those of A and B plus those of B and C. Multiplying all values by k multiplies MSE by k*k and RMSE and MAE by |k|; adding k changes none. A constant prediction c has the MSE of the mean of the true values plus the square of its distance from it. Results of predictive_evaluation without n_test_predictions are not outside of those on two parts of the test data, although they are rounded.", "quantifier": "all lists of true values and predictions, any scale, every model, test data in memory and its parts", "why_tests_cant": "Inequalities between results for lists of any length and any reals.", "anchors": ["DRecPy/Evaluation/Metrics/regression.py:MSE", "DRecPy/Evaluation/Metrics/regression.py:RMSE", "DRecPy/Evaluation/Metrics/regression.py:MAE", "DRecPy/Evaluation/Processes/predictive_evaluation.py:predictive_evaluation"]}
{"id": "C133", "title": "asking for more metrics or k leaves the other values as they are", "statement": "ranking_evaluation, recommendation_evaluation and predictive_evaluation return for a metric (and k) the same value, whatever other metrics and k they are called with, whatever max_concurrent_threads and verbose are, and however the threads are interleaved.", "quantifier": "every model and test data in memory, metrics with different names, lists of k without repetitions, other arguments and seed equal", "why_tests_cant": "Pairs of calls, for all interleavings and data.", "anchors": ["DRecPy/Evaluation/Processes/ranking_evaluation.py:ranking_evaluation", "DRecPy/Evaluation/Processes/recommendation_evaluation.py:recommendation_evaluation", "DRecPy/Evaluation/Processes/recommendation_evaluation.py:_recommendation_evaluation_user", "DRecPy/Evaluation/Processes/predictive_evaluation.py:predictive_evaluation", "DRecPy/Evaluation/Metrics/ranking.py:NDCG"]}
{"id": "C134", "title": "HitRatio, Recall, ReciprocalRank and DCG of an evaluation do not fall with k", "statement": "In the results of ranking_evaluation and recommendation_evaluation the values of HitRatio, Recall and ReciprocalRank at a larger k are not smaller than at a smaller k, although they are averages, rounded, over the users for which there is a value. The same holds for DCG if no interaction in the test data is negative.", "quantifier": "every model and test data (for DCG with integer ids and, in ranking_evaluation, a rank that returns only items it was asked for), arguments, seed and interleaving of threads; metrics with different names, k without repetitions", "why_tests_cant": "Inequalities between averages over all users, for all data and interleavings.", "anchors": ["DRecPy/Evaluation/Processes/ranking_evaluation.py:ranking_evaluation", "DRecPy/Evaluation/Processes/recommendation_evaluation.py:recommendation_evaluation", "DRecPy/Evaluation/Metrics/ranking.py:HitRatio", "DRecPy/Evaluation/Metrics/ranking.py:Recall", "DRecPy/Evaluation/Metrics/ranking.py:ReciprocalRank"]}
{"id": "C135", "title": "a limit on test users evaluates the first users as an unlimited evaluation does", "statement": "ranking_evaluation and recommendation_evaluation have one outcome for each user, in the order in which the users appear in the test data, and with n_test_users=n they return the averages over the first n outcomes. So what happens to a user does not depend on n_test_users, and a limit that is not below the number of users changes nothing.", "quantifier": "every model, test data in memory with integer ids, n, other arguments and seed equal, every interleaving of threads", "why_tests_cant": "Relations between calls for all n, data and interleavings; each user has a generator of their own.", "anchors": ["DRecPy/Evaluation/Processes/ranking_evaluation.py:ranking_evaluation", "DRecPy/Evaluation/Processes/recommendation_evaluation.py:recommendation_evaluation"]}
