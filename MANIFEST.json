{"claims":[
{"property": "C01", "status": "proved", "theorems": ["C01_select_exact"], "note": ""},
{"property": "C02", "status": "proved", "theorems": ["C02_queries_compose"], "note": ""},
{"property": "C03", "status": "proved", "theorems": ["C03_copies_behave_as_separate_values", "C03_other_data_sets_unchanged"], "note": ""},
{"property": "C04", "status": "proved", "theorems": ["C04_drop_partitions"], "note": "in-memory data set; the database one is under C54"},
{"property": "C05", "status": "proved", "theorems": ["C05_unique_first_rows"], "note": ""},
{"property": "C06", "status": "proved", "theorems": ["C06_max_attained_bound", "C06_min_attained_bound"], "note": ""},
{"property": "C07", "status": "proved", "theorems": ["C07_ids_are_a_numbering"], "note": ""},
{"property": "C08", "status": "proved", "theorems": ["C08_remove_undoes_assign"], "note": ""},
{"property": "C09", "status": "partial", "theorems": ["C09_raw_queries_integer_ids_partial", "C09_raw_queries_text_ids_partial", "C09_text_range_query_refuted", "C09_float_id_query_refuted"], "note": "Refuted as stated: once internal ids are assigned, range comparisons on text ids compare internal ids, and float ids are never found. Proved for integer ids (any accepted query) and for == and != on text ids."},
{"property": "C10", "status": "partial", "theorems": ["C10_select_by_formatted_id_partial", "C10_large_ids_refuted", "C10_text_ids_refuted"], "note": "Refuted as stated: ids beyond 2^53 are conflated and unquoted text ids raise. Proved for integer ids up to 2^53."},
{"property": "C11", "status": "proved", "theorems": ["C11_vectors_sum_interactions"], "note": ""},
{"property": "C12", "status": "partial", "theorems": ["C12_vectors_current_partial", "C12_stale_after_drop_refuted", "C12_gap_after_select_refuted", "C12_single_user_refuted"], "note": "Refuted as stated: the cache is stale after an in-place drop, ids have gaps after select, and a one-user data set fails on the second item vector. Proved for histories of reads and apply on the interaction column with at least two users."},
{"property": "C13", "status": "proved", "theorems": ["C13_apply_rewrites_one_column", "C13_reserved_columns_refused", "C13_raising_function_changes_nothing", "C13_apply_composes"], "note": ""},
{"property": "C14", "status": "proved", "theorems": ["C14_select_one_is_first", "C14_exists_iff_not_empty", "C14_values_are_the_rows"], "note": ""},
{"property": "C15", "status": "partial", "theorems": ["C15_save_all_columns_partial", "C15_requested_columns_refuted"], "note": "Refuted as stated: the in-memory save ignores the requested columns. Proved: it writes every non-id column."},
{"property": "C16", "status": "proved", "theorems": ["C16_random_split_partition", "C24_random_split_keeps_source"], "note": "if the test size rounds down to 0 the call raises AssertionError"},
{"property": "C17", "status": "proved", "theorems": ["C17_leave_k_out_exact"], "note": ""},
{"property": "C18", "status": "proved", "theorems": ["C18_leave_ratio_out_exact"], "note": ""},
{"property": "C19", "status": "proved", "theorems": ["C19_test_users_are_in_train"], "note": "integer user ids"},
{"property": "C20", "status": "partial", "theorems": ["C20_latest_held_out_partial", "C20_latest_held_out_refuted"], "note": "Refuted as stated: a later row always replaces the smallest heap entry, so older rows are held out when rows are not listed by time. Proved when the rows of each user are listed by time."},
{"property": "C21", "status": "proved", "theorems": ["C21_matrix_split_exact", "C21_matrix_split_users_trainable"], "note": "integer user ids"},
{"property": "C22", "status": "proved", "theorems": ["C22_leave_k_out_schedule_independent", "C22_matrix_split_schedule_independent", "C22_leave_k_out_user_sample"], "note": ""},
{"property": "C23", "status": "partial", "theorems": ["C23_leave_k_out_returns_partial", "C23_matrix_split_returns_partial", "C23_quiet_splits_return", "C23_splits_return_refuted", "C23_matrix_split_returns_refuted"], "note": "Refuted as stated: with text user ids and verbose=True the progress loop never ends, under any schedule. Proved: integer ids, every fair schedule; verbose=False, every data set."},
{"property": "C24", "status": "proved", "theorems": ["C24_leave_k_out_keeps_source", "C24_matrix_split_keeps_source", "C24_random_split_keeps_source"], "note": ""},
{"property": "C25", "status": "partial", "theorems": ["C25_recall_is_proportion", "C25_precision_is_proportion", "C25_hit_ratio_is_proportion_partial", "C25_hit_ratio_mixed_ids_refuted", "C25_monotone_in_k", "C25_hit_ratio_is_recall_partial"], "note": "Refuted as stated: HitRatio compares str(id), so ids 1 and 1.0 do not match and 1 and \"1\" do. Everything is proved for Recall and Precision, and for HitRatio when all ids are ints or all are texts."},
{"property": "C26", "status": "partial", "theorems": ["C26_recall_one_partial", "C26_hit_ratio_one_partial", "C26_precision_one", "C26_recall_repeated_refuted"], "note": "Refuted as stated: a relevant list with repetitions keeps Recall below 1. Proved for distinct relevant items; Precision fully proved (as an equivalence)."},
{"property": "C27", "status": "partial", "theorems": ["C27_f_score_between_partial", "C27_f_score_harmonic_partial", "C27_nothing_relevant_refuted"], "note": "Refuted as stated: whenever nothing recommended is relevant the call raises ZeroDivisionError. Proved in all other cases."},
{"property": "C28", "status": "proved", "theorems": ["C28_reciprocal_rank"], "note": ""},
{"property": "C29", "status": "proved", "theorems": ["C29_average_precision"], "note": "proved as an equivalence"},
{"property": "C30", "status": "proved", "theorems": ["C30_ndcg_range", "C30_ndcg_ideal", "C30_dcg_value", "C30_ndcg_value", "C30_dcg_missing", "C30_repetitions_exceed_one"], "note": "over the reals"},
{"property": "C31", "status": "proved", "theorems": ["C31_only_first_k", "C31_truncated_list"], "note": ""},
{"property": "C32", "status": "proved", "theorems": ["C32_regression_metrics", "C32_regression_symmetric", "C32_regression_rejects"], "note": "over the reals; sklearn's mean_squared_error and mean_absolute_error are modelled"},
{"property": "C33", "status": "proved", "theorems": ["C33_average_is_the_mean"], "note": "exact rational arithmetic; the code accumulates in floating point"},
{"property": "C34", "status": "partial", "theorems": ["C34_first_best_epoch_partial", "C34_index_of_maximum", "C34_missing_metric_raises", "C34_first_best_epoch_refuted", "C34_no_values_raises"], "note": "Refuted as stated: when some callbacks do not report the metric, its values are matched with the wrong epochs. Proved when every callback reports the same metrics; the missing-metric case is proved in general."},
{"property": "C35", "status": "partial", "theorems": ["C35_weights_of_picked_epoch_partial", "C35_weights_of_best_epoch_partial", "C35_no_rule_last_epoch", "C35_layers_refuted", "C35_epoch_zero_refuted", "C35_second_fit_refuted"], "note": "Refuted as stated: weights of registered layers and models are never reverted, a best value before training reverts to the last epoch, and a second fit reverts to a snapshot of the first. Proved for the first fit and variables registered themselves, when the picked epoch is at least 1 and every callback reports the same metrics."},
{"property": "C36", "status": "partial", "theorems": ["C36_fit_returns_partial", "C36_rule_without_callback_refuted", "C36_no_epochs_refuted", "C36_rare_callback_refuted", "C36_verbose_graph_refuted"], "note": "Refuted as stated: UnboundLocalError when the rule finds no results at the last epoch or with no epochs, and an error of the graph when a metric is not reported by every callback. Proved for MaxValidationValueRule when the metric is reported by every callback and the callback is called at least once."},
{"property": "C37", "status": "proved", "theorems": ["C37_standardise", "C37_standardise_increasing", "C37_rescale_standardise", "C37_range_of_data"], "note": "exact arithmetic"},
{"property": "C38", "status": "partial", "theorems": ["C38_rank_best_first", "C38_rank_returns", "C38_rank_order_of_request", "C38_cdae_best_first", "C38_caser_novelty_partial", "C38_caser_without_novelty_refuted"], "note": "Refuted as stated: Caser without novelty ranks all items instead of the requested ones. Proved for every model that inherits _rank (any prediction function), for CDAE, and for Caser with novelty. The KNN rankings are under C43."},
{"property": "C39", "status": "proved", "theorems": ["C39_recommend_best_first", "C39_cdae_recommend_best_first", "C39_recommend_returns"], "note": "for every prediction function; also shows that no omitted candidate is better"},
{"property": "C40", "status": "partial", "theorems": ["C40_predict_unknown", "C40_predict_skip_errors", "C40_rank_ignores_unknown_items", "C40_rank_unknown_item_raises", "C40_unknown_user_raises", "C40_cdae_unknown_item_refuted", "C40_rank_unknown_with_n_refuted", "C40_rank_text_item_refuted", "C40_predict_raises"], "note": "Refuted as stated: CDAE answers an unknown item with its whole score vector, n = len(items) raises when one item is unknown, and with integer item ids a text id raises even when invalid items are to be skipped. Proved for models that need both ids, and for unknown ids of the column's type."},
{"property": "C41", "status": "partial", "theorems": ["C41_neighbours_best", "C41_fit_returns", "C41_second_fit_refuted", "C41_all_fits_partial", "C41_again_partial", "C41_same_data"], "note": "Refuted as stated: the similarities are never emptied, so a second fit of the same model keeps those of the first data set. Proved in full for the first fit of a model, for every similarity function; after any number of fits, neighbours go by the last fit that gave two entities a similarity, and are those of a new model if no pair has an older one only, in particular on the same data."},
{"property": "C42", "status": "proved", "theorems": ["C42_prediction_is_mean", "C42_between_neighbours", "C42_within_data"], "note": "For interactions that are numbers; integers up to 2^53 in absolute value. A repeated pair counts with its first row."},
{"property": "C43", "status": "partial", "theorems": ["C43_item_knn_ranks_predictions", "C43_item_knn_recommends_predictions", "C43_user_knn_ranks_predictions_partial", "C43_user_knn_recommends_predictions_partial", "C43_user_knn_scores_partial", "C43_rank_returns", "C43_recommend_returns", "C43_user_knn_repeats_refuted", "C43_user_knn_averages_refuted"], "note": "ItemKNN proved in full. Refuted as stated for UserKNN: rank uses all rows of a repeated pair and predict only the first; with use_averages rank leaves out items that predict scores. Proved for UserKNN without these."},
{"property": "C45", "status": "proved", "theorems": ["C45_similarity_kept", "C45_towards_zero", "C45_monotone", "C45_limit", "C45_negative_shrinkage_refuted"], "note": "The refutation shows that the condition of a non-negative shrinkage is needed."},
{"property": "C44", "status": "partial", "theorems": ["C44_similarities_partial", "C44_nan", "C44_cosine_cf_value", "C44_pearson_value", "C44_cosine_value", "C44_jaccard_value", "C44_msd_value", "C44_refuted"], "note": "Refuted as stated: when all positions of the matrix hold one value, the mean squared difference of an entity to itself is not a number. Proved for every entry that is a number, for all six metrics, together with the exact value of the entries and the only cases where an entry is not a number. Over the reals; scipy's sparse matrices and sklearn's cosine_similarity are modelled."},
{"property": "C65", "status": "partial", "theorems": ["C65_similarity_returns_partial", "C65_similarity_error", "C65_fit_refuted"], "note": "Refuted as stated: Pearson correlation raises when every entity has equal ratings only, and cosine_cf when all are 0. The exact condition is proved for every metric."},
{"property": "C66", "status": "partial", "theorems": ["C66_row_means_partial", "C66_refuted"], "note": "Refuted as stated: the averages of rows are subtracted, which can even change the sign. What is computed is proved."},
{"property": "C67", "status": "partial", "theorems": ["C67_jaccard_same_partial", "C67_refuted"], "note": "Refuted as stated: interactions of 0 count only in the iterative version. Proved for entities without interactions of 0."},
{"property": "C46", "status": "partial", "theorems": ["C46_trained_data_is_coded", "C46_samples_are_labelled_partial", "C46_no_negatives_for_ratio_0", "C46_none_triples_refuted"], "note": "Refuted as stated: if no row reaches the threshold the first positive draw raises and later ones return (None, None, None). Proved for every sequence of calls if some row reaches the threshold."},
{"property": "C47", "status": "proved", "theorems": ["C47_pairs_are_unobserved", "C47_returns_when_drawn", "C47_full_matrix_never_returns"], "note": "For the in-memory data set after internal ids were assigned; the random generator is any stream of numbers."},
{"property": "C68", "status": "partial", "theorems": ["C68_below_threshold_refuted"], "note": "Refuted as stated: the exception raised by the query for pairs above the threshold is swallowed and every observed pair is excluded, whatever its value."},
{"property": "C48", "status": "partial", "theorems": ["C48_samples_are_windows_partial", "C48_sizes_with_equal_bounds_partial", "C48_only_failure_is_too_few_records", "C48_sizes_swapped_refuted", "C48_randint_raises_refuted", "C48_text_groups_refuted"], "note": "Refuted as stated: without max_positive_records the sizes of positives and targets are swapped; groups of between max and max + n_targets records raise ValueError; groups by a text column raise NameError. Proved: order, contiguity, negatives in every case, and the sizes when the minimum equals the maximum."},
{"property": "C49", "status": "proved", "theorems": ["C49_predictive_evaluation", "C49_recommenders", "C49_rounding", "C49_ties", "C49_rounding_order"], "note": "For models that take 5.0 for 5 and raise for no row; every recommender with skip_errors=True and ids of one type does (C49_recommenders). Metrics over the reals."},
{"property": "C50", "status": "proved", "theorems": ["C50_ranking_averages", "C50_recommendation_averages", "C50_recommender_ids", "C50_values_in_unit", "C50_schedule_independent", "C50_bad_arguments_raise", "C50_own_generator", "C50_unknown_items_left_out"], "note": "For integer ids (see C69) and metrics of different classes (see C71); users and random choices are arbitrary. Over the reals."},
{"property": "C51", "status": "partial", "theorems": ["C51_generated_negatives_partial", "C51_generation_terminates", "C51_observed_refuted", "C51_unknown_items_refuted"], "note": "Refuted as stated: items the user rated below the threshold in the training data are generated as negatives, and the generated numbers are internal ids used as raw ids, which need not be items at all. Proved: the number of negatives, that the generated ones are distinct, in range and not liked, and termination."},
{"property": "C52", "status": "partial", "theorems": ["C52_lowest_is_used_partial", "C52_highest_refuted", "C52_recommendation_highest_refuted", "C52_reciprocal_rank_of_best"], "note": "Refuted as stated: it is the positive with the lowest interaction, in both processes. That this is what is used is proved."},
{"property": "C53", "status": "partial", "theorems": ["C53_ranking_returns", "C53_recommendation_returns_partial", "C53_recommendation_verbose_hangs", "C53_recommendation_verbose_refuted"], "note": "Refuted as stated: recommendation_evaluation with verbose=True never returns if a user's task raises. Proved in full for ranking_evaluation, and for recommendation_evaluation with verbose=False or if no task raises."},
{"property": "C69", "status": "partial", "theorems": ["C69_text_ids_refuted", "C50_ranking_averages"], "note": "Refuted as stated: text user ids make every task raise NameError, so all results are 0 and recommendation_evaluation does not return. Proved for integer ids (C50)."},
{"property": "C70", "status": "partial", "theorems": ["C70_float_ids_refuted"], "note": "Refuted as stated: with a float interaction column the relevant items are read as 10.0 while the recommender returns 10, and HitRatio compares their texts."},
{"property": "C71", "status": "partial", "theorems": ["C71_same_class_refuted", "C50_ranking_averages", "C50_recommendation_averages"], "note": "Refuted as stated: FScore(1) and FScore(2) share one result, the average of both. Proved for metrics of different classes (C50)."},
{"property": "C54", "status": "partial", "theorems": ["C54_histories_partial", "C54_attributes_partial", "C54_unique_refuted", "C54_name_refuted", "C54_no_columns_refuted", "C54_remove_refuted", "C54_letter_case_refuted", "C54_wrong_type_raises"], "note": "Refuted as stated: a data set made by unique() without user, item or interaction raises at the fourth read; a text in a condition equal to a column name is taken for the column; unique([]) in place raises and corrupts the data set; remove_internal_ids shifts the columns when the ids are not last. Proved: every history of calls meeting the conditions of DbSpec.safe (any number of data sets, any row order, with materialisation at any of the moments the code materialises) answers every call as on lists of rows and only calls on data sets lacking columns or types may raise."},
{"property": "C55", "status": "partial", "theorems": ["C55_isolated_partial", "C55_assign_refuted", "C55_apply_refuted"], "note": "Refuted as stated: assigning ids again on a materialised table changes the ids of copies, and apply with an open generator changes copies. Proved for every history meeting DbSpec.safe (no open generator for apply and assign_internal_ids, no other data set using ids of the same table at assign_internal_ids)."},
{"property": "C56", "status": "partial", "theorems": ["C56_tables_partial", "C56_last_partial", "C56_alias_refuted"], "note": "Refuted as stated: two paths for the same file are counted separately, so closing one drops the table of the other. Proved for every history in which a file is opened under one path only."},
{"property": "C57", "status": "partial", "theorems": ["C57_others_partial", "C57_refuted", "C57_save_refused"], "note": "Refuted as stated: close drops the table interactions of the loaded file. Proved: other files, other tables and tables another data set has open are untouched."},
{"property": "C58", "status": "partial", "theorems": ["C58_rows_partial", "C58_api_refuted"], "note": "Refuted as stated: select, assign_internal_ids and save raise TypeError since column types are not restored. Proved: the rows survive and can be read."},
{"property": "C72", "status": "partial", "theorems": ["C72_rejected_partial", "C72_refuted"], "note": "Refuted as stated: the rows before the failing one keep their new values. Proved: calls rejected because of their column change nothing."},
{"property": "C73", "status": "partial", "theorems": ["C73_fresh_partial", "C73_refuted"], "note": "Refuted as stated: vectors are cached and never invalidated. Proved for vectors that are not in the cache."},
{"property": "C74", "status": "partial", "theorems": ["C74_last_partial", "C74_refuted"], "note": "Refuted as stated: KeyError while other data sets use the table. Proved for the last data set on a file."},
{"property": "C75", "status": "proved", "theorems": ["C75_lookups", "C75_ids_as_text"], "note": "After every history meeting DbSpec.safe; the looked-up raw id has the type of its column."},
{"property": "C76", "status": "partial", "theorems": ["C76_at_rest_partial", "C76_refuted"], "note": "Refuted as stated: the fourth read materialises a derived data set into a table without ids. Proved for data sets with nothing pending."},
{"property": "C59", "status": "partial", "theorems": ["C59_database_partial", "C59_memory_partial", "C59_comma_refuted", "C59_shift_refuted", "C59_number_refuted", "C59_empty_refuted", "C59_single_refuted", "C59_memory_refuted", "C59_null_refuted", "C59_memory_missing"], "note": "Refuted as stated: the database writes fields without quotes (a comma shifts or breaks the record, possibly unnoticed), texts that look like numbers come back as numbers, an empty data set cannot be read again, a single column is written one character per field; in memory, texts like NA become empty and the argument columns is ignored. Proved: for all other values both implementations give the same rows, for every history before, every order SQLite returns rows in and every chunk size; in memory also with separators, quotes and newlines in texts."},
{"property": "C60", "status": "partial", "theorems": ["C60_unique_partial", "C60_unique_refuted", "C60_save_partial", "C60_save_refuted"], "note": "Refuted as stated: unique appends 'rid' to the caller's list, save removes 'rid', 'uid' and 'iid' from it. Proved: they do so exactly when it is (not) already there."},
{"property": "C61", "status": "partial", "theorems": ["C61_import_partial", "C61_split_partial", "C61_chunks_partial", "C61_data_set_partial", "C61_newline_refuted", "C61_unnoticed_refuted", "C61_blank_refuted", "C61_arguments"], "note": "Refuted as stated: a quoted field with a newline is cut at the end of a chunk, giving an error or additional rows; blank lines, files without records and a second ignored column raise. Proved: for files whose records have no newlines (or read in one chunk) the rows are the records, numbered from zero, for every chunk size, delimiter and header, and the data set behaves as one made from these rows in any program."},
{"property": "C62", "status": "partial", "theorems": ["C62_parts_partial", "C62_live_partial", "C62_small_users_refuted", "C62_record_ids_refuted"], "note": "Refuted as stated: users with less than ten rows are in neither part, and record ids differ between the first and later calls. Proved for every history of calls and kills that starts with nothing stored and in which no kill interrupts the writing of a file that is read: all calls return the same two parts, the parts of one leave-10-out split of the full data set; without kills every call succeeds. In memory only; reading of the downloaded files is a parameter."},
{"property": "C63", "status": "partial", "theorems": ["C63_archive", "C63_generated_partial", "C63_generated_refuted", "C63_download_refuted", "C63_never_rebuilt", "C63_archive_deleted"], "note": "Refuted as stated: a generated file (or the file of a data set without archive, bx) that was cut by a kill is read as valid later. Proved: for archives with train and test files (ml-100k) every history with any kills only returns right data; for archives without them kills outside the writing of the two generated files are harmless. Also proved: after a kill between creating the folder and the first file no call ever downloads again."},
{"property": "C64", "status": "partial", "theorems": ["C64_list_partial", "C64_listed", "C64_delete_partial", "C64_results_partial", "C64_blank_refuted", "C64_newline_refuted", "C64_unregister_refuted", "C64_kill_refuted"], "note": "Refuted as stated: paths with blanks at the ends or newlines delete other files, unregistering when nothing is listed raises, a kill while unregistering takes other paths off the list. Proved for all histories with paths on one line without blanks at the ends."},
{"property": "C77", "status": "partial", "theorems": ["C77_import_partial", "C77_import_refuted"], "note": "Refuted as stated: every listed file is deleted, also those of running programs. Proved: files that are not listed are safe."},
{"property": "C78", "status": "partial", "theorems": ["C78_save", "C78_killed_partial", "C78_killed_refuted"], "note": "Refuted as stated: between removing the old file and renaming the new one there is no file. Proved: the completed save is right, and a killed one leaves the old file, the new file, or nothing with the new file under the name with .tmp; never a part of a file."},
{"property": "C79", "status": "partial", "theorems": ["C79_offline_partial", "C79_never_repaired", "C79_repeated_refuted"], "note": "Refuted as stated: the answer of the server is not checked; an answer that is not an archive makes every later call raise FileNotFoundError, and for a data set without archive (bx) it is the data set from then on. Proved: without a connection nothing is changed on disk, so a later call works."},
{"property": "C80", "status": "partial", "theorems": ["C80_copy_refuted", "C80_without_copy_partial", "C80_shared_refuted"], "note": "Refuted as stated: fit(copy_dataset=True) raises AttributeError for every data set in memory (the method __copy__ does not exist), and without copy the data set of the caller gets the columns uid and iid. Proved: nothing else of it changes. In memory."},
{"property": "C81", "status": "proved", "theorems": ["C81_statistics", "C81_vector_sizes"], "note": "In memory, for data sets with a numeric interaction column and at least one row; the stored minimum is 0 when the minimum is 1."},
{"property": "C82", "status": "proved", "theorems": ["C82_empty_raises"], "note": "In memory, for a numeric interaction column."},
{"property": "C83", "status": "partial", "theorems": ["C83_first_fit", "C83_dmf_again_partial", "C83_when_partial", "C83_cdae_again_refuted", "C83_caser_again_refuted", "C83_stale_networks_refuted"], "note": "Refuted as stated: the second fit of CDAE and Caser raises in its first epoch, because the variables of the first fit stay registered. Proved: the first fit and every fit of DMF update all variables; when a fit works in general. Which variables have gradients is a stated assumption on TensorFlow."},
{"property": "C84", "status": "partial", "theorems": ["C84_dmf", "C84_caser", "C84_cdae_all_pairs", "C84_cdae_partial", "C84_cdae_average_refuted", "C84_cdae_refuted", "C84_cross_entropy_refuted"], "note": "Refuted as stated for CDAE: the loss compares every reconstruction with the vector of every user in the batch, so that the average of the batch is better than right reconstructions, for both losses. Proved for DMF and Caser, and for CDAE when all users of the batch have the same vector. Broadcasting in TensorFlow is modelled."},
{"property": "C85", "status": "partial", "theorems": ["C85_scores_partial", "C85_long_sequences_refuted"], "note": "Refuted as stated: fit raises for L > n_h. Proved for 1 <= L <= n_h. Shapes of TensorFlow operations are modelled."},
{"property": "C86", "status": "partial", "theorems": ["C86_rank_partial", "C86_short_histories_refuted"], "note": "Refuted as stated: raises for users with fewer than L records. Proved for the others, 1 <= L <= n_h."},
{"property": "C87", "status": "proved", "theorems": ["C87_samples", "C87_desired", "C87_sort_column_required"], "note": "In memory, for data sets with internal ids; random choices are arbitrary."},
{"property": "C88", "status": "partial", "theorems": ["C88_desired_partial", "C88_sums", "C88_repeated_refuted", "C88_zero_threshold_refuted", "C88_corrupted", "C88_everything_corrupted"], "note": "Refuted as stated: several rows of a user and item are added before they are compared, and a threshold of at most zero marks every item. Proved for positive thresholds and one row per user and item; the corruption is proved in general."},
{"property": "C89", "status": "partial", "theorems": ["C89_targets_partial", "C89_positive_partial", "C89_negative_refuted", "C89_constant_refuted", "C89_raw_refuted"], "note": "Refuted as stated: with a minimum above zero other than 1, the target of every unobserved pair is negative; equal interactions divide by zero; with use_nce=False targets are the ratings. Proved for a minimum of at most zero or 1."},
{"property": "C90", "status": "partial", "theorems": ["C90_predictions", "C90_below_refuted", "C90_factors"], "note": "Refuted as stated: with ratings from 1 on predictions can be below 1, as the minimum 1 is replaced by 0. Proved: for any weights predictions are within the bounds fit stores. Over the reals."},
{"property": "C91", "status": "partial", "theorems": ["C91_read_df_partial", "C91_missing_label_partial", "C91_swapped_refuted", "C91_one_column_refuted", "C91_equal_text_refuted", "C91_no_such_column_refuted"], "note": "Refuted as stated: labels naming another main column lose columns (swapped user and item labels lose both), one column for two roles raises ValueError, a label equal but not identical to the literal 'user' loses the user column, and item_label='user' does not raise for a frame without it. Proved for three different labels, each the default or naming another column."},
{"property": "C92", "status": "partial", "theorems": ["C92_ready_partial", "C92_repeated_index_refuted", "C92_rid_column_refuted"], "note": "Refuted as stated: repeated index values become repeated record ids, and a column rid is listed twice. Proved for labels as in C91, frames without a column rid and without missing numbers: the data set is well-formed as the other claims assume."},
{"property": "C93", "status": "proved", "theorems": ["C93_factory"], "note": "Loading itself is in C59, C61 and C91."},
{"property": "C94", "status": "proved", "theorems": ["C94_records", "C94_query", "C94_complete", "C94_numbered", "C94_again"], "note": "Random numbers are an arbitrary stream. Conditions of the query are numeric. Every row has internal ids (numbered), as assign_internal_ids gives them (C94_numbered). Returning is proved for streams that draw a user with records."},
{"property": "C95", "status": "proved", "theorems": ["C95_pairs", "C95_later", "C95_successive", "C95_first"], "note": "For a numeric threshold; random numbers are arbitrary streams."},
{"property": "C96", "status": "partial", "theorems": ["C96_hangs_refuted", "C96_single_refuted", "C96_coverage_partial", "C96_returns_partial", "C96_again_partial", "C96_all_return_partial"], "note": "Refuted as stated: when every pair has a record the pull never returns; with a threshold, records below it and only user 0 (or item 0), no pair without a record ever comes. Proved: otherwise every such pair can come first, without a threshold a pull returns once one is drawn, and under streams in which every finite sequence of numbers comes again and again (rich), every such pair and every record below the threshold comes again and again, and any number of pulls return."},
{"property": "C97", "status": "partial", "theorems": ["C97_refuted", "C97_partial"], "note": "Refuted as stated: a user may have several records of an item, on both sides of the threshold. Proved for at most one record per pair."},
{"property": "C98", "status": "partial", "theorems": ["C98_refuted", "C98_partial"], "note": "Refuted as stated: after a call that raised (no record at or above the threshold), calls return (None, None, None). Proved until a call raises; none does if there is a record at or above the threshold."},
{"property": "C99", "status": "partial", "theorems": ["C99_refuted", "C99_fresh_partial"], "note": "Refuted as stated: a cached vector is returned after the interactions changed. Proved for vectors that are not cached; several records are added up."},
{"property": "C100", "status": "proved", "theorems": ["C100_random_split", "C100_seed"], "note": "The product n * ratio is a parameter with the contract of C16."},
{"property": "C101", "status": "proved", "theorems": ["C101_leave_k_out", "C101_users"], "note": "Each call of a database method is one atomic step of a thread. With last_timestamps the label must be a column without missing values."},
{"property": "C102", "status": "partial", "theorems": ["C102_latest_refuted", "C102_latest_partial"], "note": "Refuted as stated: as in memory, a later row always replaces the oldest kept one, so rows must be listed by time. Proved for rows whose times follow their record ids, read by record id."},
{"property": "C103", "status": "proved", "theorems": ["C103_matrix_split", "C103_trainable"], "note": "Each call of a database method is one atomic step of a thread."},
{"property": "C104", "status": "proved", "theorems": ["C104_leave_k_out", "C104_matrix_split"], "note": "For matrix_split only the two reads of the main thread have to be by record id."},
{"property": "C105", "status": "partial", "theorems": ["C105_text_ids_refuted", "C105_large_refuted", "C105_large", "C105_leave_k_out_returns_partial", "C105_matrix_split_returns_partial", "C105_small"], "note": "Refuted as stated: with text user ids and verbose=True the calls never return, under any schedule; on a large data set, after two selections, unique('user') tries to build a table with the user column only and raises AssertionError. Proved for integer user ids when update_state keeps the distinct users (and items) as a query, in particular up to 5000 rows."},
{"property": "C106", "status": "partial", "theorems": ["C106_text_ids_refuted", "C101_leave_k_out", "C103_matrix_split"], "note": "Refuted as stated: the query 'user == a' is not accepted, all tasks fail silently, and every row goes to the train set. The statement for integer ids is C101 and C103."},
{"property": "C107", "status": "partial", "theorems": ["C107_unique_refuted", "C107_text_ids_refuted", "C107_decimal_refuted", "C107_big_refuted", "C107_lookup_refuted", "C107_same_data_partial", "C107_same_answers_partial", "C107_both_return_partial", "C107_same_lookups_partial"], "note": "Refuted as stated: unique() without columns looks at record ids in a database only; text raw ids are compared by number in memory; a decimal literal on internal ids raises in memory only; integers beyond 2^53; numbers of dropped users. Proved for all programs whose calls avoid these cases (fits in TwinSpec.v); translation of ids right after assign_internal_ids."},
{"property": "C108", "status": "partial", "theorems": ["C108_kinds_refuted", "C108_missing_refuted", "C108_number_refuted", "C108_same_file_partial"], "note": "Refuted as stated: a database takes the dtype of a column from the first record, memory from all; texts like NA are missing values in memory; a text interaction is refused by a database only. Proved for files with columns of one kind each, no such texts, and numeric interactions up to 2^53, and the data sets can then be used as a pair of C107."},
{"property": "C109", "status": "proved", "theorems": ["C109_same_start"], "note": "For data sets with integer or text raw ids of at most 2^53 rows, when assign_internal_ids may be called (DbSpec.safe). Bounds are equal as numbers."},
{"property": "C110", "status": "partial", "theorems": ["C110_repeats_refuted", "C110_same_answers_partial", "C110_data_kept_partial", "C110_similarity_order"], "note": "Refuted as stated: when a user has several rows with an item, SQLite decides which one select_one finds, so the prediction can differ. Proved for one row per user and item, integer or text ids, any order of rows at each query, and similarities that do not depend on the order of the rows, which those of the library do not."},
{"property": "C111", "status": "partial", "theorems": ["C111_database_vectors", "C111_same_vectors_partial", "C111_one_user_refuted"], "note": "Refuted as stated: in memory, with exactly one user, item vectors raise ValueError after the first read of a vector. Proved: in a database the vectors are right for any number of users, after any reads; they are as in memory for other numbers of users."},
{"property": "C112", "status": "partial", "theorems": ["C112_same_answers_partial", "C112_data_kept_partial", "C112_one_user_refuted"], "note": "Refuted as stated: with exactly one user, DMF raises ValueError in memory. Proved for other numbers of users, integer or text ids, any networks, any order of rows at each query. The networks are arbitrary functions; training is not included."},
{"property": "C113", "status": "partial", "theorems": ["C113_same_answers_partial", "C113_by_record_id_partial", "C113_data_kept_partial", "C113_no_order_refuted", "C113_ties_refuted", "C113_big_times_refuted"], "note": "Refuted as stated: without a sort column, or with equal sort values of a user, the order in which SQLite returns rows decides; timestamps beyond 2**53 are rounded in memory (all-numeric data with a float column) and not in the database. Proved with integer or text ids when the sort column is there with values up to 2**53 and no equal values for a user, in any order of rows, and for any values up to 2**53 when rows come by record id. The network is an arbitrary function; training is not included, and with batches it does not work on a database (C118)."},
{"property": "C114", "status": "partial", "theorems": ["C114_same_results_partial", "C114_same_successes_partial", "C114_by_record_id_partial", "C114_data_kept_partial", "C114_metrics_orderless", "C114_cut_refuted", "C114_which_exception_refuted", "C114_metric_refuted", "C114_big_ids_refuted"], "note": "Refuted as stated: with fewer predictions than rows, SQLite decides which rows are predicted; without skipping errors it decides which exception is raised first; a metric may look at the order; ids beyond 2**53 are rounded in memory (all-numeric test data with a float column). Proved for ids up to 2**53 and in any order of rows when all rows are predicted and the metrics do not look at the order, as MSE, RMSE and MAE do not (the result always, the exception too if errors are skipped); for any arguments and metrics when rows come by record id."},
{"property": "C115", "status": "partial", "theorems": ["C115_last_items_partial", "C115_big_times_refuted"], "note": "Refuted as stated: sort values beyond 2**53 in a data set of numbers with a float column are compared after rounding. Proved for sort values up to 2**53 on data sets in memory; C113 says when a database gives the same."},
{"property": "C116", "status": "partial", "theorems": ["C116_ranking_partial", "C116_recommendation_partial", "C116_data_kept_partial", "C116_metrics_blind", "C116_hit_ratio_refuted", "C116_order_refuted", "C116_large", "C116_large_refuted"], "note": "Refuted as stated: HitRatio compares texts, and in memory the items of test data with a column of floats are read as floats, so it finds nothing there; the order in which SQLite returns rows decides which users and items are sampled; with test data of more than 5000 rows at the last change and two selections since, both processes raise AssertionError. Proved for integer ids up to 2**53, at most 5000 rows, rows by record id, and metrics that do not tell 3 from 3.0 (all of the library but HitRatio) or test data without floats: for every interleaving the process is running or has the outcome in memory, an exception included, and gets there if every task goes on again and again."},
{"property": "C117", "status": "partial", "theorems": ["C117_samples_refuted", "C117_argument_refuted", "C117_one_record_partial", "C117_raises_partial", "C117_later_partial", "C117_argument_partial", "C117_data_kept_partial", "C117_checks", "C117_negatives_partial"], "note": "Refuted as stated: unique() of a database data set appends 'rid' to the list of group columns it is given, so a group is a single record, and a sampler that needs two records for a sample raises an exception (after 21 tries) where it works in memory. Proved for integer group columns without NULL and numeric thresholds: no sample has two records, such calls always raise, the list of group columns gets 'rid', and the data sets do not change. Also: bad arguments raise AssertionError, and negatives are values of their column that no record of the sample has."},
{"property": "C118", "status": "partial", "theorems": ["C118_caser_refuted", "C118_raises_partial", "C118_data_kept_partial"], "note": "Refuted as stated, by C117: with L + T >= 2, at least one epoch and a batch size of at least 1, fit always raises on a data set in a database. Proved for data sets whose rid has a dtype and numeric thresholds; the data sets do not change but for internal ids."},
{"property": "C119", "status": "proved", "theorems": ["C119_dmf_batches", "C119_dmf_errors", "C119_cdae_batches", "C119_cdae_errors", "C119_cdae_no_threshold", "C119_data_kept"], "note": "For integer or text ids, numeric interactions and thresholds, copy_dataset=False (True raises AttributeError). Nothing is said about a call that never finds a negative pair. With several records for a pair, one below the threshold, a pair can be a positive and a negative sample (C97)."},
{"property": "C120", "status": "proved", "theorems": ["C120_dmf_returns", "C120_cdae_returns", "C120_dmf_hangs", "C120_cdae_hangs"], "note": "For integer or text ids, numeric interactions and thresholds, copy_dataset=False. Returning means that from some fuel on the result is there and stays the same."},
{"property": "C121", "status": "partial", "theorems": ["C121_own_messages_refuted", "C121_other_messages_refuted", "C121_twice_refuted", "C121_own_messages_partial", "C121_files", "C121_console"], "note": "Refuted as stated: recommenders of a class share one logger, whose handlers are not removed, so the messages of a later one go to the file of the earlier one too, and twice to a file shared by two made in the same second. Proved: exactly what is in each file and on the console; the file is right for the only recommender of its class that has one."},
{"property": "C122", "status": "partial", "theorems": ["C122_load_gives_what_was_saved", "C122_loaded_stays", "C122_savable_in_memory_partial", "C122_dmf_cdae_refuted", "C122_knn_savable", "C122_database_refuted", "C122_save_changes_one_file", "C122_failed_save_refuted"], "note": "Refuted as stated: DMF and CDAE cannot be saved after a fit (their sampler holds generators), no recommender can be saved while it holds a database data set, and a save that fails destroys the model that was in the file. Proved: whatever was saved is loaded as it was and stays independent; exactly when a save works in memory, and for neighbourhood models in general. Whether the attributes with TensorFlow's objects can be pickled is a parameter."},
{"property": "C123", "status": "partial", "theorems": ["C123_leave_k_out", "C123_matrix_split", "C123_knn_answers", "C123_predictor_answers", "C123_recommendation_counts_all", "C123_ranking_loses_none", "C123_unknown_user_hangs", "C123_random_split_refuted", "C123_test_items_refuted"], "note": "Refuted as stated: after random_split a test user may be missing from the training part; recommend raises for them, and with verbose=True (the default) recommendation_evaluation never returns, for any interleaving. A test item may be missing after any split, so predict raises for its rows unless skip_errors is set. Proved for leave_k_out and matrix_split: the test users are training users, a neighbourhood model or a predicting model that does not raise answers for them, the evaluation returns and averages over one case for each user with enough liked test items; and for any split as soon as the test users are training users."},
{"property": "C124", "status": "partial", "theorems": ["C124_reproducible", "C124_batches", "C124_corruption", "C124_seeded_again", "C124_random_module", "C124_other_recommender_refuted", "C124_in_turn_refuted"], "note": "Refuted as stated: tf.random.set_seed is called only by the constructors, so the initial weights come from the seed of the recommender made last and from how much was drawn since; making even a UserKNN without a seed in between un-seeds them, and of two recommenders made alike the second one fitted trains differently. Proved: the same result whenever nothing touches TensorFlow's generator between making and fitting; the batches of every fit and the corruption of every first fit depend on the seed only; seeding TensorFlow again before a first fit repairs it; fits of recommenders with a seed leave Python's random module alone."},
{"property": "C125", "status": "partial", "theorems": ["C125_any_record_partial", "C125_first_user_is_small", "C125_any_record_refuted"], "note": "Refuted as stated: the label and the positive record are drawn by generators with the same seed, so both come from the same word; a first sample that is positive has a user id of at most 2^b/(neg_ratio+1), b the bit length of the number of users, for every seed (neg_ratio >= 1, every user with a record at or above the threshold). Three users and neg_ratio 4: the records of users 1 and 2 never come first. Proved: every record can come first if the generators are not linked (no seed)."},
{"property": "C126", "status": "partial", "theorems": ["C126_no_rule", "C126_no_rule_returns", "C126_callback_unused", "C126_rule_partial", "C126_rule_differs", "C126_weights_refuted", "C126_raises_refuted", "C126_graph_refuted"], "note": "Refuted as stated: with verbose=True the callback function is also called before training, so an early stopping rule may pick epoch 0 and the weights differ; a quiet fit may raise UnboundLocalError where a verbose one returns, and a verbose one may raise when it draws the graph; without verbose and a rule the callback function is not used. Proved: the same weights without a rule, and with MaxValidationValueRule exactly how they differ. Training steps do not depend on the callback function (model of C35)."},
{"property": "C127", "status": "partial", "theorems": ["C127_accepts", "C127_others_unharmed", "C127_as_if_made", "C127_seeds", "C127_unknown_ignored", "C127_weights_refuted", "C127_file_refuted", "C127_misspelled_refuted"], "note": "Refuted as stated: the base class is initialised before the arguments are checked, so a call that raises seeds TensorFlow (later initial weights of other recommenders change) and leaves its log file attached to the logger of the class; arguments a constructor does not have are ignored. Proved: a constructor returns exactly for the supported names and layers; calls that raise give no recommender, write nothing on the console and leave the log files of all others as they are."},
{"property": "C128", "status": "partial", "theorems": ["C128_given", "C128_raises", "C128_own_values_partial", "C128_max_rule", "C128_some_metric", "C128_other_values_refuted", "C128_suffix_refuted", "C128_all_own_refuted"], "note": "Refuted as stated: a rule that requires P gets the values of P@5 if that is reported after P; and if one required metric has a suffix, R@5 no longer counts for R. Proved: each required metric gets the values of the last result that reports it, and the rule is used exactly if all have some; as stated if all required metrics have a suffix or none has and no two results report the same metric."},
{"property": "C129", "status": "proved", "theorems": ["C129_sets", "C129_hits", "C129_reciprocal", "C129_dcg", "C129_ndcg", "C129_one_jump", "C129_relevant_first", "C129_mixed_ids_refuted", "C129_negative_refuted"], "note": "Proved for every number of exchanges of neighbours that put the better item in front, with and without k and with repeated items. The two conditions in the quantifier are needed: HitRatio compares texts of ids, so it may fall when 1.0 and 1, or 7 and '7', are both in play; NDCG may fall with negative relevancies."},
{"property": "C130", "status": "partial", "theorems": ["C130_shorter", "C130_threshold", "C130_rank_shorter", "C130_novelty", "C130_rank_part", "C130_rank_all", "C130_caser_refuted"], "note": "Refuted as stated: Caser without novelty does not look at the requested items, so its ranking of fewer items keeps others and loses some that were asked for. Proved as stated for all other recommenders, and for Caser with novelty and in recommend; ties included."},
{"property": "C131", "status": "proved", "theorems": ["C131_opposite_queries", "C131_three_queries", "C131_dropped", "C131_length", "C131_max", "C131_min", "C131_count_unique", "C131_more_columns", "C131_unique_again"], "note": "Proved for every query text with one condition, whatever it means (raw ids searched by internal ids and unknown ids included)."},
{"property": "C132", "status": "proved", "theorems": ["C132_together", "C132_averaging", "C132_triangle", "C132_scaled", "C132_shifted", "C132_constant", "C132_evaluation", "C132_rmse_together_refuted", "C132_mse_triangle_refuted", "C132_limit_refuted"], "note": "Values are reals, so without rounding errors of floats. The evaluation theorem holds for every metric that is averaging and does not look at the order. Not part of the property because false: RMSE as weighted mean of RMSEs, the inequality over B for MSE, and parts of the test data with a limit on the number of predictions."},
{"property": "C133", "status": "partial", "theorems": ["C133_ranking", "C133_predictive", "C133_recommendation_partial", "C133_metrics", "C133_recommenders", "C133_ndcg_refuted"], "note": "Refuted as stated: recommendation_evaluation recommends max(k) items and NDCG compares with the best order of all of them, so NDCG@1 is 1 with k=[1] and 0.8 with k=[1, 2]. Proved as stated for ranking_evaluation with any metric and for predictive_evaluation (under the conditions of C49); for recommendation_evaluation with all other metrics of the library and all its recommenders, if no task of a user raises."},
{"property": "C134", "status": "proved", "theorems": ["C134_ranking", "C134_recommendation", "C134_metrics", "C134_recommendation_dcg", "C134_ranking_dcg", "C134_precision_refuted", "C134_dcg_negative_refuted"], "note": "Proved for every metric that does not fall with k on a single user, which these three do not. Precision and AveragePrecision can fall, and DCG with negative relevancies."},
{"property": "C135", "status": "proved", "theorems": ["C135_ranking", "C135_recommendation", "C135_no_limit", "C135_recommendation_no_limit"], "note": "The outcomes are the same for all n because each user has a generator seeded by the seed and the position of the user. For ranking_evaluation the evaluation of all users has to return (it may draw negatives forever)."}
]}
