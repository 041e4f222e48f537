# Design of the formal model of DRecPy

The model is written in Rocq (Coq 8.16.1) under `rocq/theories`.  The code is
modelled function by function; each definition cites the file and lines of the
repository it stands for.  Paths in this document are relative to `/repo/DRecPy`.

## 1. Trusted base

* Coq's kernel (and `coqchk`).
* The axioms shown by `Print Assumptions` under each theorem (section 5).
* The reading of the Python code that the definitions make: the modelled part
  and its simplifications are listed in section 3, what is left out in section 4.
* The external components that appear as parameters (random generators, the
  row order of SQLite, the order of `os.listdir`, `str(float)`, the schedule of
  the thread pool, the scores of a network): theorems quantify over every
  behaviour that satisfies the contract stated in them.

## 2. Files

`*Model.v` has only definitions, `*Spec.v` the vocabulary of the statements
(written independently of the helpers of the model), `*Facts*.v` the lemmas, and
`Prop*.v` the theorems named in `MANIFEST.json`, each followed by
`Print Assumptions` and by an example meeting its hypotheses.  When the code
does not have the property a user expects, a theorem `..._refuted` exhibits a
witness and the strongest true statement is proved next to it (`..._partial`
when it needs an additional hypothesis).

| files | content | code |
|-------|---------|------|
| `Py`, `PyFacts` | Python prelude: results with exceptions, slices, dicts as association lists, `sorted`, `heapq.nlargest`, decimal printing and parsing, int to float64 | |
| `Conc`, `ConcFacts` | thread pool: tasks as sequences of lock protected sections, arbitrary schedules | |
| `Mem*`, `MemHeap*`, `PropMem` | in-memory data set; heap of frames for aliasing | `Dataset/mem_dataset.py`, `Dataset/dataset_abc.py` |
| `Split*`, `SplitHeap*`, `PropSplit` | random, leave-k-out and matrix splits | `Evaluation/Splits/*.py` |
| `Metric*`, `PropMetric` | ranking metrics over rationals and reals, regression metrics | `Evaluation/Metrics/*.py` |
| `Train*`, `PropTrain` | loss tracker, early stopping, fit loop, standardisation | `Recommender/loss_tracker.py`, `early_stopping.py`, `recommender_abc.py` |
| `Rank*`, `PropRank` | predict, rank, recommend | `Recommender/recommender_abc.py`, `cdae.py` |
| `Knn*`, `PropKnn` | KNN recommenders and aggregation | `Recommender/Baseline/*.py` |
| `Sim*`, `PropSim` | similarity measures over the reals | `Recommender/Baseline/similarity.py` |
| `Samp*`, `PropSamp` | point and list samplers and the generators they use | `Sampler/*.py` |
| `Eval*`, `PropEval` | evaluation processes | `Evaluation/Processes/*.py` |
| `Db*`, `PropDb` | database data set: SQL state queries, tables, reference counts; `DbCheck` decides the hypotheses of examples | `Dataset/db_dataset.py` |
| `DbGen*`, `PropDbGen` | generators, point sampler and item vectors on a database data set | `Dataset/db_dataset.py`, `Sampler/point_sampler.py` |
| `DbSplit*`, `PropDbSplit` | splits of database data sets | `Evaluation/Splits/*.py`, `Dataset/db_dataset.py` |
| `Twin*`, `PropTwin`, `PropTwin2` | the same program on a data set in memory and on one in a database | `Dataset/mem_dataset.py`, `db_dataset.py` |
| `RecDb*`, `PropRecDb*` | recommenders on a database data set | `Recommender/recommender_abc.py`, `Recommender/Baseline/*.py`, `Dataset/db_dataset.py` |
| `Csv*`, `PropCsv` | reading and writing csv files | `Dataset/db_dataset.py`, `mem_dataset.py` |
| `File*`, `PropFile` | built-in data sets, kills, temporary file list, saving a database | `Dataset/integrated_datasets.py`, `file_utils.py` |
| `Fit*`, `PropFit` | start of fit, variables over repeated fits | `Recommender/recommender_abc.py`, `_pre_fit` of `cdae.py`, `dmf.py`, `caser.py` |
| `Net*`, `PropNet` | batches, targets, losses, shapes and predictions of the neural recommenders | `Recommender/cdae.py`, `dmf.py`, `caser.py` |
| `Frame*`, `PropFrame` | data sets made from DataFrames, choice of the implementation | `Dataset/mem_dataset.py`, `dataset_factory.py` |
| `Log*`, `PropLog` | loggers and log files of recommenders | `Recommender/recommender_abc.py` |
| `Save*`, `PropSave` | saving and loading recommenders | `Recommender/recommender_abc.py`, `Sampler/*.py` |
| `Pipe*`, `PropPipe` | splitting, fitting and evaluating in sequence (no new model) | `Evaluation/Splits/*.py`, `Evaluation/Processes/*.py` |
| `Seed*`, `PropSeed` | where the random numbers of fits come from | `recommender_abc.py` (`__init__`), `_pre_fit` of `cdae.py`, `dmf.py`, `caser.py`, `__init__` of the samplers |
| `Twist*`, `PropTwist` | the bits behind the first draws of a sampler with a seed | `point_sampler.py`, `mem_dataset.py` (`_select_random_generator`) |
| `Verbose*`, `PropVerbose` | training with and without `verbose` (no new model) | `recommender_abc.py` (`fit`) |
| `Make*`, `PropMake` | constructors of recommenders and what they do when they raise | `recommender_abc.py`, `cdae.py`, `dmf.py`, `caser.py`, `base_knn.py` (`__init__`) |
| `Rule*`, `PropRule` | early stopping rules with several metrics | `EarlyStopping/early_stopping_rule_abc.py` |
| `Move*`, `PropMove` | moving better items up in a list (no model of its own) | `Metrics/ranking.py` |
| `View*`, `PropView` | how answers of rank and recommend to different questions fit together (no model of its own) | `recommender_abc.py`, `_rank` of all classes |
| `Part*`, `PropPart` | a data set and its parts (no model of its own) | `mem_dataset.py`, `dataset_abc.py` |
| `Dev*`, `PropDev` | regression metrics of parts, as distances, scaled (no model of its own) | `Metrics/regression.py`, `predictive_evaluation.py` |
| `Ask*`, `PropAsk` | evaluations that ask for different metrics and k (no model of its own) | `Evaluation/Processes` |
| `Grow*`, `PropGrow` | results of evaluations at different k (no model of its own) | `Evaluation/Processes`, `Metrics/ranking.py` |
| `FewFacts`, `PropFew` | evaluations with different n_test_users (no model of its own) | `Evaluation/Processes` |
| `PropRound` | rounding of results: ties and order (no model of its own) | `Evaluation/Processes` |
| `PropErrors`, `PropErrors2` | error and boundary cases found by mutating the models | |

## 3. What is modelled, and how

General
* Python `int` is `Z`; floats are exact numbers: canonical rationals `Qc` (or
  `Q`) where the code only adds, multiplies, divides and compares, reals `R`
  where it uses square roots, powers or logarithms.  Rounding is not modelled,
  except the conversion of integers to float64 in queries (needed for C10) and
  `floor(n * ratio)`, whose product is a parameter.  NaN is modelled as a missing
  value where stated, infinities are not.
* Exceptions are values (`Err`); log messages (but see `Log`), progress bars, plots are left out.
* Random generators are parameters: any function that returns a sample
  satisfying the documented contract of `random.sample` / `choice` / `randint`,
  or an arbitrary stream of draws.
* pandas: a frame is a list of rows in order, each with its record id (index)
  and its cells by column name.

Thread pool (`Conc`).  A task is a list of atomic sections; a schedule is an
arbitrary function from steps to task numbers.  Queue operations of the pool
itself are taken as atomic.

In-memory data set (`Mem`).  Query strings are parsed as the code does (split on
commas and blanks); literals are integers, decimals and quoted texts without
quotes, blanks or commas inside.  `MemHeap` has references to frames and cached
matrices, so that aliasing of results is visible.

Splits (`Split`).  Tasks run on `Conc`; the ratio product `fmul` is a parameter.

Metrics (`Metric`, `Eval`).  Ranking metrics over `Qc`, DCG/NDCG over `R`.  In
the evaluation processes sums and `round` are exact; plots are left out.

Training (`Train`).  A training step is an arbitrary function of the variables;
snapshots of variables are values in a heap.

KNN (`Knn`).  Similarities are rationals given by a parameter; `Sim` models the
concrete measures over the reals, with scipy/sklearn functions by their
documented formulas.

Samplers (`Samp`).  Streams of random draws; a data set satisfying `sampler_ok`.

Database data set (`Db`).  One thread; locks, commits and transactions are left
out.  SQL queries are terms (`src`, `sel`) with a semantics on lists of rows
(`eval`); SQLite is trusted to follow it: comparison by storage class, column
affinities, a double-quoted literal that names a column is the column.  The
order in which rows come back is an oracle.  The indexes on uid and iid are left
out.  Column names are free of quotes and not SQL keywords; generated table
names do not collide; texts in conditions with `"` raise OperationalError.  A
copy abandoned by an exception in select, drop or unique stays live (no garbage
collection, no `__del__`).  `_shared_db_table_instances` is keyed by the pair
(path, table).  Saving onto the data set's own path is modelled up to its checks
and errors.  `values(to_list=True)` of one column returns bare values in the
code and singletons in the model.  Apart from the list passed to `unique`, the
aliasing of column lists is not modelled.

Generators of database data sets (`DbGen`).  Randomness is a stream for each
generator; the counts and rows of two queries made one after the other agree.  A
cursor that stays open between two pulls does not lock the tables (so it does not
count as open in `Db`).  A loop that may run for ever takes fuel.  The cache of
item vectors is passed in and returned.  What comes in the long run is stated for
`rich` streams (`DbGenSpec2.v`), in which every finite sequence of numbers comes again
and again; this is the one assumption on randomness there.

Splits of database data sets (`DbSplit`).  Each call of a data set method inside a
task is one atomic step: the connection of a data set is opened per call and
SQLite's own locking is trusted, so "database is locked" errors are not modelled.
The order of rows is an oracle for each step.  A data set that goes out of scope
at the end of a task, or of the call, is closed (`__del__`).  An exception in a task is lost, as in
the thread pool of the code.

Two implementations (`Twin`).  `TwinSpec.v` runs each operation of `DbSpec.v` on the
model in memory as well, and states when it means the same for both (`fits`).
A generator in memory is read at once, closing a data set does nothing in memory.
Loading and saving databases has no counterpart in memory.

Recommenders on a database (`RecDb`).  Every access of fit, predict, rank and recommend
to the data set is a call of the `Db` model; the order of rows is an oracle for each
read.  Data sets made on the way are closed when they are not referred to any more
(`__del__`); after an exception they stay open.  A loop over `values` reads all rows
at once and then closes the generator.  One thread.
The networks of DMF and CDAE are arbitrary functions of the vectors they get
(`RecDbModel2.v`).  Vectors are read with the cache of either implementation in C111;
in C112 the database reads them afresh, and in memory each prediction starts
from the cache left by arbitrary earlier reads.  The MemoryError branch of the vectors
is left out, and training is not run.
The network of Caser is an arbitrary function of the user and their last items that
may raise (`RecDbModel3.v`).  Of a record only the sort column and iid are read, not
the other columns.  Comparing a text with a number in the sort does not raise.
predictive_evaluation (`RecDbModel4.v`): the generator of the test rows is open while
predictions are made and gives the rows of the moment it was created.  After an
exception it stays open.
ranking_evaluation and recommendation_evaluation (`RecDbModel5.v`): the tasks of the
users are interleaved in any order.  A step is a call on a data set, or a whole rank or
recommend of the recommender, or reading the distinct items of a data set (three calls).
The metric part of a task runs after the database part of all tasks, under its own
schedule.  A task that ends closes its data sets; after an exception they stay open.
A thread of its own ends the generator of the users.
ListSampler and the batches of Caser (`RecDbModel6.v`): the selections of a round are
closed at its end.  The list of group columns is the object that was passed.  Training
on a batch is left out, as it does not use the data set.
Batches of DMF and CDAE (`RecDbModel7.v`): the draws of the sampler and of CDAE are
streams, the orders of the rows are parameters, and a search for a negative pair may not
end (`fuel`).  The vectors of DMF are those before `l2_normalize`.  C120 says when the
searches end, for `rich` streams, and when they never do.

Csv (`Csv`).  Texts after newline translation; no encodings, no field size limit,
no NUL.  Number notations with `+`, `_`, blanks, `inf` or `nan` are not
recognised as numbers.  `str(float)` is a parameter `show`.  The csv module's
reader is modelled as its state machine; pandas `read_csv`/`to_csv` by contract.
A column given as None is left out of the table (the code creates a column
called "None" that nothing reads).  The temporary file of a failing import is
left out.  The type-detection pass of the code opens the file without the
`encoding` argument, which is outside the model.

Files (`File`).  A disk is a list of directories and a map from paths to texts.
A call is a tree of disk operations; a kill stops it between two operations or
inside a write (a prefix is written).  Crashes of the operating system are not
modelled.  Archives are flat, optionally in one folder.  Only in-memory built-in
data sets; reading a downloaded file is a parameter; the order of `os.listdir`
is an oracle.  `path.strip()` strips the ASCII blanks.

Start of fit (`Fit`), in memory.  The variables a fit registers are numbered per
fit; a boolean function says which of them the loss depends on.  TensorFlow is
trusted to give None as gradient of the others, so that `zip(None, ..)` raises
TypeError for a single variable and `apply_gradients` raises ValueError for a
layer without any gradient.

Neural recommenders (`Net`).  TensorFlow is trusted to follow its documentation
for: elementwise operations with broadcasting, the mean taken by the two losses,
the shapes of Embedding, Conv1D, Dense, max_pool1d, squeeze, concat and reshape,
`l2_normalize` (with epsilon 1e-12) and the clipping in BinaryCrossentropy.  What
a network computes from its weights is an arbitrary vector.

Frames (`Frame`).  Column names are different texts, the index is of integers,
cells may be missing.  `label is not 'user'` compares objects: whether an equal
text is the same object is part of a label.  pandas counts columns of objects as
texts (`is_string_dtype`).

Log files (`Log`).  The logging module keeps a logger per name with a list of handlers;
a line is level, logger and message, without the time.  Which messages a fit writes is
left out.

Saved recommenders (`Save`).  joblib is trusted: dump opens the file before it
pickles, goes through everything that can be reached, keeps which objects are the
same, raises TypeError at a generator or a database connection, stores functions and
loggers by name (Python 3.7 or later), and load of a whole file gives new objects.
All attributes of a recommender but its data set and sampler are one value; whether it
can be pickled (TensorFlow's objects) is a parameter.  How far a fit gets is an oracle,
except for the start in memory (`Fit`).  Files can always be opened.

Seeds (`Seed`).  A generator is a starting point and a number of draws; what a fit
computes from its random numbers, and how many it draws, is an arbitrary function.
Trusted: TensorFlow's initialisers and dropout without a seed of their own take their
numbers from the global seed and the number of draws since `tf.random.set_seed`, and
`set_seed(None)` leaves them unseeded (TensorFlow 2 before Keras got generators of its own); sets of
integers are listed in the same order in every run.

Words of generators (`Twist`).  CPython's `random()`, `getrandbits` and `_randbelow` are
trusted to use the words of the Mersenne Twister as written there; the words
are any numbers of 32 bits.  `(neg_ratio + 1) * random()` is exact.  Only the first draw of
each generator is tied to the words.

Constructors (`Make`).  Class-specific arguments are given by keyword: None, strings,
lists of integers, or anything else.  verbose and log_file are booleans, seed is an
integer or None.  Creating losses is left out; seeds and loggers are as in `Seed` and `Log`.

Early stopping rules (`Rule`).  A rule of a subclass is any function of the losses, the
translated results and the called epochs; results are a dict of lists.

Answers of rank and recommend (`View`).  The theorems compare two calls of one fitted
model, so predictions, network scores and neighbours are the same functions in both.
`nlargest` over (score, id) pairs does not depend on the order of the candidates, so
equal scores are covered.

## 4. What is not modelled

TensorFlow graphs and optimisers (training steps are arbitrary functions), the
values DMF/CDAE/Caser networks compute (arbitrary functions), plotting,
HTTP itself, SQLite's planner and concurrency, pandas' internals, encodings.

## 5. Axioms

"Closed under the global context" for all theorems except the ones using the
real numbers of the standard library:

* C49 - C53, C69 - C71, C114, C116, C123, C132 - C135 (evaluation processes, regression metrics; not all theorems of C50, C52, C123, C133):
  `ClassicalDedekindReals.sig_forall_dec`,
  `FunctionalExtensionality.functional_extensionality_dep`.
* C32, C44, C65 - C67, C90, C110_similarity_order, C114_metrics_orderless, C132_together, C132_averaging,
  C132_rmse_together_refuted, C132_triangle, C132_scaled, C132_shifted (regression metrics, similarities, DMF): in addition
  `ClassicalDedekindReals.sig_not_dec`.
* C30, C31, C84_cross_entropy_refuted, C116_metrics_blind, C129_dcg, C129_ndcg,
  C129_negative_refuted, C133_metrics, C133_ndcg_refuted,
  C134_recommendation_dcg, C134_ranking_dcg, C134_dcg_negative_refuted (logarithms): in addition `Classical_Prop.classic`.

## 6. Mutation tests

`seeded/LOG.jsonl` has a line for each wrong program tried: the definition of
the model that was edited in a scratch copy, the edit, what it breaks, the
lemmas and theorems that failed, and the theorems added when none did.  Edits
that leave every observable result unchanged are marked as such.
