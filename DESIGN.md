# Formal model of SOL (LIBOL/SOL) in Rocq

The C++ sources in /repo are read as text; nothing is compiled or run.  All Rocq files are in
`rocq/theories/`, logical name `Verif`.  `properties.jsonl` lists the properties, `MANIFEST.json` the
theorems that establish each of them, `seeded/LOG.jsonl` the wrong programs tried against the theorems.

## Layout

| kind | files | content |
|---|---|---|
| model | `M_*.v` | total, computable Gallina definitions, each with a comment citing file and lines |
| specification | `S_*.v` | small definitions that do not use the model's helpers (lists, sums, multisets, FIFO, ...) |
| proofs | `P_*.v` | lemmas |
| properties | `Props_*.v` | the theorems named in MANIFEST.json, `Print Assumptions`, and a concrete `Example` beside them that meets the hypotheses |

Theorem names start with the property (`C14_...`).  `..._refuted` exhibits an input on which the code does
something else than one would want; `..._partial` proves a part.

## Modelling conventions

* `real_t` is `float`.  Numeric code is written once over an explicit record of numeric operations
  (`num` in `M_Num.v`).  It is instantiated with exact reals (`Rnum`) for algorithmic theorems (mistake
  bound, passive-aggressive steps, soft-thresholding, ...; simplification: no rounding), and with IEEE
  binary32 (`f32num`, the standard library's SpecFloat) where the property is about float behaviour (NaN,
  the split tool, saved weights) and for counterexamples.  Structural theorems (locality, sparsity
  budget, counters, bounds of all accesses, batch independence) hold for *every* instance, hence for
  floats too.  In `Rnum` division by zero gives 0 (an artefact of Coq's reals); the instance `Xnum` (S_Nan.v) adds
  one value for the result of an operation outside of its domain, and `C51_numbers` says when it never appears
  (not covered there: overflow and rounding of floats).
* Unsigned wrap-around is written explicitly (`mod 2^32`, `mod 2^64`).
* Undefined behaviour (out-of-range access, over-read, signed overflow) is the outcome `None`, and the
  theorems say when it cannot happen.
* Loops become structural recursion or recursion on fuel; running out of fuel is `None`, too, and is
  excluded by theorem.
* Threads: `M_Queue` is a transition system whose steps are the statements of block_queue.h between two
  points where another thread can interfere; `M_Iter` uses two such queues.  Theorems quantify over all
  step sequences, with spurious wake-ups.
* Randomness (`std::shuffle`, the active-learning coin) and files (byte lists) are explicit arguments.

## Trusted base

* Coq's kernel (8.16.1) and its standard library.  No axiom of our own, no plugin, no disabled check, no
  functor or module type.  Flocq and std++ lemmas are used in proofs; they add no axiom.
* What `Print Assumptions` prints is listed at the end of this file.  `RocqChk` (`coqchk -o`) lists in
  addition the primitive constants of Coq's reals (`Rdefinitions.RbaseSymbolsImpl...`) and of
  `ssr.ssrunder`, opaque module fields that come with the libraries that are loaded; no theorem depends on them
  as axioms.
* That the model says what the code does.  Every definition cites the lines it stands for.  The following
  calls out of the modelled code are parameters (Section variables that become arguments of the theorems);
  a theorem that needs something of them says so as a hypothesis:

| parameter | file | stands for |
|---|---|---|
| the record `num R` | M_Num | float arithmetic, comparisons, sqrt, exp, log, conversions |
| `nonzero`, `to_real`, `to_label` | M_Array | casts of matrix elements |
| `cmp` | M_Heap | the comparison of scores |
| `pr`, `strtof`, `json_write`, `json_parse` | M_Save | iostream number output, strtof, jsoncpp (M_SaveF32 defines the first two for binary32 as glibc does, M_Json the last two) |
| `show`, `read_double` | M_Json | printing a double with %g, istringstream >> double; the bytes `slack` behind the document |
| `pow10i`, `mkval`, `is_zero`, `print_g` | M_Text | the final float operations of ParseFloat, printf %g |
| `stof`, `files` | M_Param | std::stof, the files that exist |
| `bits`, `unbits`, `can_write` | M_Files | the bytes of a value in binary files, the paths that can be opened for writing |
| the shuffling permutation | M_Tools | std::shuffle with std::random_device |
| `library` | M_Capi | the classes behind the C interface, with any behaviour |
| `create`, `fit`, `score`, `slices`, `evaluate`, `accuracy` | M_Cv | the class SOL and the slice files behind a cross validation task, with any behaviour (also an exception) |
| `pylib`, `py_int` | M_Py | the classes behind the Python class, with any behaviour, and int() of a text |
| `cross`, `cached`, `py_str` | M_Script | cross validation as train sees it (best parameters or an exception), its result file, str() of a value |
| `split_data` | M_Cv | the split tool as split_file sees it: status and files; C69_slices asks that it writes one split if it reports success (C40, C65) |
| `null` | M_Queue | the element value that means "nothing" in DequeueBatch users |

* Compiler and platform: 64-bit little-endian, `int` 32 bits, `size_t` 64 bits, IEEE float without extra
  precision, mutex and condition variable as C++11/POSIX specify them.

## What is modelled

| source | model | not modelled |
|---|---|---|
| pario/compress.h, binary_writer.cc, binary_reader.cc | M_Compress, M_Binary | big-endian machines; write errors |
| pario/data_point.cc | M_DataPoint (values), M_Share (copies and Clone) | |
| math/vector.h, matrix.h, matrix_storage.h, sparse_vector.h | M_Vector (storage), M_Share (handles and counters), M_Save (stream operators) | allocation failure; a counter is an integer without bound; slices and expressions of matrices with two dimensions |
| pario/file_reader.cc, numeric_parser.h, svm_*.cc, csv_*.cc | M_Text | stdin input, gz; locale |
| pario/file_writer.cc | as "the bytes written" in M_Binary, M_Text | errors of fwrite, buffering |
| pario/numpy_reader.cc, csr_matrix_reader.cc | M_Array | the python objects behind the pointers |
| util/heap.h | M_Heap | HeapSort (refers to members that do not exist, never instantiated) |
| util/block_queue.h, mutex.h, monitor.h | M_Queue | platform code behind mutex and condition variable; the queue's destructor |
| pario/data_iter.cc, data_read_task.cc, mini_batch.h, thread_task.h, data_reader.cc | M_Iter | thread creation and join (join waits for the reader to be done); log output |
| math/expression.h, matrix_expression.h, operator.h, sparse_vector.h | M_Expr | type-level shape dispatch of shape.h (the model takes the shape as given) |
| loss/*.cc | M_Loss | |
| model/model.cc, online_model.cc, online_linear_model.cc, regularizer.cc | M_Online | messages on the terminal |
| SetParameter of all classes, BeginTrain as far as it depends on settings | M_Param | the arrays that only "dim" grows, psi and xi of ECCW, stoi with other locales |
| model/model.cc:327-367 (feature lists) | M_Filter | stoi with other locales |
| model/olm/*.cc | M_Olm, M_OlmSel, M_Algs | |
| saving and loading (model.cc and the GetModelInfo/SetModelInfo/GetModelParam/SetModelParam of all classes) | M_Save, M_SaveF32 | documents that GetModelInfo cannot produce |
| external/json/jsoncpp.cpp: Reader, StyledStreamWriter, Value as a tree | M_Json | comments kept with values, error texts and recovery after an error, OurReader, the other writers, Path, conversions between types other than asString |
| src/sol/tools.cc, tools/concat.cc | M_Tools (on examples), M_Files (on files: readers, writers, what is on disk when the process ends) | terminal output; the path "-"; two names for one file |
| util/str_util.h, reflector.* | M_Str | static initialisation order other than "some order" |
| src/sol/c_api.cc | M_Api: sol_Predict; M_Info: sol_GetModelParameters with GetModelInfo of all classes (the text of a float is a parameter); M_Capi: handles, create, release, load, save, set, train, test | sol_model_sparsity, sol_InspectOnlineIteration and the data functions, which only forward to the classes above |
| tools/lsol_c.cc; sol_train.cc and sol_test.cc behind the command line | M_Capi (the classes are a parameter) | messages; memory is never reused, so that a dangling handle is always seen as one |
| python/cv.py, python/dataset.py (the info file and split_file) | M_Cv (the class SOL is a parameter) | log messages, the result files, an empty dictionary of parameters, paths; the queues of multiprocessing are taken to be first-in first-out and what is put into one to be there at once |
| python/pysol.pyx (class SOL), c_api.cc: sol_InspectOnlineIteration, sol_loadArray, sol_loadCsrMatrix | M_Py (the classes and int() of Python are parameters) | shapes and types of arrays, the arrays predict makes of its callbacks, sparsity, n_classes as a property, analyze_data and the other module functions; reference counts are the set of living objects; an exception of C++ is taken to end the process |
| python/sol_train.py (train, finetune, the loop over --params), python/sol_test.py (main without an output file) | M_Script (cross validation and its result file are parameters) | argparse, logging, times, the output file of sol_test.py, DataSet's attributes; all ints fit a C int; an empty text for verbose counts as False |
| external/cmdline/cmdline.h; tools/sol_train.cc, sol_test.cc, analyze.cc, converter.cc, shuffle.cc, split.cc, concat.cc (up to the call of the library) | M_Cmd, M_Front | usage texts and messages; the other overloads of parse; reading a float (`read_float`) and loading a model (`load`) are parameters; what follows AddReader in sol_train and sol_test is M_Online, M_Iter |

Not modelled at all: python/setup.py and the rest of python/, util/thread.h,
util/util.h (timers, file deletion), tests and experiments.

## Findings

Deviations from what one would expect of the library; those with a theorem are proved of the model, by a
concrete input or run.

Data files
* A record cut inside the feature count is reported as success: the reader returns `false`, which is
  `Status_OK` (binary_reader.cc:35) — `C04_no_wrong_point_refuted`.
* `run_len_decode` reads behind a buffer that ends in a continuation byte — `C02_decode_in_bounds_refuted`.
* A NUL byte cuts the line — `C05_nul_byte_refuted`.  The reader's buffer doubles although it need not,
  once per pass over an unterminated last line — `C53_any_number_of_passes_refuted`.
* ParseInt overflows `int` for 2147483648, accepts "no number" as 0 — `C06_..._refuted`; ParseFloat overflows for
  long digit strings — `C07_decimal_overflow_refuted`.
* svm files: six digits only; indexes from 2^31 on do not come back — `C08_..._refuted`.  csv files: unsorted
  examples lose features, the index 0 is lost — `C09_csv_unsorted_loses_features_refuted`.
* numpy: `int` overflow of the row offset from 2^31 elements on — `C46_numpy_large_refuted`.  An empty numpy or csr
  matrix gives an I/O error instead of the end of data.

Data structures, threads
* Top-K heap of size 0 reads out of range — `C18_zero_size_refuted`.
* A batch dequeue that asks for zero items swallows a wake-up — `C12_no_items_refuted`.  The forced batch dequeue
  takes more items than there are after a spurious or stolen wake-up — `C13_forced_*_refuted`.
* The iterator's destructor can block for ever — `C16_refuted`; with no mini-batch the constructor does —
  `C15_no_batches_refuted`; with size 0 Next returns empty batches for ever — `C14_size_zero_refuted`.
* Every pass ends with a partial, possibly empty batch (`C14_cut`).  The batch the caller holds is not freed by
  the destructor (M_Iter, `KDone` with `i_held`); `size()` is read without the lock (a data race).
* A `Vector` keeps stale elements after shrinking and growing again (C11 speaks of the specified elements only).

Learning
* Unsorted examples are read out of range — `C21_unsorted_refuted`; labels that are no class — `C54_label_refuted`.
* Feature selection: after a parameter change more features than the budget — `C20_reinit_refuted`; feature index
  0 is out of range — `C20_index0_refuted`.
* An infinite feature changes predictions of others through growth — `C22_infinite_feature_refuted`.
* Regularised models change weights without a loss — `C25_regularised_refuted` (by design).
* The uniform multi-class hinge loss never learns from the zero model — `C38_learns_refuted`.
* Max-score losses leave the gradients of earlier calls in place; the logistic loss is 0 beyond margin 100 —
  `C36_..._refuted`.  Uniform gradients sum to zero only up to 1e-12 (C37); in float the 1e-12 vanishes, so
  that with no rival 0/0 is possible.
* Normalising an all-zero example gives NaN — `C39_zero_refuted`.
* ECCW's loss handler is not the documented one — `C34_eccw_refuted`.  The multi-class PA loss may stay positive —
  `C28_multi_refuted`.
* EndTrain twice truncates twice — `C32_lazy_refuted`; it truncates the bias a second time (FOBOS_L1, STG).
* PA on an empty example and RDA_L1 on the first example divide by zero — `C51_pa_refuted`, `C51_rda_l1_refuted`.  ECCW
  with its default parameters drives a variance below zero after two examples and then takes the root of a negative
  number: all scores are NaN from then on — `C51_eccw_refuted`.  CW divides by zero when the bias is switched off and an
  example without features follows — `C51_cw_refuted`.  `C51_numbers` says that, with parameters in range, nothing else
  leaves the numbers in exact arithmetic.
* AdaRDA's bias stays 0 until EndTrain, then stays in use: a test between two trainings changes the next answer —
  `C49_ada_rda_test_refuted`.  SOP does not refresh the bias during training.
* Delayed truncation goes wrong when training continues after a test — `C31_resume_refuted` —, for examples
  active learning skips — `C31_active_refuted` —, and in STG for all classes but the first, which are not truncated
  while training — `C31_stg_classes_refuted`.
* `SquareLoss` is of type RG, so no model accepts it.
* SetParameter stores before it checks, so a rejected value stays in use — `C59_unchanged_refuted`, `C59_norm_refuted` —,
  a rejected feature list or displayer removes the old one — `C59_dropped_refuted` —, a rejected loss leaves CW, ECCW and
  ALMA2 with a dangling `hinge_base_` that BeginTrain writes through — `C59_dangling_refuted` —, and an unknown loss leaves a
  null pointer — `C59_noloss_refuted`.  "t" is read as an int and as a float — `C59_time_refuted`.  std::out_of_range
  passes through the C API — `C59_escapes_refuted`.  FOFS takes B = -1 — `C59_negative_refuted` — and keeps the radius of its old
  lambda — `C59_stale_fofs_refuted`; ALMA2 uses a rejected alpha in part — `C59_stale_alma_refuted`.
* The step size of the passive-aggressive models ignores the bias, so with bias_eta > 0 the published mistake bound does
  not hold — `C61_bias_refuted`.
* A copy of a DataPoint shares its features with the original — `C60_copy_value_refuted` — unless the original had none
  yet — `C60_copy_shares_refuted`.  Clone of a default-constructed point dereferences a null pointer —
  `C60_clone_empty_refuted`; Clone into a point overwrites what its other copies see — `C60_clone_target_refuted`.
* Training or testing on empty data divides 0 by 0.
* A feature list file of comments only dereferences the end of an empty vector — `C56_no_index_refuted`; the index -1
  writes outside of the flags — `C56_negative_refuted`.
* CW and ECCW ignore cost_margin: the margin handler overwrites it — `C57_cost_ignored`, `C57_cost_cw_refuted`.  ALMA2
  with cost_margin never uses its own margin.

Tools, API, saving
* split: above 2^24 examples, float arithmetic loses examples; zero folds divide by zero — `C40_*_refuted`.
* convert: csv without any feature, type "CSV" in capitals — `C42_*_refuted`.  analyze: dimension 2^64-1 without
  features, out of range for unsorted examples or index 2^32-1 — `C43_*_refuted`.
* `strip` cuts at the first inner blank — `C44_strip_trims_refuted`; in-memory paths: `stoll` throws, sizes are taken
  modulo 2^32 — `C45_bad_path_refuted`.
* Command line: a free word `-` is dropped, so `sol_train - out.model` trains on out.model — `C63_dash_refuted`; `--dim` of
  sol_train has no effect — `C63_dim_refuted`; in `--params`, values are cut at blanks and may not hold `=` or be empty, `a==1`
  counts as `a=1` — `C63_params_refuted`; a number out of range ends sol_train by std::out_of_range, since only
  std::invalid_argument is caught — `C63_prepare_refuted`; `--show reader` prints "csr" for csr_matrix — `C63_show_refuted`.
  `-p5` is not read as
  `-p 5`; without arguments the tools end with status 0, sol_train with 4.  sol_train ignores the result of Save.
  lsol_c prints the error rate as accuracy — `C68_accuracy_refuted`; it dereferences a null model with --filter —
  `C68_test_refuted`; it leaks the model — `C68_released_refuted`.  sol_train ends with 0 although the model could not be saved —
  `C68_status_refuted`.  A copied handle dangles after a release — `C68_copy_refuted`.
* sol_GetModelParameters does not tell sparse_thresh, feature lists, displayers and a smoothness below 1 — `C64_lost_refuted`; a
  new FOFS reports B = 0, which it rejects — `C64_fofs_refuted`; six digits change the default C of ALMA2 —
  `C64_digits_refuted`; a dimension from 2^31 on makes SetParameter throw — `C64_dim_refuted`; NaN is reported as `null`, which is
  rejected, and infinity as `1e+9999`, which throws — `C64_nonfinite_refuted`.
* Data tools on files: an output that is also the input is emptied before it is read, and the tool reports success —
  `C65_in_place_refuted`, for every file and format `C65_in_place_destroys`; concat opens its output first, so that a missing
  input costs the previous output — `C65_failed_concat_refuted`; readers and writers are found by names in any case, but the
  test for csv is case sensitive: with type CSV the column count is uninitialised — `C65_csv_case_refuted`; data without
  any feature cannot be converted to csv, and a file with a header stays — `C65_no_features`.
* sol_Predict counts in `int` — `C52_overflow_refuted`.
* Saving: weights keep six digits; NaN and truncated files are not noticed; a file without the marker loops; the
  default FOFS model cannot be loaded; ALMA2's C, active_smoothness below 1 and sparse_thresh are lost; Save
  does not finish training — `C48_*_refuted`.  `OnlineModel::SetModelInfo` ignores the result of its base.  The
  pre-selected features are not saved.  A lazily regularised model that is loaded and then trained on
  narrower data meets a shape mismatch in EndTrain — `C67_lazy_resumed_refuted`; all other classes go on (`C67_resumed`).
* The JSON reader parses the bytes behind the document up to the capacity of the string (jsoncpp.cpp:292-300), so that an
  unterminated text can be accepted or not from run to run — `C66_only_the_document_read_refuted`; saved models are safe
  (`C66_reload` holds for all such bytes).  It accepts "-", leading zeros, a comma before the end of an object after an empty
  name, a colon for a comma behind a comment, half surrogate pairs — `C66_only_json_accepted_refuted`.  More than 1000
  levels throw an exception that Load does not catch — `C66_deep_texts_read_refuted`.  Names are cut at a zero byte, -0
  becomes 0 — `C66_values_kept_refuted`, `C66_every_file_reproduced_refuted`.  A line comment makes a model file unreadable,
  since Load drops the ends of lines — `C66_line_comments_in_files_refuted`.  (An infinite setting is written as 1e+9999, which
  cannot be read again; `savable` excludes it.)
* Python cross validation (python/cv.py, dataset.py).  An exception in a worker process leaves the parent in result_queue.get()
  for ever — `C69_exception`; so does a process number of 0 — `C69_no_process_refuted`.  The average is the sum of a whole row,
  the old average included, so that a second train_val gives means up to 1.5 and a wrong best setting — `C69_again_refuted`.  A
  validation slice without examples has no accuracy and makes the first setting the best — `C69_empty_slice_refuted`.  split_file
  looks for files named after the argument, `None` by default, but writes those of the data's type; with a call that names no type
  between two that do, or after a split that failed, slices of different splits are used together (the same example is then trained
  and validated on) — `C69_slices_type_refuted`, `C69_slices_failure_refuted`.  Not in the model: the files of dataset.py are
  reused although the data file or the threshold (`binarize`) changed; `cache_path` always raises TypeError for other types than
  bin, since its message has one place for two values (dataset.py:86).
* The Python class SOL (python/pysol.pyx).  After load the property name reads freed memory (line 324 keeps the pointer of a text
  that dies with its dictionary), and so it does if the caller has not kept the text given to the constructor — `C70_name_refuted`; get_params without a model (an unknown algorithm is no error in the
  constructor) is a call through a null pointer — `C70_get_refuted`; predict, decision_function and others on a matrix without
  labels read those of a freed array of zeros (line 164; they are read although predict does not need them) —
  `C70_unlabelled_refuted`; no reference to the handler of inspect_learning is kept — `C70_handler_refuted`.  If Train gives up
  because of its settings (cost sensitive learning with a loss that is not hinge, online_model.cc:119-141) fit reports an accuracy
  of 1 and the data stay in the iterator: the next fit trains on them as well, or reads freed memory — `C70_refused_refuted`.  load
  into an object that has a model leaks the old one, and a failing load loses it — `C70_reload_refuted`.  save looks at no
  status — `C70_save_refuted`; set_params may raise after some of the settings have been applied — `C70_set_refuted`.
* The Python scripts.  sol_train.py -m (finetune) and sol_test.py read the name of the loaded model, which is freed memory: for every
  model file that can be loaded they are undefined, and for all others they raise — `C71_finetune`, `C71_test_script`; there is no
  defined run in which they give a result.  A parameter that is given and searched as well is validated with the value given at all
  points of the grid, and the model is then made with the point's value — `C71_both_refuted`; B and lambda are left out in the
  validation and put back for the model — `C71_budget_refuted` (`C71_validated` holds otherwise).  The default of model_params is one
  dictionary for all calls — `C71_default_refuted`; an exception in cross validation takes B and lambda out of the caller's dictionary —
  `C71_lost_refuted`.  --params cuts a value at a second '=', and batch_size given there raises TypeError — `C71_items_refuted`.  Not in
  the model: --params is ignored together with -m (sol_train.py:202-204), and an old result file is used whatever the grid.
## Assumptions per theorem

As printed by `Print Assumptions`, which every `Props_*.v` file runs for each of its theorems.

### Closed under the global context (no axiom)

* Props_Api.v: C52_calls, C52_test, C52_batching, C52_overflow_refuted
* Props_Capi.v: C68_command, C68_forms, C68_train, C68_train_objects, C68_test, C68_test_objects, C68_handles, C68_defined, C68_separate, C68_release, C68_no_leak, C68_accuracy_refuted, C68_test_refuted, C68_released_refuted, C68_status_refuted, C68_copy_refuted
* Props_Cmd.v: C63_declare, C63_parse, C63_refuse, C63_unique, C63_tools, C63_usage, C63_train, C63_train_other, C63_test, C63_forms
* Props_Cv.v: C69_grid, C69_task, C69_results, C69_ends, C69_exception, C69_no_process_refuted, C69_again_refuted, C69_empty_slice_refuted, C69_slices, C69_slices_type_refuted, C69_slices_failure_refuted, C69_info, C69_report_sound, C69_report_twice
* Props_Data.v: C01_index_compression_lossless, C02_encode_total, C02_decode_self_delimiting, C02_decode_in_bounds_refuted, C02_decode_overread_always, C03_binary_roundtrip, C04_truncation_exact, C04_every_cut, C04_no_wrong_point_refuted, C10_sort, C11_vector_is_sequence
* Props_Dual.v: C49_rda, C49_rda_l1, C49_erda_l1, C49_ada_rda_l1, C49_ada_rda, C49_ada_rda_test_refuted
* Props_Expr.v: C50_dense_assign, C50_sparse_assign, C50_dotmul_any_arithmetic, C50_shapes
* Props_Files.v: C65_convert, C65_shuffle, C65_concat, C65_depends_on_examples, C65_binary_copy, C65_only, C65_missing, C65_unwritable, C65_all_folds_written, C65_no_features, C65_in_place_destroys, C65_in_place_refuted, C65_failed_concat_refuted, C65_csv_case_refuted
* Props_Filter.v: C56_selection, C56_bad_line, C56_no_index_refuted, C56_negative_refuted
* Props_Finish.v: C32_end_twice, C32_retest, C32_lazy_refuted, C51_pa_refuted, C51_rda_l1_refuted
* Props_Front.v: C63_model_names, C63_prepare, C63_prepare_fails, C63_show, C63_show_refuted, C63_prepare_refuted, C63_dash_refuted, C63_params_refuted, C63_dim_refuted
* Props_Heap.v: C18_heap_init, C18_heap_init_ids, C18_heap_operations, C18_kept_exactly_K, C18_zero_size_refuted, C19_build_order, C19_top_is_worst, C19_offer, C19_offer_everything, C19_init_and_offer_everything
* Props_Info.v: C64_report, C64_unique, C64_echo, C64_restore, C64_reachable, C64_lost_refuted, C64_fofs_refuted, C64_digits_refuted, C64_dim_refuted, C64_nonfinite_refuted
* Props_Iter.v: C14_cut, C14_parts, C14_in_order, C14_complete, C14_end_stays, C14_held, C15_no_deadlock, C15_terminates, C15_calls, C16_after_end, C16_unused, C16_blocked_forever, C16_refuted, C17_error_is_silent, C15_no_batches_refuted, C14_size_zero_refuted
* Props_Json.v: C66_reads, C66_unique, C66_ends, C66_only_the_document_read_refuted, C66_only_json_accepted_refuted, C66_deep_texts_read_refuted, C66_round_trip, C66_values_kept_refuted, C66_documents, C66_reload, C66_resave, C66_every_file_reproduced_refuted, C66_line_comments_in_files_refuted
* Props_Lazy.v: C31_resume_refuted, C31_active_refuted, C31_stg_classes_refuted
* Props_Learn.v: C28_multi_refuted, C34_eccw_refuted
* Props_Loss.v: C36_bool, C36_logistic_zero_refuted, C36_same_loss, C36_stale_gradient_refuted, C38_reports_zero, C38_never_learns, C38_learns_refuted, C39_labels, C39_selection, C39_zero_refuted
* Props_Nan.v: C51_norm_refuted, C51_eccw_refuted, C51_cw_refuted
* Props_Online.v: C20_budget, C20_reinit_refuted, C20_index0_refuted, C21_inner_product, C21_unseen_ignored, C21_unsorted_refuted, C22_growth, C22_prediction_unchanged, C22_infinite_feature_refuted, C23_binary, C23_first_max_f32, C24_counters, C24_counters_any, C24_iterations, C25_no_update, C25_update_iff_loss, C25_regularised_refuted, C26_batching, C26_reports, C29_local, C54_memory_safe, C54_label_refuted
* Props_Param.v: C59_accepts, C59_effect, C59_rejected, C59_unknown, C59_commute, C59_last, C59_usable, C59_fresh, C59_ranges, C59_unchanged_refuted, C59_norm_refuted, C59_dropped_refuted, C59_dangling_refuted, C59_noloss_refuted, C59_time_refuted, C59_escapes_refuted, C59_negative_refuted, C59_stale_fofs_refuted, C59_stale_alma_refuted
* Props_Py.v: C70_safe, C70_released, C70_trains, C70_tests, C70_fit, C70_score, C70_predict, C70_no_model, C70_new, C70_load, C70_dictionary, C70_name_refuted, C70_get_refuted, C70_unlabelled_refuted, C70_handler_refuted, C70_refused_refuted, C70_reload_refuted, C70_save_refuted, C70_set_refuted
* Props_Queue.v: C12_fifo, C12_exclusive, C12_no_lost_wakeup, C12_no_items_refuted, C13_batch, C13_forced_spurious_refuted, C13_forced_stolen_refuted
* Props_Sample.v: C57_cost_ignored, C57_cost_cw_refuted
* Props_Save.v: C48_rounding, C48_reload, C48_predictions, C48_all_weights_exact_refuted, C48_nan_detected_refuted, C48_truncation_detected_refuted, C48_unclosed_file_never_returns, C48_fofs_default_loads_refuted, C48_alma_C_restored_refuted, C48_settings_restored_refuted, C48_same_test_refuted
* Props_Script.v: C71_trains, C71_chosen, C71_validated, C71_finetune, C71_test_script, C71_items, C71_both_refuted, C71_budget_refuted, C71_default_refuted, C71_lost_refuted, C71_items_refuted
* Props_Share.v: C60_transparent, C60_counts, C60_no_leak, C60_independent, C60_clone, C60_copy_shares, C60_copy_value_refuted, C60_copy_shares_refuted, C60_clone_empty_refuted, C60_clone_target_refuted
* Props_Str.v: C44_split, C44_join_split, C44_strip, C44_strip_trims_refuted, C44_lower, C45_numpy_path, C45_csr_path, C45_bad_path_refuted, C46_numpy, C46_numpy_large_refuted, C46_csr, C47_register, C47_lookup, C47_families, C47_builtin, C42_csv_case_refuted
* Props_Text.v: C05_lines_read_whole, C05_every_file_has_lines, C05_buffer_never_overrun, C05_nul_byte_refuted, C53_any_number_of_passes, C53_any_number_of_passes_refuted, C06_int_parsed, C06_uint_parsed, C06_non_number_not_consumed, C06_int_max_overflows_refuted, C06_non_number_accepted_refuted, C07_decimal_parsed, C07_decimal_overflow_refuted, C08_svm_roundtrip, C08_svm_digits_lost_refuted, C08_svm_large_index_refuted, C09_csv_roundtrip, C09_csv_unsorted_loses_features_refuted
* Props_TextBad.v: C55_svm_accepts, C55_svm_accepted, C55_svm_rejected, C55_csv_accepted, C55_csv_rejected, C55_file_stops
* Props_Tools.v: C40_split_large_refuted, C40_zero_folds_refuted, C41_shuffle, C41_shuffle_file, C42_convert_binary, C42_convert_svm, C42_convert_csv, C42_binarize, C42_no_features_refuted, C43_analyze, C43_no_features_refuted, C43_unsorted_refuted
* Props_Trained.v: C67_savable, C67_stored, C67_resumed
* Props_Unlimited.v: C58_unlimited

### `ClassicalDedekindReals.sig_forall_dec`, `FunctionalExtensionality.functional_extensionality_dep`

* Props_Regret.v: C61_bias_refuted

### `ClassicalDedekindReals.sig_forall_dec`, `ClassicalDedekindReals.sig_not_dec`, `Classical_Prop.classic`, `FunctionalExtensionality.functional_extensionality_dep`

* Props_Cv.v: C69_average, C69_selects, C69_partition
* Props_Dual.v: C49_sums
* Props_Expr.v: C50_dotmul, C50_norm2_sparse, C50_norm1_sparse, C50_norm2_dense
* Props_Files.v: C65_split, C65_split_concat
* Props_Json.v: C66_resave_f32
* Props_Lazy.v: C31_fobos_l1, C31_ada_fobos_l1, C31_stg
* Props_Learn.v: C27_mistake_bound, C28_binary, C28_multi, C28_step, C33_ball, C34_confidence, C35_scales, C35_closed_form
* Props_Loss.v: C30_composes, C30_magnitude, C36_hinge, C36_max_hinge, C36_logistic, C36_square, C37_max_hinge, C37_max_bool, C37_max_logistic, C37_uniform_bool, C37_uniform_logistic, C37_uniform_hinge, C39_norm_l1, C39_norm_l2
* Props_Nan.v: C51_numbers, C51_norm, C51_norm_accepted
* Props_Online.v: C22_prediction_unchanged_exact, C23_first_max_exact
* Props_Regret.v: C61_rounds, C61_pa, C61_pa1, C61_pa2
* Props_Regret2.v: C62_rounds, C62_ogd, C62_constant, C62_root
* Props_Sample.v: C57_sampling, C57_cost
* Props_Save.v: C48_precision, C48_integers, C48_reload_f32
* Props_Tools.v: C40_split, C40_fold_files
* Props_Trained.v: C67_stored_f32, C67_lazy_resumed_refuted

