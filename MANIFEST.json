{
 "claims": [
  {
   "property": "C01",
   "status": "proved",
   "theorems": [
    "C01_index_compression_lossless"
   ],
   "note": "Round trip for every list of uint32 indexes, sorted or not."
  },
  {
   "property": "C02",
   "status": "proved",
   "theorems": [
    "C02_encode_total",
    "C02_decode_self_delimiting",
    "C02_decode_overread_always",
    "C02_decode_in_bounds_refuted"
   ],
   "note": "Codes are self-delimiting; the over-read on a buffer ending in a continuation byte is exhibited as the finding named in the statement."
  },
  {
   "property": "C03",
   "status": "proved",
   "theorems": [
    "C03_binary_roundtrip"
   ],
   "note": "Whole files, arbitrary points with fewer than 2^60 features."
  },
  {
   "property": "C04",
   "status": "proved",
   "theorems": [
    "C04_truncation_exact",
    "C04_every_cut",
    "C04_no_wrong_point_refuted"
   ],
   "note": "Every file and every cut; the exception (binary_reader.cc:35 returns false = Status_OK) is part of the statement and exhibited."
  },
  {
   "property": "C05",
   "status": "proved",
   "theorems": [
    "C05_lines_read_whole",
    "C05_every_file_has_lines",
    "C05_buffer_never_overrun",
    "C05_nul_byte_refuted"
   ],
   "note": "NUL bytes lose data: refuted by witness"
  },
  {
   "property": "C06",
   "status": "proved",
   "theorems": [
    "C06_int_parsed",
    "C06_uint_parsed",
    "C06_non_number_not_consumed",
    "C06_int_max_overflows_refuted",
    "C06_non_number_accepted_refuted"
   ],
   "note": "edges refuted by witnesses"
  },
  {
   "property": "C07",
   "status": "proved",
   "theorems": [
    "C07_decimal_parsed",
    "C07_decimal_overflow_refuted"
   ],
   "note": "value in exact rationals; the final float conversion is a parameter"
  },
  {
   "property": "C08",
   "status": "proved",
   "theorems": [
    "C08_svm_roundtrip",
    "C08_svm_digits_lost_refuted",
    "C08_svm_large_index_refuted"
   ],
   "note": "six-digit decimals, the rounding of a float to six digits is printf's"
  },
  {
   "property": "C09",
   "status": "proved",
   "theorems": [
    "C09_csv_roundtrip",
    "C09_csv_unsorted_loses_features_refuted"
   ],
   "note": ""
  },
  {
   "property": "C10",
   "status": "proved",
   "theorems": [
    "C10_sort"
   ],
   "note": "In bounds, terminating, sorted, pair multiset kept, identity on strictly increasing input."
  },
  {
   "property": "C11",
   "status": "proved",
   "theorems": [
    "C11_vector_is_sequence"
   ],
   "note": "All histories with in-range writes and sizes below 2^62; sharing of storage between copies not modelled."
  },
  {
   "property": "C12",
   "status": "proved",
   "theorems": [
    "C12_fifo",
    "C12_exclusive",
    "C12_no_lost_wakeup",
    "C12_no_items_refuted"
   ],
   "note": "For every capacity, thread count, schedule and spurious wake-up. Model is statement by statement; mutex and condition variables as specified by C++/POSIX. The refutation: a batch dequeue of zero items swallows a wake-up."
  },
  {
   "property": "C13",
   "status": "proved",
   "theorems": [
    "C13_batch",
    "C13_forced_spurious_refuted",
    "C13_forced_stolen_refuted"
   ],
   "note": "Positive part for the batch dequeue without force (the only one the library uses); the forced variant is refuted with and without spurious wake-ups."
  },
  {
   "property": "C14",
   "status": "proved",
   "theorems": [
    "C14_cut",
    "C14_parts",
    "C14_in_order",
    "C14_complete",
    "C14_end_stays",
    "C14_held",
    "C14_size_zero_refuted"
   ],
   "note": "All schedules, spurious wake-ups, any number of readers. Size zero is refuted."
  },
  {
   "property": "C15",
   "status": "proved",
   "theorems": [
    "C15_no_deadlock",
    "C15_terminates",
    "C15_calls",
    "C15_no_batches_refuted"
   ],
   "note": "No deadlock outside the destructor; bounded number of steps between two calls. No batches: refuted."
  },
  {
   "property": "C16",
   "status": "proved",
   "theorems": [
    "C16_refuted",
    "C16_blocked_forever",
    "C16_after_end",
    "C16_unused"
   ],
   "note": "The property is false of the code; a run after which the destructor is blocked for ever is given. Proved for destruction before the first Next and after the end marker."
  },
  {
   "property": "C17",
   "status": "proved",
   "theorems": [
    "C17_error_is_silent"
   ],
   "note": "The source is delivered once up to the error, then the next source follows."
  },
  {
   "property": "C18",
   "status": "proved",
   "theorems": [
    "C18_heap_init",
    "C18_heap_init_ids",
    "C18_heap_operations",
    "C18_kept_exactly_K",
    "C18_zero_size_refuted"
   ],
   "note": "all score vectors and comparisons, every sequence of operations; K = 0 reads out of range (refuted variant)"
  },
  {
   "property": "C19",
   "status": "proved",
   "theorems": [
    "C19_build_order",
    "C19_top_is_worst",
    "C19_offer",
    "C19_offer_everything",
    "C19_init_and_offer_everything"
   ],
   "note": "for every strict weak order on scores"
  },
  {
   "property": "C20",
   "status": "proved",
   "theorems": [
    "C20_budget",
    "C20_reinit_refuted",
    "C20_index0_refuted"
   ],
   "note": "any session of training and testing, any arithmetic; refuted after a parameter change (second-order models) and out of range for feature index 0"
  },
  {
   "property": "C21",
   "status": "proved",
   "theorems": [
    "C21_inner_product",
    "C21_unseen_ignored",
    "C21_unsorted_refuted"
   ],
   "note": "any arithmetic; witness for unsorted examples reads out of range"
  },
  {
   "property": "C22",
   "status": "proved",
   "theorems": [
    "C22_growth",
    "C22_prediction_unchanged",
    "C22_prediction_unchanged_exact",
    "C22_infinite_feature_refuted"
   ],
   "note": "weights for any arithmetic, predictions in exact arithmetic; refuted for an infinite feature in floats"
  },
  {
   "property": "C23",
   "status": "proved",
   "theorems": [
    "C23_binary",
    "C23_first_max_exact",
    "C23_first_max_f32"
   ],
   "note": "reals and single precision without NaN"
  },
  {
   "property": "C24",
   "status": "proved",
   "theorems": [
    "C24_counters",
    "C24_counters_any",
    "C24_iterations"
   ],
   "note": "for every registered model and any algorithm that leaves the counters alone"
  },
  {
   "property": "C25",
   "status": "proved",
   "theorems": [
    "C25_no_update",
    "C25_update_iff_loss",
    "C25_regularised_refuted"
   ],
   "note": "all models that predict with their weights as they are; the regularised ones shrink weights before predicting, by design"
  },
  {
   "property": "C26",
   "status": "proved",
   "theorems": [
    "C26_batching",
    "C26_reports"
   ],
   "note": "training depends only on the concatenation of the batches"
  },
  {
   "property": "C27",
   "status": "proved",
   "theorems": [
    "C27_mistake_bound"
   ],
   "note": "Exact real arithmetic, binary and max-score perceptron loss, whole sessions."
  },
  {
   "property": "C28",
   "status": "proved",
   "theorems": [
    "C28_binary",
    "C28_multi",
    "C28_step",
    "C28_multi_refuted"
   ],
   "note": "Exact real arithmetic for the positive theorems. C28_multi_refuted: with three classes the max-score hinge loss may stay positive after a PA step (float32 witness)."
  },
  {
   "property": "C29",
   "status": "proved",
   "theorems": [
    "C29_local"
   ],
   "note": "after any session; ALMA2, FOFS and the selection models rescale or drop other weights by design"
  },
  {
   "property": "C30",
   "status": "proved",
   "theorems": [
    "C30_composes",
    "C30_magnitude"
   ],
   "note": "Over exact reals."
  },
  {
   "property": "C31",
   "status": "proved",
   "theorems": [
    "C31_fobos_l1",
    "C31_ada_fobos_l1",
    "C31_stg",
    "C31_resume_refuted",
    "C31_active_refuted",
    "C31_stg_classes_refuted"
   ],
   "note": "Exact reals, power_t = 0 for FOBOS_L1 and STG; the eager algorithms are separate specifications in S_Lazy. Findings: continuing after a test truncates twice, examples skipped by active learning truncate twice, STG truncates only its first class."
  },
  {
   "property": "C32",
   "status": "proved",
   "theorems": [
    "C32_end_twice",
    "C32_retest",
    "C32_lazy_refuted"
   ],
   "note": "Every number type; refutation in float32."
  },
  {
   "property": "C33",
   "status": "proved",
   "theorems": [
    "C33_ball"
   ],
   "note": "Exact reals; every session with ALMA2 (radius 1) and FOFS (radius 1/sqrt lambda, lambda > 0)."
  },
  {
   "property": "C34",
   "status": "proved",
   "theorems": [
    "C34_confidence",
    "C34_eccw_refuted"
   ],
   "note": "Exact arithmetic, all sessions; ECCW only for small examples, the refutation in single precision shows why."
  },
  {
   "property": "C35",
   "status": "proved",
   "theorems": [
    "C35_scales",
    "C35_closed_form"
   ],
   "note": "Exact arithmetic, all sessions, all six adaptive models."
  },
  {
   "property": "C36",
   "status": "proved",
   "theorems": [
    "C36_hinge",
    "C36_bool",
    "C36_max_hinge",
    "C36_logistic",
    "C36_square",
    "C36_same_loss",
    "C36_logistic_zero_refuted",
    "C36_stale_gradient_refuted"
   ],
   "note": "Over exact reals; boolean losses and the agreement of the two routines for every arithmetic. The two stronger claims are refuted by binary32 witnesses."
  },
  {
   "property": "C37",
   "status": "proved",
   "theorems": [
    "C37_max_hinge",
    "C37_max_bool",
    "C37_max_logistic",
    "C37_uniform_bool",
    "C37_uniform_logistic",
    "C37_uniform_hinge"
   ],
   "note": "Over exact reals. The uniform hinge and logistic gradients sum to zero only up to 1e-12, because the code adds 1e-12 to the number of rivals; scores must exceed -FLT_MAX."
  },
  {
   "property": "C38",
   "status": "proved",
   "theorems": [
    "C38_reports_zero",
    "C38_never_learns",
    "C38_learns_refuted"
   ],
   "note": "Every arithmetic; the intended behaviour is refuted by a concrete run."
  },
  {
   "property": "C39",
   "status": "proved",
   "theorems": [
    "C39_labels",
    "C39_selection",
    "C39_norm_l1",
    "C39_norm_l2",
    "C39_zero_refuted"
   ],
   "note": "Labels and selection for every arithmetic, norms over exact reals; an all-zero example becomes NaN (binary32 witness)."
  },
  {
   "property": "C40",
   "status": "proved",
   "theorems": [
    "C40_split",
    "C40_fold_files",
    "C40_split_large_refuted",
    "C40_zero_folds_refuted"
   ],
   "note": "Up to 2^24 examples every example is in exactly one fold, in order; above that (and for zero folds) refuted with witnesses."
  },
  {
   "property": "C41",
   "status": "proved",
   "theorems": [
    "C41_shuffle",
    "C41_shuffle_file"
   ],
   "note": "The random permutation is a parameter."
  },
  {
   "property": "C42",
   "status": "proved",
   "theorems": [
    "C42_convert_binary",
    "C42_convert_svm",
    "C42_convert_csv",
    "C42_binarize",
    "C42_no_features_refuted",
    "C42_csv_case_refuted"
   ],
   "note": "Binary, svm and csv targets composed with the file round trips; binarisation for any threshold test."
  },
  {
   "property": "C43",
   "status": "proved",
   "theorems": [
    "C43_analyze",
    "C43_no_features_refuted",
    "C43_unsorted_refuted"
   ],
   "note": "Exact counts for sorted records; counterexamples otherwise."
  },
  {
   "property": "C44",
   "status": "proved",
   "theorems": [
    "C44_split",
    "C44_join_split",
    "C44_strip",
    "C44_strip_trims_refuted",
    "C44_lower"
   ],
   "note": "All strings and separators."
  },
  {
   "property": "C45",
   "status": "proved",
   "theorems": [
    "C45_numpy_path",
    "C45_csr_path",
    "C45_bad_path_refuted"
   ],
   "note": "All 64-bit addresses and 32-bit sizes."
  },
  {
   "property": "C46",
   "status": "proved",
   "theorems": [
    "C46_numpy",
    "C46_numpy_large_refuted",
    "C46_csr"
   ],
   "note": "Rows enumerated for every shape within int offsets; larger matrices refuted."
  },
  {
   "property": "C47",
   "status": "proved",
   "theorems": [
    "C47_register",
    "C47_lookup",
    "C47_families",
    "C47_builtin"
   ],
   "note": "Every registration history; the library's own components in any order."
  },
  {
   "property": "C48",
   "status": "proved",
   "theorems": [
    "C48_reload",
    "C48_predictions",
    "C48_precision",
    "C48_integers",
    "C48_reload_f32",
    "C48_all_weights_exact_refuted",
    "C48_nan_detected_refuted",
    "C48_truncation_detected_refuted",
    "C48_unclosed_file_never_returns",
    "C48_fofs_default_loads_refuted",
    "C48_alma_C_restored_refuted",
    "C48_settings_restored_refuted",
    "C48_same_test_refuted",
    "C48_rounding"
   ],
   "note": "The JSON library is a parameter that must read back the document it wrote (C66 proves that it does); printf %g and strtof are the glibc functions, modelled for binary32."
  },
  {
   "property": "C49",
   "status": "proved",
   "theorems": [
    "C49_rda",
    "C49_rda_l1",
    "C49_erda_l1",
    "C49_ada_rda_l1",
    "C49_ada_rda",
    "C49_sums",
    "C49_ada_rda_test_refuted"
   ],
   "note": "AdaRDA only up to the first test (counterexample after it), bias factor times zero being zero, feature indexes from 1; the exact-real sums use the real axioms, the rest is axiom-free."
  },
  {
   "property": "C50",
   "status": "proved",
   "theorems": [
    "C50_dense_assign",
    "C50_sparse_assign",
    "C50_dotmul",
    "C50_norm2_sparse",
    "C50_norm1_sparse",
    "C50_norm2_dense",
    "C50_dotmul_any_arithmetic",
    "C50_shapes"
   ],
   "note": "Expression templates evaluate element-wise for every arithmetic; reductions equal mathematical sums over the reals."
  },
  {
   "property": "C51",
   "status": "proved",
   "theorems": [
    "C51_numbers",
    "C51_norm",
    "C51_norm_accepted",
    "C51_pa_refuted",
    "C51_rda_l1_refuted",
    "C51_eccw_refuted",
    "C51_cw_refuted",
    "C51_norm_refuted"
   ],
   "note": "C51_numbers is over exact reals with an extra value for operations outside of their domain; overflow and rounding of floats are not covered. The exceptions are shown on binary32 runs."
  },
  {
   "property": "C52",
   "status": "proved",
   "theorems": [
    "C52_calls",
    "C52_test",
    "C52_batching",
    "C52_overflow_refuted"
   ],
   "note": "sol_Predict makes one callback per example in order with the scores of the finished model, equal to the rows of Model::Test, independent of batching and of the reused score buffer; finding: the returned int count overflows at 2^31 examples."
  },
  {
   "property": "C53",
   "status": "proved",
   "theorems": [
    "C53_any_number_of_passes",
    "C53_any_number_of_passes_refuted"
   ],
   "note": "holds for terminated files; refuted for an unterminated last line"
  },
  {
   "property": "C54",
   "status": "proved",
   "theorems": [
    "C54_memory_safe",
    "C54_label_refuted"
   ],
   "note": "all 24 registered models, any session, any arithmetic"
  },
  {
   "property": "C55",
   "status": "proved",
   "theorems": [
    "C55_svm_accepts",
    "C55_svm_accepted",
    "C55_svm_rejected",
    "C55_csv_accepted",
    "C55_csv_rejected",
    "C55_file_stops"
   ],
   "note": "The number parsers accept loosely spelled numbers (S_TextBad.loose_number: any part may be missing), as C06_non_number_accepted_refuted shows."
  },
  {
   "property": "C56",
   "status": "proved",
   "theorems": [
    "C56_selection",
    "C56_bad_line",
    "C56_no_index_refuted",
    "C56_negative_refuted"
   ],
   "note": "Lines: comments, or a positive int at the start followed by a non-digit (S_Filter.entry_ok). The two refuted theorems are undefined behaviour of the loader."
  },
  {
   "property": "C57",
   "status": "proved",
   "theorems": [
    "C57_sampling",
    "C57_cost",
    "C57_cost_ignored",
    "C57_cost_cw_refuted"
   ],
   "note": "Exact reals (binary32 cannot round u <= b/(b+m) exactly); scores of several classes above -FLT_MAX. C25_no_update adds that the weights stay."
  },
  {
   "property": "C58",
   "status": "proved",
   "theorems": [
    "C58_unlimited"
   ],
   "note": "The sessions start from the constructors; sharing of heap and score arrays is not used with budget 0."
  },
  {
   "property": "C59",
   "status": "proved",
   "theorems": [
    "C59_accepts",
    "C59_effect",
    "C59_rejected",
    "C59_unknown",
    "C59_commute",
    "C59_last",
    "C59_usable",
    "C59_fresh",
    "C59_ranges",
    "C59_unchanged_refuted",
    "C59_norm_refuted",
    "C59_dropped_refuted",
    "C59_dangling_refuted",
    "C59_noloss_refuted",
    "C59_time_refuted",
    "C59_escapes_refuted",
    "C59_negative_refuted",
    "C59_stale_fofs_refuted",
    "C59_stale_alma_refuted"
   ],
   "note": "All 24 classes. stof and the file system are parameters. The refuted theorems show what a rejected setting leaves behind and that FOFS does not recompute on a new lambda."
  },
  {
   "property": "C60",
   "status": "proved",
   "theorems": [
    "C60_transparent",
    "C60_counts",
    "C60_no_leak",
    "C60_independent",
    "C60_clone",
    "C60_copy_shares",
    "C60_copy_value_refuted",
    "C60_copy_shares_refuted",
    "C60_clone_empty_refuted",
    "C60_clone_target_refuted"
   ],
   "note": "Vector, SVector and DataPoint with their counters, against a specification in which nothing is counted or deleted. The refutations delimit sharing: a copy is no copy of the features, an empty original shares nothing, Clone needs storage in the source and overwrites the target for all its copies."
  },
  {
   "property": "C61",
   "status": "proved",
   "theorems": [
    "C61_rounds",
    "C61_pa",
    "C61_pa1",
    "C61_pa2",
    "C61_bias_refuted"
   ],
   "note": "Exact arithmetic; no active learning, no cost margins; for more than two classes scores above the smallest float. C61_bias_refuted: with bias steps the bound is false."
  },
  {
   "property": "C62",
   "status": "proved",
   "theorems": [
    "C62_rounds",
    "C62_ogd",
    "C62_constant",
    "C62_root"
   ],
   "note": "Exact arithmetic, two classes, no active learning, no cost margins."
  },
  {
   "property": "C63",
   "status": "proved",
   "theorems": [
    "C63_declare",
    "C63_parse",
    "C63_refuse",
    "C63_unique",
    "C63_tools",
    "C63_forms",
    "C63_usage",
    "C63_train",
    "C63_train_other",
    "C63_test",
    "C63_model_names",
    "C63_prepare",
    "C63_prepare_fails",
    "C63_show",
    "C63_show_refuted",
    "C63_prepare_refuted",
    "C63_dash_refuted",
    "C63_params_refuted",
    "C63_dim_refuted"
   ],
   "note": "The parser against an independent grammar of command lines; the names, short forms and defaults of all options of all tools written out; the front ends against what the line says; the model sol_train trains."
  },
  {
   "property": "C64",
   "status": "proved",
   "theorems": [
    "C64_report",
    "C64_unique",
    "C64_echo",
    "C64_restore",
    "C64_reachable",
    "C64_lost_refuted",
    "C64_fofs_refuted",
    "C64_digits_refuted",
    "C64_dim_refuted",
    "C64_nonfinite_refuted"
   ],
   "note": "The walk over the JSON value and GetModelInfo of all classes; printing and reading of floats are parameters, with their agreement on the values at hand as a hypothesis of C64_restore and C64_reachable. The _refuted theorems record what is not restored."
  },
  {
   "property": "C65",
   "status": "proved",
   "theorems": [
    "C65_convert",
    "C65_shuffle",
    "C65_split",
    "C65_concat",
    "C65_split_concat",
    "C65_depends_on_examples",
    "C65_binary_copy",
    "C65_only",
    "C65_missing",
    "C65_unwritable",
    "C65_all_folds_written",
    "C65_no_features",
    "C65_in_place_destroys",
    "C65_in_place_refuted",
    "C65_failed_concat_refuted",
    "C65_csv_case_refuted"
   ],
   "note": "The tools from opening the files to the end of the process, on a file system that maps path names to contents; printing and parsing of single values are parameters as in C08 and C09."
  },
  {
   "property": "C66",
   "status": "proved",
   "theorems": [
    "C66_reads",
    "C66_unique",
    "C66_ends",
    "C66_round_trip",
    "C66_documents",
    "C66_reload",
    "C66_resave",
    "C66_resave_f32",
    "C66_only_the_document_read_refuted",
    "C66_only_json_accepted_refuted",
    "C66_deep_texts_read_refuted",
    "C66_values_kept_refuted",
    "C66_every_file_reproduced_refuted",
    "C66_line_comments_in_files_refuted"
   ],
   "note": "The grammar of JSON is stated independently in S_Json.v.  Printing and reading a double are parameters of the reader and writer theorems; for model files a double is known by its six digits."
  },
  {
   "property": "C67",
   "status": "proved",
   "theorems": [
    "C67_savable",
    "C67_stored",
    "C67_stored_f32",
    "C67_resumed",
    "C67_lazy_resumed_refuted"
   ],
   "note": "Any session from a new model, for all classes; JSON library as modelled for C66. Settings that print exactly are a hypothesis (storable); exact answers need six-digit weights, otherwise the f32 bound. Two-class models with n=2 weight vectors do not exist. The two lazily regularised classes cannot always go on: refuted with a witness."
  },
  {
   "property": "C68",
   "status": "proved",
   "theorems": [
    "C68_command",
    "C68_forms",
    "C68_train",
    "C68_train_objects",
    "C68_test",
    "C68_test_objects",
    "C68_handles",
    "C68_defined",
    "C68_separate",
    "C68_release",
    "C68_no_leak",
    "C68_accuracy_refuted",
    "C68_test_refuted",
    "C68_released_refuted",
    "C68_status_refuted",
    "C68_copy_refuted"
   ],
   "note": "The classes behind the interface are a parameter of the theorems (any behaviour); addresses are not reused in the model, so every use of a released object counts as undefined."
  },
  {
   "property": "C69",
   "status": "proved",
   "theorems": [
    "C69_grid",
    "C69_task",
    "C69_results",
    "C69_ends",
    "C69_exception",
    "C69_no_process_refuted",
    "C69_average",
    "C69_selects",
    "C69_again_refuted",
    "C69_empty_slice_refuted",
    "C69_slices",
    "C69_slices_type_refuted",
    "C69_slices_failure_refuted",
    "C69_partition",
    "C69_info",
    "C69_report_sound",
    "C69_report_twice"
   ],
   "note": "The mean and the choice are proved in exact arithmetic; the limits are the _refuted theorems."
  },
  {
   "property": "C70",
   "status": "proved",
   "theorems": [
    "C70_safe",
    "C70_released",
    "C70_trains",
    "C70_tests",
    "C70_fit",
    "C70_score",
    "C70_predict",
    "C70_no_model",
    "C70_new",
    "C70_load",
    "C70_name_refuted",
    "C70_get_refuted",
    "C70_unlabelled_refuted",
    "C70_handler_refuted",
    "C70_refused_refuted",
    "C70_reload_refuted",
    "C70_save_refuted",
    "C70_set_refuted",
    "C70_dictionary"
   ],
   "note": "For all behaviours of the classes; memory of Python objects is the set of living objects; the refutations are the exceptions named in the statement."
  },
  {
   "property": "C71",
   "status": "proved",
   "theorems": [
    "C71_trains",
    "C71_chosen",
    "C71_validated",
    "C71_finetune",
    "C71_test_script",
    "C71_items",
    "C71_both_refuted",
    "C71_budget_refuted",
    "C71_default_refuted",
    "C71_lost_refuted",
    "C71_items_refuted"
   ],
   "note": "Cross validation is a parameter; the refutations are the exceptions named in the statement."
  }
 ]
}