{
 "claims": [
  {
   "property": "C01",
   "status": "proved",
   "theorems": [
    "C01_masses_positions_masses",
    "C01_positive_masses_survive"
   ],
   "note": ""
  },
  {
   "property": "C02",
   "status": "proved",
   "theorems": [
    "C02_run_lengths",
    "C02_back_to_positions"
   ],
   "note": ""
  },
  {
   "property": "C03",
   "status": "proved",
   "theorems": [
    "C03_boundary_string",
    "C03_inner_zeros_ignored",
    "C03_leading_zero_mass",
    "C03_all_masses_refuted"
   ],
   "note": "The unrestricted form (all mass sequences) is false: C03_all_masses_refuted."
  },
  {
   "property": "C04",
   "status": "proved",
   "theorems": [
    "C04_boundary_string_injective"
   ],
   "note": ""
  },
  {
   "property": "C05",
   "status": "proved",
   "theorems": [
    "C05_nltk_boundaries",
    "C05_longer_symbol"
   ],
   "note": ""
  },
  {
   "property": "C06",
   "status": "proved",
   "theorems": [
    "C06_encodings"
   ],
   "note": ""
  },
  {
   "property": "C07",
   "status": "proved",
   "theorems": [
    "C07_encodings",
    "C07_lamprier_zero_refuted"
   ],
   "note": "Lamprier's variant needs non-zero labels at the ends of a position sequence (C07_lamprier_zero_refuted)."
  },
  {
   "property": "C08",
   "status": "proved",
   "theorems": [
    "C08_no_edits"
   ],
   "note": ""
  },
  {
   "property": "C09",
   "status": "proved",
   "theorems": [
    "C09_each_difference_once",
    "C09_total"
   ],
   "note": "Types are restricted to -5..256, where CPython's identity test is equality; C16_large_types_refuted shows the claim fails outside."
  },
  {
   "property": "C10",
   "status": "proved",
   "theorems": [
    "C10_transpositions"
   ],
   "note": "Restricted to types in -5..256; see C16_large_types_refuted."
  },
  {
   "property": "C11",
   "status": "proved",
   "theorems": [
    "C11_cheapest_pairing",
    "C11_at_every_gap"
   ],
   "note": ""
  },
  {
   "property": "C12",
   "status": "proved",
   "theorems": [
    "C12_symmetric"
   ],
   "note": "Restricted to types in -5..256."
  },
  {
   "property": "C13",
   "status": "proved",
   "theorems": [
    "C13_order_independent"
   ],
   "note": "Restricted to types in -5..256."
  },
  {
   "property": "C14",
   "status": "proved",
   "theorems": [
    "C14_monotone",
    "C14_none_below_two"
   ],
   "note": ""
  },
  {
   "property": "C15",
   "status": "proved",
   "theorems": [
    "C15_minimal",
    "C15_attained",
    "C15_longer_spans_refuted"
   ],
   "note": "Proved for one type and n_t = 2 (minimal and attained); C15_longer_spans_refuted is the computed counterexample for n_t = 3."
  },
  {
   "property": "C16",
   "status": "proved",
   "theorems": [
    "C16_by_value",
    "C16_large_types_refuted"
   ],
   "note": "C16_large_types_refuted is the computed counterexample outside the cached range."
  },
  {
   "property": "C17",
   "status": "proved",
   "theorems": [
    "C17_returns",
    "C17_shorter_second_string"
   ],
   "note": ""
  },
  {
   "property": "C18",
   "status": "proved",
   "theorems": [
    "C18_statistics"
   ],
   "note": ""
  },
  {
   "property": "C19",
   "status": "proved",
   "theorems": [
    "C19_range_exact",
    "C19_range"
   ],
   "note": "Exact arithmetic: unconditional. Rounded arithmetic: types in -5..256 and at most 10^28 boundaries."
  },
  {
   "property": "C20",
   "status": "proved",
   "theorems": [
    "C20_one_exact",
    "C20_one",
    "C20_no_boundaries",
    "C20_identical_refuted"
   ],
   "note": "Rounded arithmetic: types in -5..256, at most 10^12 boundaries, n_t at most 10^12. C20_identical_refuted: identical segmentations without boundaries raise instead of giving 1."
  },
  {
   "property": "C21",
   "status": "proved",
   "theorems": [
    "C21_symmetric",
    "C21_weights"
   ],
   "note": "Types in -5..256. When both conversions fail they must fail alike (otherwise the first argument's error is raised)."
  },
  {
   "property": "C22",
   "status": "proved",
   "theorems": [
    "C22_zero_exact",
    "C22_zero"
   ],
   "note": "Rounded arithmetic: same size limits as C20."
  },
  {
   "property": "C23",
   "status": "proved",
   "theorems": [
    "C23_B_flags",
    "C23_S_flags",
    "C23_integer_weights"
   ],
   "note": ""
  },
  {
   "property": "C24",
   "status": "proved",
   "theorems": [
    "C24_exact",
    "C24_range",
    "C24_one",
    "C24_above_B"
   ],
   "note": "Types in -5..256; size limits in the rounded statements."
  },
  {
   "property": "C25",
   "status": "proved",
   "theorems": [
    "C25_scaled_exact",
    "C25_scaled",
    "C25_zero_n_t"
   ],
   "note": "Rounded statement: number of edits times scale at most 10^26."
  },
  {
   "property": "C26",
   "status": "proved",
   "theorems": [
    "C26_lengths",
    "C26_masses",
    "C26_format",
    "C26_window_lengths",
    "C26_window_masses",
    "C26_window_format"
   ],
   "note": "BED metrics here; window metrics in C26_window_*."
  },
  {
   "property": "C27",
   "status": "proved",
   "theorems": [
    "C27_cells",
    "C27_diagonal",
    "C27_sides",
    "C27_exists",
    "C27_documented_sides_refuted"
   ],
   "note": "Off-diagonal cells count substitutions and additions for any weights and arithmetic; the diagonal is given as the fold of weights, and as matches + span/n_t in exact arithmetic. The sides are opposite to the documented matrix[predicted][actual] (C27_documented_sides_refuted)."
  },
  {
   "property": "C28",
   "status": "proved",
   "theorems": [
    "C28_class",
    "C28_averages",
    "C28_fmeasure",
    "C28_fmeasure_decimal",
    "C28_fmeasure_refuted",
    "C28_decimal_zero_refuted",
    "C28_other_average"
   ],
   "note": "Matrices with non-negative int/Decimal cells, no Decimal zero on the diagonal (C28_decimal_zero_refuted raises), cells within 28 digits unless all ints. F-measure: [0,1] in exact arithmetic; with 28 digits at most 1+6E-27, and it does exceed 1 (C28_fmeasure_refuted). C28_other_average: an unknown average raises."
  },
  {
   "property": "C29",
   "status": "proved",
   "theorems": [
    "C29_micro",
    "C29_decimals_refuted"
   ],
   "note": "For int cells in every arithmetic, Decimal cells in exact arithmetic; false for Decimal cells in 28 digits (C29_decimals_refuted)."
  },
  {
   "property": "C30",
   "status": "proved",
   "theorems": [
    "C30_formula",
    "C30_mean",
    "C30_decimal"
   ],
   "note": "Exactly in exact arithmetic; in 28 digits with relative error 6E-27."
  },
  {
   "property": "C31",
   "status": "proved",
   "theorems": [
    "C31_cells",
    "C31_classes",
    "C31_classes_no_bare",
    "C31_classes_after_write",
    "C31_bare_row_refuted"
   ],
   "note": "A bare row access may or may not be seen by classes(), depending on whether a write is pending (C31_bare_row_refuted)."
  },
  {
   "property": "C32",
   "status": "proved",
   "theorems": [
    "C32_cells",
    "C32_micro",
    "C32_micro_fmeasure",
    "C32_classes",
    "C32_macro",
    "C32_macro_refuted"
   ],
   "note": "Cells for every arithmetic; micro precision/recall for exact cells; micro F in exact arithmetic. Unknown classes are added and dilute macro averages (C32_macro, C32_macro_refuted)."
  },
  {
   "property": "C33",
   "status": "proved",
   "theorems": [
    "C33_window_size",
    "C33_default_round",
    "C33_position",
    "C33_at_least_2",
    "C33_empty",
    "C33_not_a_collection",
    "C33_rejected",
    "C33_position_int",
    "C33_position_dict_ignored",
    "C33_position_dict_refuted"
   ],
   "note": "proved for masses, positions and nltk; a dict of positions is refuted (only its keys are counted)."
  },
  {
   "property": "C34",
   "status": "proved",
   "theorems": [
    "C34_pk_counts"
   ],
   "note": ""
  },
  {
   "property": "C35",
   "status": "proved",
   "theorems": [
    "C35_window_diff_counts",
    "C35_lamprier"
   ],
   "note": "window_diff compares with `is not`: proved for windows where counts stay in CPython's int cache (k <= 255)."
  },
  {
   "property": "C36",
   "status": "proved",
   "theorems": [
    "C36_pk_range",
    "C36_window_diff_range",
    "C36_identical",
    "C36_lamprier_string"
   ],
   "note": "for window_diff k <= 255 (identity comparison of ints); with the Lamprier correction labels given as a string raise TypeError instead (C36_lamprier_string)."
  },
  {
   "property": "C37",
   "status": "proved",
   "theorems": [
    "C37_pk_le_window_diff",
    "C37_labels_refuted"
   ],
   "note": "proved for mass segmentations; refuted for position sequences whose labels repeat."
  },
  {
   "property": "C38",
   "status": "proved",
   "theorems": [
    "C38_symmetric",
    "C38_default_window",
    "C38_default_window_refuted"
   ],
   "note": "proved for a given window size; refuted for the default window, which comes from the reference."
  },
  {
   "property": "C39",
   "status": "proved",
   "theorems": [
    "C39_large_window_fails",
    "C39_every_window_refuted"
   ],
   "note": "the statement is proved; the title (window_diff works for every window size) is refuted."
  },
  {
   "property": "C40",
   "status": "proved",
   "theorems": [
    "C40_pk",
    "C40_window_diff"
   ],
   "note": ""
  },
  {
   "property": "C41",
   "status": "proved",
   "theorems": [
    "C41_pk_flags",
    "C41_window_diff_flags"
   ],
   "note": ""
  },
  {
   "property": "C42",
   "status": "proved",
   "theorems": [
    "C42_complete",
    "C42_calls",
    "C42_returns",
    "C42_any_names",
    "C42_order",
    "C42_commas_refuted",
    "C42_commas_order_refuted"
   ],
   "note": "only coders' names need to be comma-free; with commas entries are lost and the survivor depends on set order (refuted theorems). Calls of the metric are recorded in a ghost log."
  },
  {
   "property": "C43",
   "status": "proved",
   "theorems": [
    "C43_complete",
    "C43_calls",
    "C43_returns"
   ],
   "note": "items may contain commas, coders may not."
  },
  {
   "property": "C44",
   "status": "proved",
   "theorems": [
    "C44_both_orders",
    "C44_symmetric",
    "C44_similarity",
    "C44_window",
    "C44_default_window_refuted"
   ],
   "note": "also instantiated for B, S, Pk and WindowDiff; Pk with the default window gives two different entries (refuted)."
  },
  {
   "property": "C45",
   "status": "proved",
   "theorems": [
    "C45_two_segmentations",
    "C45_ints_and_names",
    "C45_one_dataset",
    "C45_two_datasets",
    "C45_refused",
    "C45_refused_always",
    "C45_one_segmentation_refuted"
   ],
   "note": "the refused calls are characterised exactly; one segmentation alone raises AttributeError instead (refuted)."
  },
  {
   "property": "C46",
   "status": "proved",
   "theorems": [
    "C46_pooled",
    "C46_rounded"
   ],
   "note": "Exact: pooled ratio, range and iff. Rounded (any sane arithmetic, cached types, workload <= 10^28): range and unanimous -> 1."
  },
  {
   "property": "C47",
   "status": "proved",
   "theorems": [
    "C47_at_most_one",
    "C47_raises",
    "C47_returns"
   ],
   "note": "Upper bound and value 1 for any sane arithmetic within precision; raising case; existence in exact arithmetic."
  },
  {
   "property": "C48",
   "status": "proved",
   "theorems": [
    "C48_difference",
    "C48_not_negative",
    "C48_zero",
    "C48_several_items_refuted",
    "C48_several_types_refuted",
    "C48_rounded_refuted"
   ],
   "note": "Proved in exact arithmetic for a single item. The three natural generalisations (several items, several types, Decimal rounding) are refuted by computed witnesses."
  },
  {
   "property": "C49",
   "status": "proved",
   "theorems": [
    "C49_order_and_names",
    "C49_rounded_refuted"
   ],
   "note": "Proved in exact arithmetic (returned values equal in both directions). C49_rounded_refuted: with 28-digit Decimals pi depends on set iteration order in the last digit."
  },
  {
   "property": "C50",
   "status": "proved",
   "theorems": [
    "C50_kappa",
    "C50_equal",
    "C50_one_coder"
   ],
   "note": "All guards."
  },
  {
   "property": "C51",
   "status": "proved",
   "theorems": [
    "C51_outcome",
    "C51_union",
    "C51_coders",
    "C51_unchanged_refuted"
   ],
   "note": "A failed merge may leave the left operand changed: C51_unchanged_refuted."
  },
  {
   "property": "C52",
   "status": "proved",
   "theorems": [
    "C52_operands",
    "C52_objects",
    "C52_outcome",
    "C52_union",
    "C52_write_through",
    "C52_in_place",
    "C52_shared_refuted"
   ],
   "note": "Codings and property values are immutable in the heap model. If two items of a share an inner dict the copy shares it too and the sum is not the union: C52_shared_refuted."
  },
  {
   "property": "C53",
   "status": "proved",
   "theorems": [
    "C53_round_trip",
    "C53_items_property",
    "C53_foreign_type"
   ],
   "note": "Stated on JSON values with sorted keys; C69_round_trip states it for the text of the file."
  },
  {
   "property": "C54",
   "status": "proved",
   "theorems": [
    "C54_unreadable",
    "C54_rejects",
    "C54_accepts",
    "C54_verbatim",
    "C54_malformed",
    "C54_first_fault",
    "C54_not_object"
   ],
   "note": "Stated on parsed values, None for a file that cannot be parsed; C69 states it for the text of the file and covers top-level values other than objects."
  },
  {
   "property": "C55",
   "status": "proved",
   "theorems": [
    "C55_accepts",
    "C55_codings",
    "C55_raises",
    "C55_integers"
   ],
   "note": "Rows are lists of cells; for the way from the text to the rows see C67. int() on ASCII text with signs, blanks and underscores is modelled (C55_integers)."
  },
  {
   "property": "C56",
   "status": "proved",
   "theorems": [
    "C56_files",
    "C56_all_files",
    "C56_raises",
    "C56_same_stem_refuted",
    "C56_clash",
    "C56_names"
   ],
   "note": "Unconditional completeness is false (C56_same_stem_refuted). Files are given by the outcome of reading them."
  },
  {
   "property": "C57",
   "status": "proved",
   "theorems": [
    "C57_json",
    "C57_tsv",
    "C57_in_memory",
    "C57_coders"
   ],
   "note": ""
  },
  {
   "property": "C58",
   "status": "proved",
   "theorems": [
    "C58_exact",
    "C58_rounded",
    "C58_python",
    "C58_mean_between",
    "C58_variance_zero",
    "C58_variance_spread",
    "C58_grid",
    "C58_unit",
    "C58_order",
    "C58_empty",
    "C58_float",
    "C58_rounded_mean_refuted",
    "C58_rounded_variance_refuted"
   ],
   "note": "Rounded statements carry explicit error bounds (up to 10^24 values). With full-length decimals the mean of equal values can lie below them and their variance be positive: C58_rounded_mean_refuted, C58_rounded_variance_refuted."
  },
  {
   "property": "C59",
   "status": "proved",
   "theorems": [
    "C59_half_even",
    "C59_float",
    "C59_exact",
    "C59_integers",
    "C59_monotone",
    "C59_odd",
    "C59_error",
    "C59_sqrt",
    "C59_square",
    "C59_square_refuted"
   ],
   "note": "Exponent limits, NaN and infinities are not modelled. x ** 2 is rounded at 31 and then 28 digits, so it is not always the nearest number: C59_square_refuted."
  },
  {
   "property": "C60",
   "status": "proved",
   "theorems": [
    "C60_unique",
    "C60_resolves",
    "C60_summarize",
    "C60_first_access_refuted",
    "C60_siblings",
    "C60_unknown",
    "C60_imports",
    "C60_import_compute",
    "C60_dir",
    "C60_dir_complete"
   ],
   "note": "Import machine (sys.modules, partially initialised modules, parent packages, removal on failure) run on the module-level statements of all 24 modules. An import that succeeds from nothing is proved to succeed from every state in which the loaded modules are finished; the 23 imports from nothing are executed in the kernel; histories by induction. C60_first_access_refuted: segeval.summarize as the first access raises ImportError because of the cycle segeval.compute -> segeval.util -> segeval.compute."
  },
  {
   "property": "C61",
   "status": "proved",
   "theorems": [
    "C61_value_exact",
    "C61_accuracy"
   ],
   "note": ""
  },
  {
   "property": "C62",
   "status": "proved",
   "theorems": [
    "C62_context",
    "C62_parts",
    "C62_B",
    "C62_S"
   ],
   "note": "Types in -5..256. C62_parts, C62_B and C62_S ask that the context adds no type outside the range of those used, because the default substitution weight divides by that range."
  },
  {
   "property": "C63",
   "status": "proved",
   "theorems": [
    "C63_edits",
    "C63_default_weights",
    "C63_plain_weights",
    "C63_any_renaming_refuted"
   ],
   "note": "Types in -5..256. C63_any_renaming_refuted shows that distances matter with the default weights."
  },
  {
   "property": "C64",
   "status": "proved",
   "theorems": [
    "C64_pk",
    "C64_window_diff",
    "C64_lamprier",
    "C64_default_window",
    "C64_masses",
    "C64_edits_short",
    "C64_edits_one_type",
    "C64_longer_spans_refuted",
    "C64_several_types_refuted"
   ],
   "note": "B and S: one boundary type (all mass formats) and n_t <= 2, or any types and n_t <= 1; C64_longer_spans_refuted and C64_several_types_refuted are computed counterexamples beyond that."
  },
  {
   "property": "C65",
   "status": "proved",
   "theorems": [
    "C65_edits",
    "C65_cells",
    "C65_transposed",
    "C65_metrics",
    "C65_counts",
    "C65_precision_symmetric_refuted"
   ],
   "note": "Types in -5..256. C65_metrics and C65_transposed in exact arithmetic; C65_counts for any sane arithmetic without near misses. C65_precision_symmetric_refuted: precision alone is not symmetric."
  },
  {
   "property": "C66",
   "status": "proved",
   "theorems": [
    "C66_classes",
    "C66_range",
    "C66_values",
    "C66_one_type",
    "C66_false_positives_refuted",
    "C66_closer_is_better_refuted"
   ],
   "note": "C66_range for 28-digit Decimals; the formulas in exact arithmetic. F of a class is bounded by 1 + 6e-27. C66_false_positives_refuted and C66_closer_is_better_refuted are computed on the library's default weights."
  },
  {
   "property": "C67",
   "status": "proved",
   "theorems": [
    "C67_rows",
    "C67_every_text",
    "C67_newlines",
    "C67_file",
    "C67_positions",
    "C67_limit",
    "C67_too_long",
    "C67_every_line_counts_refuted"
   ],
   "note": "csv.reader is modelled as the state machine of CPython's _csv.c with the dialect the loaders select. Fields longer than csv.field_size_limit() raise csv.Error (modelled; outside C67_rows). C67_every_line_counts_refuted: an unclosed quote swallows the following lines without an error."
  },
  {
   "property": "C68",
   "status": "proved",
   "theorems": [
    "C68_loads",
    "C68_unique",
    "C68_others",
    "C68_dumps",
    "C68_canonical",
    "C68_prefix"
   ],
   "note": "float.__repr__ is a parameter assumed right on the floats of the value (floats_ok). NaN, Infinity and escapes above U+00FF are left open (Unknown). Overflow to inf, -0.0, the limit on digits of an int and the recursion limit are not modelled."
  },
  {
   "property": "C69",
   "status": "proved",
   "theorems": [
    "C69_accepts",
    "C69_codings",
    "C69_rejects",
    "C69_every_coding_loaded_refuted",
    "C69_round_trip",
    "C69_canonical",
    "C69_faithful",
    "C69_truncated"
   ],
   "note": "As C68. C69_every_coding_loaded_refuted: of two entries with the same name the first is dropped without an error."
  },
  {
   "property": "C70",
   "status": "proved",
   "theorems": [
    "C70_pk_triangle",
    "C70_wd_triangle",
    "C70_pk_triangle_exact",
    "C70_wd_triangle_exact",
    "C70_decimal_triangle_refuted",
    "C70_pk_zero",
    "C70_wd_zero",
    "C70_lamprier_zero",
    "C70_blind"
   ],
   "note": "C70_decimal_triangle_refuted: 2/3 is rounded up, 1/3 + 1/3 is not. WindowDiff compares counts with 'is', hence k <= 255. C70_blind is the negative part: equality of indiscernibles fails for every window 2 <= k < n."
  },
  {
   "property": "C71",
   "status": "proved",
   "theorems": [
    "C71_pk_change",
    "C71_wd_change",
    "C71_one_gap",
    "C71_one_gap_lamprier",
    "C71_moved",
    "C71_lamprier_bound",
    "C71_lamprier_attained"
   ],
   "note": "Counts as returned with return_parts. same_but allows D to list gaps that do not change."
  },
  {
   "property": "C72",
   "status": "proved",
   "theorems": [
    "C72_B_value",
    "C72_S_value",
    "C72_B_triangle",
    "C72_S_triangle",
    "C72_B_triangle_default_refuted",
    "C72_S_triangle_default_refuted"
   ],
   "note": "Exact arithmetic; rounding errors are bounded in C61. C72_B_triangle_default_refuted and C72_S_triangle_default_refuted show that the default n_t = 2 breaks the triangle inequality."
  },
  {
   "property": "C73",
   "status": "proved",
   "theorems": [
    "C73_programs",
    "C73_independent",
    "C73_row",
    "C73_get",
    "C73_set",
    "C73_classes",
    "C73_snapshot",
    "C73_recover",
    "C73_delete_row",
    "C73_delete_cell",
    "C73_orphan",
    "C73_alias_refuted",
    "C73_delete_refuted"
   ],
   "note": "Objects are numbered; set 0 is the class attribute. C73_alias_refuted and C73_delete_refuted are the two statements that fail. Deletion is that of dict, which the classes inherit; other inherited methods (pop, update, clear) are not modelled."
  },
  {
   "property": "C74",
   "status": "proved",
   "theorems": [
    "C74_greedy",
    "C74_unique",
    "C74_order",
    "C74_nothing_overlooked"
   ],
   "note": "A greedy set is defined without reference to the loop: a swap is taken unless an earlier taken one settles it. C74_unique shows that this determines the set."
  },
  {
   "property": "C75",
   "status": "proved",
   "theorems": [
    "C75_missing_edit",
    "C75_near_edit",
    "C75_far_edit",
    "C75_type_edit",
    "C75_missing",
    "C75_near",
    "C75_far",
    "C75_type",
    "C75_ranking"
   ],
   "note": "Exact arithmetic and the default weights. S divides by gaps * types * types because the code multiplies by the number of types twice."
  },
  {
   "property": "C76",
   "status": "proved",
   "theorems": [
    "C76_values",
    "C76_two_coders",
    "C76_kappa_pi",
    "C76_one_item",
    "C76_several_items_refuted"
   ],
   "note": "Exact arithmetic. The chance agreements are defined from the codings alone (portion, pooled_portion), not from the lists that the code collects. kappa >= pi is refuted for several items."
  },
  {
   "property": "C77",
   "status": "proved",
   "theorems": [
    "C77_repeated_items",
    "C77_unequal_refuted"
   ],
   "note": "Exact arithmetic. C77_unequal_refuted shows that all items have to be repeated equally often."
  },
  {
   "property": "C78",
   "status": "proved",
   "theorems": [
    "C78_value_exact",
    "C78_accuracy"
   ],
   "note": "The cost of the edits is edit_cost of C61; that the square of the number of types is used follows the code (pbs already contains one factor)."
  },
  {
   "property": "C79",
   "status": "proved",
   "theorems": [
    "C79_actual",
    "C79_pi",
    "C79_kappa",
    "C79_bias",
    "C79_chance",
    "C79_returns"
   ],
   "note": "Assumes that the lengths allow the workload to be held in 28 digits; C79_returns assumes a workload of at most 10^8."
  },
  {
   "property": "C80",
   "status": "proved",
   "theorems": [
    "C80_write",
    "C80_read",
    "C80_round_trip",
    "C80_interrupted",
    "C80_failure_keeps_files_refuted"
   ],
   "note": "Files.v models a tree of files without links and permissions; that a failed write keeps the old file is refuted."
  },
  {
   "property": "C81",
   "status": "proved",
   "theorems": [
    "C81_json",
    "C81_json_succeeds",
    "C81_json_fails",
    "C81_tsv",
    "C81_tsv_succeeds",
    "C81_no_folder",
    "C81_round_trip"
   ],
   "note": "For JSON it is assumed that no file with its extension contains NaN, Infinity or an escape above U+00FF (json_readable)."
  },
  {
   "property": "C82",
   "status": "proved",
   "theorems": [
    "C82_edits",
    "C82_count",
    "C82_values",
    "C82_chain",
    "C82_precision",
    "C82_masses",
    "C82_baselines",
    "C82_pk",
    "C82_window_diff",
    "C82_lamprier",
    "C82_pk_chain",
    "C82_window_diff_chain",
    "C82_pk_baselines",
    "C82_window_diff_baselines",
    "C82_windows_unique"
   ],
   "note": "B, S, precision and recall in exact arithmetic; window metrics as counts, with or without the Lamprier correction."
  },
  {
   "property": "C83",
   "status": "proved",
   "theorems": [
    "C83_pk",
    "C83_window_diff",
    "C83_window_diff_flag",
    "C83_boundary_similarity",
    "C83_segmentation_similarity",
    "C83_confusion_matrix",
    "C83_statistics",
    "C83_named_pair",
    "C83_named_dataset",
    "C83_named_nothing",
    "C83_unknown_pair",
    "C83_unknown_dataset",
    "C83_unknown_raises_refuted",
    "C83_second_dataset",
    "C83_formats_refuted",
    "C83_window_size",
    "C83_window_size_unknown",
    "C83_agreement",
    "C83_agreement_unknown"
   ],
   "note": "Two refuted claims are kept: that a misspelt keyword always raises, and that datasets of different formats are always refused."
  },
  {
   "property": "C84",
   "status": "proved",
   "theorems": [
    "C84_edits",
    "C84_S",
    "C84_B",
    "C84_window_diff",
    "C84_pk"
   ],
   "note": "WindowDiff and Pk for a given window size: the default one depends on the number of segments."
  },
  {
   "property": "C85",
   "status": "proved",
   "theorems": [
    "C85_B",
    "C85_S",
    "C85_several_types_refuted"
   ],
   "note": "The claim for several types is kept as a refuted theorem."
  },
  {
   "property": "C86",
   "status": "proved",
   "theorems": [
    "C86_query",
    "C86_looked",
    "C86_queries",
    "C86_queries_run",
    "C86_micro",
    "C86_dict",
    "C86_dict_shared",
    "C86_dict_macro_refuted"
   ],
   "note": "The claim for macro averages of a shared matrix is kept as a refuted theorem."
  },
  {
   "property": "C87",
   "status": "proved",
   "theorems": [
    "C87_reloaded",
    "C87_both_orders",
    "C87_across",
    "C87_one_order",
    "C87_similarity",
    "C87_window",
    "C87_summary",
    "C87_agreement",
    "C87_names_refuted",
    "C87_pk_mean_refuted"
   ],
   "note": "The claims that the names of pairs and the mean of Pk with its own window survive are kept as refuted theorems."
  },
  {
   "property": "C88",
   "status": "proved",
   "theorems": [
    "C88_edits",
    "C88_B",
    "C88_S",
    "C88_apart_refuted",
    "C88_B_refuted"
   ],
   "note": "The claims without an agreed stretch between the parts are kept as refuted theorems."
  },
  {
   "property": "C89",
   "status": "proved",
   "theorems": [
    "C89_B",
    "C89_S",
    "C89_edits",
    "C89_adjacent_refuted"
   ],
   "note": "The claim without agreed stretches beside the corrected one is kept as a refuted theorem."
  },
  {
   "property": "C90",
   "status": "proved",
   "theorems": [
    "C90_pk",
    "C90_window_diff",
    "C90_similarity",
    "C90_longer_refuted"
   ],
   "note": "The claim about B for longer transpositions is kept as a refuted theorem."
  },
  {
   "property": "C91",
   "status": "proved",
   "theorems": [
    "C91_associative",
    "C91_commutative_refuted",
    "C91_either_order",
    "C91_outcome",
    "C91_content",
    "C91_pairwise",
    "C91_formats_refuted",
    "C91_agreement",
    "C91_corrected_refuted"
   ],
   "note": "Commutativity, respect for the format of b and the claim for pi and kappa are kept as refuted theorems."
  },
  {
   "property": "C92",
   "status": "proved",
   "theorems": [
    "C92_errors",
    "C92_cells",
    "C92_precision",
    "C92_recall",
    "C92_fmeasure",
    "C92_micro",
    "C92_macro_refuted"
   ],
   "note": "In exact arithmetic (errors in any). The claim for the macro-average is kept as a refuted theorem."
  },
  {
   "property": "C93",
   "status": "proved",
   "theorems": [
    "C93_size",
    "C93_versions",
    "C93_metrics",
    "C93_versions_agree_refuted"
   ],
   "note": "In Python's arithmetic, up to a mass sum of 10^13. The claim that values do not depend on the version is kept as a refuted theorem."
  },
  {
   "property": "C94",
   "status": "proved",
   "theorems": [
    "C94_state",
    "C94_one_dataset",
    "C94_two_datasets",
    "C94_values",
    "C94_empty",
    "C94_agreement",
    "C94_chance",
    "C94_add",
    "C94_reading_is_harmless_refuted"
   ],
   "note": "In any arithmetic. That reading an item leaves agreement alone is kept as a refuted theorem."
  },
  {
   "property": "C95",
   "status": "proved",
   "theorems": [
    "C95_layout",
    "C95_balanced",
    "C95_sorted"
   ],
   "note": "About the model of json.dumps in JsonText.v (CPython's Lib/json/encoder.py); found missing by a random edit of the indentation."
  },
  {
   "property": "C96",
   "status": "proved",
   "theorems": [
    "C96_needed",
    "C96_missing",
    "C96_sum",
    "C96_count_suffices_refuted"
   ],
   "note": "That the check on the number of codings keeps KeyError out is refuted (C96_count_suffices_refuted)."
  },
  {
   "property": "C97",
   "status": "proved",
   "theorems": [
    "C97_between_B",
    "C97_between_S",
    "C97_common",
    "C97_mean_refuted"
   ],
   "note": "In exact arithmetic; C79 bounds what rounding does to the agreement. That it is the mean of the values is refuted (C97_mean_refuted)."
  },
  {
   "property": "C98",
   "status": "proved",
   "theorems": [
    "C98_values",
    "C98_summary",
    "C98_similarity",
    "C98_stderr_refuted"
   ],
   "note": "The symmetry of Pk and WindowDiff with a given window is C38. That permuted leaves the standard error alone is refuted (C98_stderr_refuted)."
  },
  {
   "property": "C99",
   "status": "proved",
   "theorems": [
    "C99_weighted",
    "C99_mean",
    "C99_lengths_refuted",
    "C99_B_refuted"
   ],
   "note": "The plain mean needs equally long texts (C99_lengths_refuted); for B it fails even then (C99_B_refuted)."
  },
  {
   "property": "C100",
   "status": "proved",
   "theorems": [
    "C100_pairs",
    "C100_left_out",
    "C100_kappa_refuted"
   ],
   "note": "Some two coders' kappa being at least that of all is refuted (C100_kappa_refuted)."
  },
  {
   "property": "C101",
   "status": "proved",
   "theorems": [
    "C101_actual",
    "C101_coefficients",
    "C101_order_refuted"
   ],
   "note": "That S and B order datasets alike is refuted (C101_order_refuted)."
  },
  {
   "property": "C102",
   "status": "proved",
   "theorems": [
    "C102_parts",
    "C102_agreed",
    "C102_pi_refuted"
   ],
   "note": "That pi does not fall when agreed items are added is refuted (C102_pi_refuted)."
  },
  {
   "property": "C103",
   "status": "proved",
   "theorems": [
    "C103_below"
   ],
   "note": "Without rounding."
  },
  {
   "property": "C104",
   "status": "proved",
   "theorems": [
    "C104_keys",
    "C104_pk_wd",
    "C104_B_S"
   ],
   "note": "Pk and WindowDiff for a given window size up to 255 below the length of the texts."
  },
  {
   "property": "C105",
   "status": "proved",
   "theorems": [
    "C105_bias"
   ],
   "note": "One item and one boundary type, exact arithmetic (as C48)."
  },
  {
   "property": "C106",
   "status": "proved",
   "theorems": [
    "C106_pk",
    "C106_window_diff",
    "C106_B",
    "C106_S"
   ],
   "note": "Exact arithmetic. B and S with the default weights, when a boundary occurs in any two compared codings."
  },
  {
   "property": "C107",
   "status": "proved",
   "theorems": [
    "C107_joined"
   ],
   "note": "Not permuted; names of coders without commas (as C42); exact arithmetic for the summary."
  }
 ]
}