{
 "claims": [
  {
   "property": "C01",
   "status": "proved",
   "theorems": [
    "C01_clusters_well_formed",
    "C01_construct_validation"
   ],
   "note": ""
  },
  {
   "property": "C02",
   "status": "proved",
   "theorems": [
    "C02_next_progress",
    "C02_next_stops_only_when_all_clustered",
    "C02_duplicate_x_refuted"
   ],
   "note": "The _refuted theorem shows only that strictly increasing x is needed."
  },
  {
   "property": "C03",
   "status": "proved",
   "theorems": [
    "C03_makeclusters_terminates_and_covers"
   ],
   "note": ""
  },
  {
   "property": "C04",
   "status": "proved",
   "theorems": [
    "C04_resolution_rule"
   ],
   "note": ""
  },
  {
   "property": "C05",
   "status": "proved",
   "theorems": [
    "C05_find_nearest_cluster_correct"
   ],
   "note": ""
  },
  {
   "property": "C06",
   "status": "partial",
   "theorems": [
    "C06_right_of_data_raises_refuted",
    "C06_left_of_data_wraps_refuted",
    "C06_refuted"
   ],
   "note": "The coordinate query violates the property: IndexError right of the data, wrap-around to the last point left of it, and the right neighbour is used even when the left one is nearer. C103 proves what it returns."
  },
  {
   "property": "C07",
   "status": "proved",
   "theorems": [
    "C07_find_adjacent_exact"
   ],
   "note": "Exact for every cluster list; see C71 for the violated expectation."
  },
  {
   "property": "C08",
   "status": "proved",
   "theorems": [
    "C08_combine_adjacent",
    "C08_combine_accepted_sound",
    "C08_duplicates_rejected"
   ],
   "note": "All clauses proved; see C72."
  },
  {
   "property": "C09",
   "status": "proved",
   "theorems": [
    "C09_reset_restarts_same_run"
   ],
   "note": ""
  },
  {
   "property": "C10",
   "status": "proved",
   "theorems": [
    "C10_zero_resolution_singletons"
   ],
   "note": ""
  },
  {
   "property": "C11",
   "status": "proved",
   "theorems": [
    "C11_cut_exact",
    "C11_cluster_is_full_exact"
   ],
   "note": ""
  },
  {
   "property": "C12",
   "status": "proved",
   "theorems": [
    "C12_unpack_after_pack",
    "C12_pack_after_unpack",
    "C12_nan_rejected",
    "C12_long_vector_prefix_used",
    "C12_short_vector"
   ],
   "note": "All clauses proved for every heap reachable through the API; see C73."
  },
  {
   "property": "C13",
   "status": "proved",
   "theorems": [
    "C13_pack_keeps_fixed",
    "C13_fit_keeps_fixed_up_to_normal_form"
   ],
   "note": "Proved for every write-back and every optimiser; see C74."
  },
  {
   "property": "C14",
   "status": "proved",
   "theorems": [
    "C14_cluster_npars",
    "C14_npars_counts"
   ],
   "note": ""
  },
  {
   "property": "C15",
   "status": "proved",
   "theorems": [
    "C15_copy_equal_and_independent",
    "C15_copy_compares_equal"
   ],
   "note": ""
  },
  {
   "property": "C16",
   "status": "proved",
   "theorems": [
    "C16_changeowner_exact",
    "C16_only_owner_evaluates"
   ],
   "note": ""
  },
  {
   "property": "C17",
   "status": "proved",
   "theorems": [
    "C17_value_is_sum_of_parts"
   ],
   "note": ""
  },
  {
   "property": "C18",
   "status": "proved",
   "theorems": [
    "C18_too_many_parameters",
    "C18_no_free_parameters",
    "C18_empty_model_raises",
    "C18_fit_outcome"
   ],
   "note": "Full case analysis for every optimiser behaviour; the empty model raises ValueError; see C75."
  },
  {
   "property": "C19",
   "status": "proved",
   "theorems": [
    "C19_safe_list",
    "C19_references_survive_save_and_load",
    "C19_cycle_never_finishes"
   ],
   "note": ""
  },
  {
   "property": "C20",
   "status": "partial",
   "theorems": [
    "C20_off_by_one_refuted"
   ],
   "note": "Refuted: the bound test is idx > len, so the first missing index raises IndexError and negative indices wrap. C104 proves the exact behaviour for every index."
  },
  {
   "property": "C21",
   "status": "proved",
   "theorems": [
    "C21_function_constructor_exact",
    "C21_format_names",
    "C21_part_constructor_exact"
   ],
   "note": ""
  },
  {
   "property": "C22",
   "status": "proved",
   "theorems": [
    "C22_normal_form"
   ],
   "note": ""
  },
  {
   "property": "C23",
   "status": "proved",
   "theorems": [
    "C23_round_trip",
    "C23_fwhm_sigma",
    "C23_too_wide_rejected"
   ],
   "note": "Round trips between all three formats, rejection above maxwidth; see C76 for negative widths."
  },
  {
   "property": "C24",
   "status": "proved",
   "theorems": [
    "C24_gaussianoverr_jacobian",
    "C24_zero_area"
   ],
   "note": ""
  },
  {
   "property": "C25",
   "status": "partial",
   "theorems": [
    "C25_formulas_partial",
    "C25_gaussian_jacobian_refuted"
   ],
   "note": "Violated by the code: every call raises AttributeError (refuted for all inputs). The formulas after the failing line are proved to be the derivatives (partial)."
  },
  {
   "property": "C26",
   "status": "proved",
   "theorems": [
    "C26_gradient_matrix"
   ],
   "note": "Exact at every interior point; see C77."
  },
  {
   "property": "C27",
   "status": "proved",
   "theorems": [
    "C27_gaussianoverr_scale_at",
    "C27_outcomes",
    "C27_peak_all_or_nothing",
    "C27_gaussian_scale_at"
   ],
   "note": "Value, height, stationary point and complete case analysis of outcomes; see C78."
  },
  {
   "property": "C28",
   "status": "proved",
   "theorems": [
    "C28_gaussianoverr_max",
    "C28_gaussianoverr_no_max",
    "C28_gaussian_max"
   ],
   "note": "Exact for positive positions; see C79."
  },
  {
   "property": "C29",
   "status": "proved",
   "theorems": [
    "C29_area_is_the_integral",
    "C29_area_of_any_peak",
    "C29_width_and_area_meaning",
    "C29_width_bounded",
    "C29_over_r"
   ],
   "note": ""
  },
  {
   "property": "C30",
   "status": "proved",
   "theorems": [
    "C30_value",
    "C30_zero_polynomial"
   ],
   "note": "Exact for every degree and input, including trailing zeros; the Jacobian is C80."
  },
  {
   "property": "C31",
   "status": "proved",
   "theorems": [
    "C31_value",
    "C31_continuous",
    "C31_scalar_array_agree",
    "C31_jacobian_radius"
   ],
   "note": "Value, support, continuity, scalar/array agreement, radius derivative; see C81."
  },
  {
   "property": "C32",
   "status": "partial",
   "theorems": [
    "C32_npars_refuted",
    "C32_no_jacobian_refuted"
   ],
   "note": "Refuted: requesting n parameters gives n+1; without a Jacobian function the Jacobian call always raises AttributeError."
  },
  {
   "property": "C33",
   "status": "proved",
   "theorems": [
    "C33_operators_agree_with_order",
    "C33_total_preorder",
    "C33_lower_is_better",
    "C33_refuses_incomparable"
   ],
   "note": ""
  },
  {
   "property": "C34",
   "status": "proved",
   "theorems": [
    "C34_criterion_values",
    "C34_penalty_monotone"
   ],
   "note": "Exact for a fresh evaluator; see C82."
  },
  {
   "property": "C35",
   "status": "proved",
   "theorems": [
    "C35_growth_justified_exact"
   ],
   "note": ""
  },
  {
   "property": "C36",
   "status": "proved",
   "theorems": [
    "C36_weights",
    "C36_probabilities",
    "C36_empty_raises"
   ],
   "note": ""
  },
  {
   "property": "C37",
   "status": "proved",
   "theorems": [
    "C37_fit_never_worse",
    "C37_kept_model"
   ],
   "note": "Proved for every optimiser, estimator and statistic; see C83 for objects shared between clusters."
  },
  {
   "property": "C38",
   "status": "proved",
   "theorems": [
    "C38_replace",
    "C38_replace_any_slice",
    "C38_deletepeak"
   ],
   "note": "Proved for every slice; see C84 for deletepeak(-1)."
  },
  {
   "property": "C39",
   "status": "proved",
   "theorems": [
    "C39_never_fit"
   ],
   "note": ""
  },
  {
   "property": "C40",
   "status": "proved",
   "theorems": [
    "C40_cleanfit_exact",
    "C40_empty_cluster"
   ],
   "note": ""
  },
  {
   "property": "C41",
   "status": "proved",
   "theorems": [
    "C41_join_peaks",
    "C41_join_adjacent",
    "C41_rejects"
   ],
   "note": "Proved exactly; see C85."
  },
  {
   "property": "C42",
   "status": "proved",
   "theorems": [
    "C42_terminates_removing_only_removable",
    "C42_normal_return"
   ],
   "note": "Proved for every optimiser; see C86."
  },
  {
   "property": "C43",
   "status": "proved",
   "theorems": [
    "C43_reduce_to_all_or_nothing",
    "C43_false_unchanged",
    "C43_all_scalable",
    "C43_true_effect",
    "C43_second_attempt_two_peaks",
    "C43_gaussianoverr"
   ],
   "note": "Unchanged-on-False for arbitrary scale_at behaviour; exact match when every peak accepts the factor, also instantiated with GaussianOverR; see C87."
  },
  {
   "property": "C44",
   "status": "proved",
   "theorems": [
    "C44_rejects_wrong_shapes",
    "C44_expansion",
    "C44_complete_matrix_kept",
    "C44_stays_a_covariance",
    "C44_lookups",
    "C44_reuse_refuted",
    "C44_correlations",
    "C44_correlationwarning"
   ],
   "note": "Exact expansion, look-ups by number and by pair, validity of the matrix, correlations and warnings, for every model and matrix. C44_reuse_refuted records that an object used twice without clear() keeps the stale names of the first model (outside the statement, which is about new or cleared objects). NaN and negative variances are not modelled (real arithmetic, valid covariance)."
  },
  {
   "property": "C45",
   "status": "proved",
   "theorems": [
    "C45_contingent",
    "C45_no_refit_without_growth",
    "C45_last_fit_size"
   ],
   "note": ""
  },
  {
   "property": "C46",
   "status": "proved",
   "theorems": [
    "C46_exactly_the_points_in_range"
   ],
   "note": "Proved for every nonempty sorted grid whose span meets the range; see C88."
  },
  {
   "property": "C47",
   "status": "proved",
   "theorems": [
    "C47_known_names_are_stored",
    "C47_unknown_name_is_rejected",
    "C47_clear",
    "C47_pdf_checks_are_atomic",
    "C47_pdf_aliases"
   ],
   "note": "Both classes. An unknown name raises ValueError after the keywords preceding it were stored (no defaults are set then); the PDF checks (dg with effective_dy, automatic qmax, supersample < 1) happen before anything changes."
  },
  {
   "property": "C48",
   "status": "proved",
   "theorems": [
    "C48_explicit_settings_survive",
    "C48_documented_defaults",
    "C48_idempotent",
    "C48_succeeds",
    "C48_pdf_explicit_settings_survive",
    "C48_pdf_documented_defaults",
    "C48_pdf_idempotent",
    "C48_pdf_succeeds",
    "C48_pdf_text_qmax",
    "C48_range_outside_data_refuted"
   ],
   "note": "Proved for both classes, for every subset of settings and every name list. The extra _refuted theorem records that a baseline function combined with a range outside the data makes defaultvars raise IndexError."
  },
  {
   "property": "C49",
   "status": "proved",
   "theorems": [
    "C49_models_match_clusters",
    "C49_assertions_never_fail",
    "C49_one_model_covers_everything",
    "C49_extracted_spans_the_data"
   ],
   "note": "For all fit outcomes (the optimiser, statistic and estimator are parameters); exceptions escaping from a fit end the extraction."
  },
  {
   "property": "C50",
   "status": "proved",
   "theorems": [
    "C50_at_most_three_levels"
   ],
   "note": "Nested calls are counted by the fuel of the model; two levels are shown not to suffice."
  },
  {
   "property": "C51",
   "status": "proved",
   "theorems": [
    "C51_formula",
    "C51_original_points",
    "C51_identity",
    "C51_errors",
    "C51_nonuniform_refuted",
    "C51_resampledata",
    "C51_empty_range"
   ],
   "note": "Proved for uniform grids (what PDFs have); on other grids the values are not kept (C51_nonuniform_refuted). resampledata: grid, lengths and range; uncertainties never below the smallest given one."
  },
  {
   "property": "C52",
   "status": "proved",
   "theorems": [
    "C52_error_scale"
   ],
   "note": ""
  },
  {
   "property": "C53",
   "status": "proved",
   "theorems": [
    "C53_stdratio"
   ],
   "note": ""
  },
  {
   "property": "C54",
   "status": "partial",
   "theorems": [
    "C54_estimation_cycle_refuted"
   ],
   "note": "Refuted: the loop can run forever, as fit() re-estimates a peak that prune() removed. C106 proves termination for baselines with few free parameters."
  },
  {
   "property": "C55",
   "status": "proved",
   "theorems": [
    "C55_success",
    "C55_outcome"
   ],
   "note": "Success, outcome and all-or-nothing proved; see C89."
  },
  {
   "property": "C56",
   "status": "proved",
   "theorems": [
    "C56_independent",
    "C56_copy"
   ],
   "note": "Proved for every history of API calls; see C90."
  },
  {
   "property": "C57",
   "status": "proved",
   "theorems": [
    "C57_classes_partition_the_models",
    "C57_displaced_peaks_refuted"
   ],
   "note": "Proved for every model set, grid and tolerance. Finding: what is compared is the total squared value of each component, so models with displaced peaks share a class even at tolerance 0 (C57_displaced_peaks_refuted)."
  },
  {
   "property": "C58",
   "status": "proved",
   "theorems": [
    "C58_preparation_succeeds",
    "C58_get_class",
    "C58_get_model_any",
    "C58_get_model_in_class",
    "C58_accessors_describe_the_model",
    "C58_unknown_uncertainty",
    "C58_best_sets",
    "C58_most_favourable_uncertainty",
    "C58_stale_classes_refuted"
   ],
   "note": "Proved for every prepared object (makeaics then classify), any argsort that sorts. Finding: classes are not invalidated by a second makeaics (C58_stale_classes_refuted)."
  },
  {
   "property": "C59",
   "status": "proved",
   "theorems": [
    "C59_nearest_key"
   ],
   "note": ""
  },
  {
   "property": "C60",
   "status": "proved",
   "theorems": [
    "C60_rescaled_equals_direct",
    "C60_repeated_uncertainty_refuted"
   ],
   "note": "Proved for distinct nonzero uncertainties, for AIC and AICc. Finding: a repeated uncertainty enters every model twice (C60_repeated_uncertainty_refuted)."
  },
  {
   "property": "C61",
   "status": "partial",
   "theorems": [
    "C61_argument_ignored_refuted"
   ],
   "note": "Refuted: the argument is ignored. C107 proves the default case."
  },
  {
   "property": "C62",
   "status": "partial",
   "theorems": [
    "C62_documented_key_refuted"
   ],
   "note": "Refuted: the documented key dG is a KeyError and dg takes no keywords. C108 proves the served keys."
  },
  {
   "property": "C63",
   "status": "proved",
   "theorems": [
    "C63_inside",
    "C63_balanced",
    "C63_outermost",
    "C63_consecutive",
    "C63_levels"
   ],
   "note": "Proved for every balanced history; see C91."
  },
  {
   "property": "C64",
   "status": "partial",
   "theorems": [
    "C64_readstr_refuted",
    "C64_read_refuted"
   ],
   "note": "Refuted: readstr returns the reading tracer's own counters; read() always raises TypeError (bytes). C109 proves that the other fields round-trip."
  },
  {
   "property": "C65",
   "status": "proved",
   "theorems": [
    "C65_setcurrent",
    "C65_none",
    "C65_run",
    "C65_independent_runs"
   ],
   "note": "setcurrent and run proved; extraction is an oracle that builds new objects; see C92."
  },
  {
   "property": "C66",
   "status": "proved",
   "theorems": [
    "C66_terminates_with_own_and_source_peaks",
    "C66_return_or_valueerror",
    "C66_normal_return"
   ],
   "note": "Proved for every optimiser; see C93."
  },
  {
   "property": "C67",
   "status": "proved",
   "theorems": [
    "C67_setvar",
    "C67_getvar"
   ],
   "note": ""
  },
  {
   "property": "C68",
   "status": "proved",
   "theorems": [
    "C68_trace",
    "C68_snapshot_one"
   ],
   "note": "Content for all lists of clusters, snapshot for one cluster; see C94."
  },
  {
   "property": "C69",
   "status": "proved",
   "theorems": [
    "C69_protected_initial_peaks_survive"
   ],
   "note": ""
  },
  {
   "property": "C70",
   "status": "proved",
   "theorems": [
    "C70_transform_propagates",
    "C70_transform_needs_covariance",
    "C70_gaussianoverr_propagation"
   ],
   "note": "For any functions with symmetric gradients and, with the true derivatives of C26, for every model of GaussianOverR peaks and baselines; see C95."
  },
  {
   "property": "C71",
   "status": "partial",
   "theorems": [
    "C71_ragged_runs_refuted"
   ],
   "note": "Violated by the code (witness theorem). Runs of different lengths are passed to np.array, which raises ValueError (numpy >= 1.24). C07 states exactly when."
  },
  {
   "property": "C72",
   "status": "partial",
   "theorems": [
    "C72_rejected_combine_not_atomic_refuted",
    "C72_decreasing_accepted_refuted"
   ],
   "note": "Violated by the code (witness theorem). A rejected request may already have merged clusters; a decreasing pair is accepted."
  },
  {
   "property": "C73",
   "status": "partial",
   "theorems": [
    "C73_short_vector_broadcast_refuted"
   ],
   "note": "Violated by the code (witness theorem). numpy broadcasts a single left-over value to all free parameters of the last part. C12_short_vector shows this is the only exception."
  },
  {
   "property": "C74",
   "status": "partial",
   "theorems": [
    "C74_fit_rewrites_fixed_refuted"
   ],
   "note": "Violated by the code (witness theorem). The final conversion to normal form rewrites fixed parameters not in normal form. C13 states exactly what is kept."
  },
  {
   "property": "C75",
   "status": "partial",
   "theorems": [
    "C75_other_exceptions_refuted"
   ],
   "note": "Violated by the code (witness theorem). C18_fit_outcome lists all other exceptions."
  },
  {
   "property": "C76",
   "status": "partial",
   "theorems": [
    "C76_negative_width_refuted"
   ],
   "note": "Violated by the code (witness theorem). The square of the width is used: absolute value, or NaN below -maxwidth."
  },
  {
   "property": "C77",
   "status": "partial",
   "theorems": [
    "C77_negative_area_refuted"
   ],
   "note": "Violated by the code (witness theorem). The area entry is +1 where the derivative is -1."
  },
  {
   "property": "C78",
   "status": "partial",
   "theorems": [
    "C78_nan_parameters_refuted",
    "C78_maximum_moves_refuted",
    "C78_gaussian_at_maximum_refuted"
   ],
   "note": "Violated by the code (witness theorem). NaN parameters are returned with success; the maximum moves when the new sigma exceeds it; a Gaussian scaled at its own position is wiped out. C27 lists all outcomes."
  },
  {
   "property": "C79",
   "status": "partial",
   "theorems": [
    "C79_negative_position_refuted"
   ],
   "note": "Violated by the code (witness theorem). The point returned is a local minimum."
  },
  {
   "property": "C80",
   "status": "partial",
   "theorems": [
    "C80_jacobian_exact_partial",
    "C80_jacobian_refuted"
   ],
   "note": "Violated by the code (witness theorem). Parameter idx multiplies r**(d-idx) but r**idx is returned: wrong for every degree >= 1; C80_jacobian_exact_partial says exactly which entries are right."
  },
  {
   "property": "C81",
   "status": "partial",
   "theorems": [
    "C81_jacobian_scale_refuted",
    "C81_normal_form_refuted"
   ],
   "note": "Refuted: the scale derivative uses the sign of the radius (wrong for every negative scale); the normal form changes the curve for every negative radius. C113 proves the cases that are right."
  },
  {
   "property": "C82",
   "status": "partial",
   "theorems": [
    "C82_reused_evaluator_refuted"
   ],
   "note": "Violated by the code (witness theorem). The evaluator keeps the chi-squared of the first fit it saw."
  },
  {
   "property": "C83",
   "status": "partial",
   "theorems": [
    "C83_shared_objects_refuted"
   ],
   "note": "Violated by the code (witness theorem). After a failed fit the cluster gets copies back while the objects held on entry stay modified; join_adjacent shares the baseline object."
  },
  {
   "property": "C84",
   "status": "partial",
   "theorems": [
    "C84_deletepeak_last_refuted"
   ],
   "note": "Violated by the code (witness theorem). deletepeak(-1) and out-of-range indices delete nothing."
  },
  {
   "property": "C85",
   "status": "partial",
   "theorems": [
    "C85_misplaced_never_removed_refuted"
   ],
   "note": "Violated by the code (witness theorem). The condition is contradictory, so such peaks are never removed."
  },
  {
   "property": "C86",
   "status": "partial",
   "theorems": [
    "C86_index_error_refuted",
    "C86_never_worse_refuted",
    "C86_protected_nan_refuted"
   ],
   "note": "Refuted: the abandoned trial values of an undone local fit are installed; IndexError once only protected peaks remain; NaN parameters remove protected peaks. C110 proves never-worse when no fit is undone."
  },
  {
   "property": "C87",
   "status": "partial",
   "theorems": [
    "C87_second_attempt_refuted",
    "C87_true_means_matched_refuted"
   ],
   "note": "Violated by the code (witness theorem). The second attempt runs for exactly two peaks only (loop over a tuple instead of zip). C43_true_effect says exactly what True means."
  },
  {
   "property": "C88",
   "status": "partial",
   "theorems": [
    "C88_range_outside_data_refuted"
   ],
   "note": "Violated by the code (witness theorem). IndexError when the range lies entirely below or above the data."
  },
  {
   "property": "C89",
   "status": "partial",
   "theorems": [
    "C89_infinity_refuted",
    "C89_failed_read_keeps_data_refuted"
   ],
   "note": "Refuted: the word Infinity passes the NaN/Inf pattern; a failed read has already erased the data. C112: finite when the pattern catches all infinities."
  },
  {
   "property": "C90",
   "status": "partial",
   "theorems": [
    "C90_spdiameter_refuted",
    "C90_self_copy_refuted",
    "C90_inplace_edit_refuted"
   ],
   "note": "Violated by the code (witness theorem). spdiameter is not copied, copying to itself erases the data, lists are shared."
  },
  {
   "property": "C91",
   "status": "partial",
   "theorems": [
    "C91_memory_refuted",
    "C91_after_exception_refuted"
   ],
   "note": "Violated by the code (witness theorem). The memory of traces is never emptied; after an exception the next operation does not restart."
  },
  {
   "property": "C92",
   "status": "partial",
   "theorems": [
    "C92_bad_index_refuted",
    "C92_refit_refuted"
   ],
   "note": "Violated by the code (witness theorem). The index is stored before it is used; the installed model is the stored object."
  },
  {
   "property": "C93",
   "status": "partial",
   "theorems": [
    "C93_protected_always_fails_refuted",
    "C93_protected_valueerror_refuted"
   ],
   "note": "Refuted: any own protected peak makes augment raise ValueError, leaving the last trial as the model. C111 proves never-worse when no fit is undone."
  },
  {
   "property": "C94",
   "status": "partial",
   "theorems": [
    "C94_snapshot_refuted"
   ],
   "note": "Violated by the code (witness theorem). Peak objects of the second and later clusters are shared with the trace."
  },
  {
   "property": "C95",
   "status": "partial",
   "theorems": [
    "C95_baseline_selection_refuted",
    "C95_nonsymmetric_gradient_refuted",
    "C95_partial_conversion_refuted",
    "C95_gaussian_refuted"
   ],
   "note": "Violated by the code (witness theorem). Gaussian has no gradient, so its parameters are converted and its covariance is not; parts=\"baseline\" always raises KeyError; a part without parameters makes transform fail half way; a non-symmetric gradient is propagated as G C^T G."
  },
  {
   "property": "C96",
   "status": "proved",
   "theorems": [
    "C96_neighbourhood_split",
    "C96_combining_keeps_distant_peaks",
    "C96_boundary_keeps_distant_peaks"
   ],
   "note": ""
  },
  {
   "property": "C97",
   "status": "proved",
   "theorems": [
    "C97_interpeak_range"
   ],
   "note": ""
  },
  {
   "property": "C98",
   "status": "proved",
   "theorems": [
    "C98_extended_grid",
    "C98_empty_grid"
   ],
   "note": ""
  },
  {
   "property": "C99",
   "status": "proved",
   "theorems": [
    "C99_length",
    "C99_linear",
    "C99_real",
    "C99_spectrum",
    "C99_band_limited_unchanged",
    "C99_idempotent"
   ],
   "note": "The spectrum statement is for power-of-two lengths; other lengths are zero-padded first (modelled), for which length, linearity and realness are proved."
  },
  {
   "property": "C100",
   "status": "proved",
   "theorems": [
    "C100_value_uniform"
   ],
   "note": ""
  },
  {
   "property": "C101",
   "status": "proved",
   "theorems": [
    "C101_jacobian_is_derivative",
    "C101_gaussianoverr"
   ],
   "note": ""
  },
  {
   "property": "C102",
   "status": "partial",
   "theorems": [
    "C102_coarse_jacobian_refuted",
    "C102_single_point_refuted"
   ],
   "note": "Refuted: on every grid coarser than 2 pi/(supersample qmax) -- e.g. every Nyquist grid, whose step is 2.5 times that with the default supersample 5 -- jacobian() does not subdivide as value() does and a base direction exists for which the Jacobian is 0 while the value is not constant; value() of a length-one array raises ValueError and jacobian() of a number raises UnboundLocalError."
  },
  {
   "property": "C103",
   "status": "proved",
   "theorems": [
    "C103_between_points"
   ],
   "note": ""
  },
  {
   "property": "C104",
   "status": "proved",
   "theorems": [
    "C104_factory_index_behaviour"
   ],
   "note": ""
  },
  {
   "property": "C105",
   "status": "proved",
   "theorems": [
    "C105_negative_rejected",
    "C105_jacobian_delegates"
   ],
   "note": ""
  },
  {
   "property": "C106",
   "status": "proved",
   "theorems": [
    "C106_terminates"
   ],
   "note": ""
  },
  {
   "property": "C107",
   "status": "proved",
   "theorems": [
    "C107_default_argument"
   ],
   "note": ""
  },
  {
   "property": "C108",
   "status": "proved",
   "theorems": [
    "C108_served_keys"
   ],
   "note": ""
  },
  {
   "property": "C109",
   "status": "partial",
   "theorems": [
    "C109_written_traces_never_read_refuted",
    "C109_readstr_partial"
   ],
   "note": "C109_readstr_partial assumes that the model's text reads back, which C109_written_traces_never_read_refuted shows is never the case with AIC or AICc as long as modelevaluators/__init__.py is empty."
  },
  {
   "property": "C110",
   "status": "proved",
   "theorems": [
    "C110_prune_never_worse"
   ],
   "note": "Hypotheses on the statistic are discharged for the shipped criteria by C33/C34's formulas; 'no fit is undone' is stated as: after each fit the list given to it holds the resulting model."
  },
  {
   "property": "C111",
   "status": "proved",
   "theorems": [
    "C111_augment_never_worse"
   ],
   "note": "Hypotheses: strict weak order of evaluators, no fit undone."
  },
  {
   "property": "C112",
   "status": "proved",
   "theorems": [
    "C112_finite"
   ],
   "note": ""
  },
  {
   "property": "C113",
   "status": "proved",
   "theorems": [
    "C113_jacobian_scale",
    "C113_normal_form"
   ],
   "note": ""
  },
  {
   "property": "C114",
   "status": "proved",
   "theorems": [
    "C114_extract_result_only_on_success",
    "C114_fit_result_only_on_success"
   ],
   "note": ""
  },
  {
   "property": "C115",
   "status": "proved",
   "theorems": [
    "C115_extraction_grid",
    "C115_extraction_data",
    "C115_fit_grid"
   ],
   "note": ""
  },
  {
   "property": "C116",
   "status": "proved",
   "theorems": [
    "C116_extracted_model"
   ],
   "note": ""
  },
  {
   "property": "C117",
   "status": "proved",
   "theorems": [
    "C117_ripples"
   ],
   "note": ""
  },
  {
   "property": "C118",
   "status": "proved",
   "theorems": [
    "C118_protected_initial_peaks_survive"
   ],
   "note": ""
  },
  {
   "property": "C119",
   "status": "proved",
   "theorems": [
    "C119_fit_model"
   ],
   "note": ""
  },
  {
   "property": "C120",
   "status": "partial",
   "theorems": [
    "C120_initial_peaks_unchanged_refuted"
   ],
   "note": "refuted: general theorem plus concrete witness (C120_witness)"
  },
  {
   "property": "C121",
   "status": "partial",
   "theorems": [
    "C121_all_peaks_have_ripples_refuted"
   ],
   "note": "refuted by a concrete run of the whole pipeline; the positive part is C117"
  },
  {
   "property": "C122",
   "status": "proved",
   "theorems": [
    "C122_function_survives_text"
   ],
   "note": "eval, repr and the constructors are parameters; non-ASCII line breaks are not modelled."
  },
  {
   "property": "C123",
   "status": "proved",
   "theorems": [
    "C123_function_list_survives_text"
   ],
   "note": ""
  },
  {
   "property": "C124",
   "status": "proved",
   "theorems": [
    "C124_part_survives_text"
   ],
   "note": ""
  },
  {
   "property": "C125",
   "status": "partial",
   "theorems": [
    "C125_equals_sign_refuted"
   ],
   "note": "Refuted: any first word with an equals sign shifts key and value."
  },
  {
   "property": "C126",
   "status": "partial",
   "theorems": [
    "C126_cluster_text_refuted",
    "C126_writestr_raises_refuted"
   ],
   "note": "Refuted for every cluster."
  },
  {
   "property": "C127",
   "status": "partial",
   "theorems": [
    "C127_extraction_text_refuted",
    "C127_stability_load_refuted"
   ],
   "note": "Refuted for every text."
  },
  {
   "property": "C128",
   "status": "partial",
   "theorems": [
    "C128_first_character_refuted"
   ],
   "note": "Refuted for every file."
  },
  {
   "property": "C129",
   "status": "proved",
   "theorems": [
    "C129_rows_read_exactly"
   ],
   "note": ""
  },
  {
   "property": "C130",
   "status": "proved",
   "theorems": [
    "C130_setdata"
   ],
   "note": ""
  },
  {
   "property": "C131",
   "status": "partial",
   "theorems": [
    "C131_rejected_data_are_kept_refuted",
    "C131_settings_of_previous_data_refuted"
   ],
   "note": "Refuted for all data and settings."
  },
  {
   "property": "C132",
   "status": "proved",
   "theorems": [
    "C132_baseline_estimation"
   ],
   "note": ""
  },
  {
   "property": "C133",
   "status": "proved",
   "theorems": [
    "C133_loadpdf"
   ],
   "note": ""
  },
  {
   "property": "C134",
   "status": "partial",
   "theorems": [
    "C134_qmax_from_data_refuted"
   ],
   "note": "Refuted for every file without qmax."
  },
  {
   "property": "C135",
   "status": "proved",
   "theorems": [
    "C135_estimation_outcomes"
   ],
   "note": ""
  },
  {
   "property": "C136",
   "status": "proved",
   "theorems": [
    "C136_estimate_matches_the_data"
   ],
   "note": ""
  },
  {
   "property": "C137",
   "status": "proved",
   "theorems": [
    "C137_exact_on_noise_free_data"
   ],
   "note": ""
  },
  {
   "property": "C138",
   "status": "proved",
   "theorems": [
    "C138_estimate_depends_on_positive_points",
    "C138_rescaled_data"
   ],
   "note": ""
  },
  {
   "property": "C139",
   "status": "partial",
   "theorems": [
    "C139_level_data_refuted"
   ],
   "note": "violated: C139_level_data_refuted shows that the estimated peak exceeds half its height at both ends of every level data set (unless maxwidth limits it)"
  },
  {
   "property": "C140",
   "status": "proved",
   "theorems": [
    "C140_polynomial_estimate",
    "C140_exact_under_signal"
   ],
   "note": ""
  },
  {
   "property": "C141",
   "status": "proved",
   "theorems": [
    "C141_out_of_range",
    "C141_one_peak_from_its_cluster",
    "C141_quiet_gives_none",
    "C141_where_the_peak_comes_from"
   ],
   "note": "Clustering, slicing, model cluster and fit are the models of C01-C11 and C37-C45; estimator, optimiser, statistic and peak/baseline values are arbitrary functions. Numbers are integers with faithful rounding. plain attributes only: defaultvars() has already run."
  },
  {
   "property": "C142",
   "status": "partial",
   "theorems": [
    "C142_far_cluster_used_refuted"
   ],
   "note": "Refuted: witness."
  },
  {
   "property": "C143",
   "status": "proved",
   "theorems": [
    "C143_added_peaks_are_taken_into_account"
   ],
   "note": "Exact arithmetic (rounding is the identity)."
  },
  {
   "property": "C144",
   "status": "proved",
   "theorems": [
    "C144_options_reach_the_extraction",
    "C144_valid_options_are_accepted",
    "C144_exactly_one_file"
   ],
   "note": "From the values optparse stores; float(), eval(), files, numpy and the extraction itself are parameters. Plotting and logging not modelled."
  },
  {
   "property": "C145",
   "status": "proved",
   "theorems": [
    "C145_uncertainty_modes"
   ],
   "note": ""
  },
  {
   "property": "C146",
   "status": "proved",
   "theorems": [
    "C146_baseline_options",
    "C146_baseline_function"
   ],
   "note": ""
  },
  {
   "property": "C147",
   "status": "partial",
   "theorems": [
    "C147_missing_uncertainties_refuted",
    "C147_modes_raise_refuted"
   ],
   "note": "Refuted for every file without uncertainties."
  },
  {
   "property": "C148",
   "status": "partial",
   "theorems": [
    "C148_peak_function_refuted",
    "C148_evaluator_refuted"
   ],
   "note": "Refuted for every text."
  },
  {
   "property": "C149",
   "status": "partial",
   "theorems": [
    "C149_switching_off_refuted"
   ],
   "note": "Refuted for every file."
  },
  {
   "property": "C150",
   "status": "partial",
   "theorems": [
    "C150_baseline_from_values_refuted"
   ],
   "note": "Refuted for every file."
  },
  {
   "property": "C151",
   "status": "partial",
   "theorems": [
    "C151_baseline_from_extraction_refuted",
    "C151_saved_settings_refuted"
   ],
   "note": "Refuted for every file."
  },
  {
   "property": "C152",
   "status": "partial",
   "theorems": [
    "C152_saving",
    "C152_failed_save_refuted",
    "C152_summary_without_extraction_refuted"
   ],
   "note": "C152_saving is proved; two expectations about failures are refuted for all states."
  },
  {
   "property": "C153",
   "status": "proved",
   "theorems": [
    "C153_residual",
    "C153_zero_residual"
   ],
   "note": "ranges are slices with explicit start and stop, or none; exact reals"
  },
  {
   "property": "C154",
   "status": "proved",
   "theorems": [
    "C154_residual_jacobian",
    "C154_regular_models"
   ],
   "note": "classes other than the listed ones are covered by C154_residual_jacobian under the hypothesis that their own Jacobian is right"
  },
  {
   "property": "C155",
   "status": "partial",
   "theorems": [
    "C155_polynomial_baseline_refuted"
   ],
   "note": "expected behaviour refuted for every degree >= 1 with free leading coefficient"
  },
  {
   "property": "C156",
   "status": "partial",
   "theorems": [
    "C156_covariance_full_range_partial",
    "C156_covariance_of_a_slice_refuted"
   ],
   "note": "refuted for every proper sub-range with nonzero residual; proved for the full range"
  },
  {
   "property": "C157",
   "status": "partial",
   "theorems": [
    "C157_sign_after_cleanup_refuted",
    "C157_positive_area_partial"
   ],
   "note": "refuted for negative area (position/area entry); proved for positive area"
  },
  {
   "property": "C158",
   "status": "partial",
   "theorems": [
    "C158_covariance_of_a_kept_fit_partial",
    "C158_covariance_order_refuted",
    "C158_undone_fit_refuted"
   ],
   "note": "refuted for every fit in which peaks change places or are removed, and for every undone fit; proved otherwise"
  },
  {
   "property": "C159",
   "status": "proved",
   "theorems": [
    "C159_find_qmax",
    "C159_lengths",
    "C159_one_point",
    "C159_empty",
    "C159_example"
   ],
   "note": "If some spread is zero numpy works with NaN or infinity; then the model says None and the theorem only says that this is the reason."
  },
  {
   "property": "C160",
   "status": "proved",
   "theorems": [
    "C160_frequency",
    "C160_example"
   ],
   "note": ""
  },
  {
   "property": "C161",
   "status": "proved",
   "theorems": [
    "C161_round_trip",
    "C161_any_text"
   ],
   "note": ""
  },
  {
   "property": "C162",
   "status": "proved",
   "theorems": [
    "C162_summary",
    "C162_labels"
   ],
   "note": ""
  },
  {
   "property": "C163",
   "status": "proved",
   "theorems": [
    "C163_by_name_or_index"
   ],
   "note": ""
  },
  {
   "property": "C164",
   "status": "proved",
   "theorems": [
    "C164_parts_of_a_model"
   ],
   "note": ""
  },
  {
   "property": "C165",
   "status": "proved",
   "theorems": [
    "C165_transform",
    "C165_there_and_back"
   ],
   "note": ""
  },
  {
   "property": "C166",
   "status": "partial",
   "theorems": [
    "C166_covariance_refuted",
    "C166_keywords_checked",
    "C166_pgradient_refuted"
   ],
   "note": "Refuted: both return None."
  },
  {
   "property": "C167",
   "status": "proved",
   "theorems": [
    "C167_comparepositions"
   ],
   "note": ""
  },
  {
   "property": "C168",
   "status": "proved",
   "theorems": [
    "C168_dgseries",
    "C168_all_shown"
   ],
   "note": ""
  },
  {
   "property": "C169",
   "status": "partial",
   "theorems": [
    "C169_descending_refuted",
    "C169_example"
   ],
   "note": "Refuted for every list whose first uncertainty exceeds the last."
  },
  {
   "property": "C170",
   "status": "partial",
   "theorems": [
    "C170_compare_file_refuted",
    "C170_never_drawn_refuted"
   ],
   "note": "Refuted for every file; follows from C127."
  },
  {
   "property": "C171",
   "status": "proved",
   "theorems": [
    "C171_console",
    "C171_file"
   ],
   "note": ""
  },
  {
   "property": "C172",
   "status": "partial",
   "theorems": [
    "C172_addfilelog_level_refuted",
    "C172_addfilelog_names_refuted"
   ],
   "note": "Violated: the logger's own level and the rejected names; two refuted theorems."
  },
  {
   "property": "C173",
   "status": "partial",
   "theorems": [
    "C173_notset_refuted",
    "C173_rejected_level_refuted",
    "C173_bad_level",
    "C173_no_file",
    "C173_unopened_file"
   ],
   "note": "Violated (setlevel(0), upper-case names); unknown names and objects are proved to be rejected without effect."
  },
  {
   "property": "C174",
   "status": "partial",
   "theorems": [
    "C174_accepted",
    "C174_first_rejected",
    "C174_second_rejected_refuted"
   ],
   "note": "Violated in its second half (second argument rejected); the other cases are proved."
  },
  {
   "property": "C175",
   "status": "proved",
   "theorems": [
    "C175_observed_grid",
    "C175_fit_grid",
    "C175_observed_curve",
    "C175_other_curves",
    "C175_panels"
   ],
   "note": ""
  },
  {
   "property": "C176",
   "status": "proved",
   "theorems": [
    "C176_layout",
    "C176_succeeds"
   ],
   "note": ""
  },
  {
   "property": "C177",
   "status": "partial",
   "theorems": [
    "C177_show_individual_refuted"
   ],
   "note": "Violated: for every plot the number of drawn peaks depends on fill_individual only."
  },
  {
   "property": "C178",
   "status": "partial",
   "theorems": [
    "C178_residual_only_refuted",
    "C178_inset_without_stability_refuted"
   ],
   "note": "Violated for all inputs."
  },
  {
   "property": "C179",
   "status": "proved",
   "theorems": [
    "C179_plottable",
    "C179_residual"
   ],
   "note": ""
  },
  {
   "property": "C180",
   "status": "partial",
   "theorems": [
    "C180_joined_ignored_refuted"
   ],
   "note": "Violated for all such states; the refuted theorems are universal."
  },
  {
   "property": "C181",
   "status": "proved",
   "theorems": [
    "C181_text",
    "C181_undefined"
   ],
   "note": ""
  },
  {
   "property": "C182",
   "status": "partial",
   "theorems": [
    "C182_boundaries_refuted",
    "C182_shared_boundary"
   ],
   "note": "Violated for all such states; the refuted theorems are universal."
  },
  {
   "property": "C183",
   "status": "partial",
   "theorems": [
    "C183_plot_refuted",
    "C183_animate_refuted"
   ],
   "note": "Violated for all such states; the refuted theorems are universal."
  },
  {
   "property": "C184",
   "status": "proved",
   "theorems": [
    "C184_restored",
    "C184_results_kept"
   ],
   "note": ""
  },
  {
   "property": "C185",
   "status": "partial",
   "theorems": [
    "C185_nothing_selected_refuted",
    "C185_no_results_refuted",
    "C185_bad_index_refuted"
   ],
   "note": "Violated for all such states; the refuted theorems are universal."
  },
  {
   "property": "C186",
   "status": "proved",
   "theorems": [
    "C186_round_trip",
    "C186_unchanged"
   ],
   "note": ""
  },
  {
   "property": "C187",
   "status": "partial",
   "theorems": [
    "C187_neutron_data_refuted",
    "C187_spdiameter_refuted",
    "C187_uncertainties_refuted",
    "C187_empty_refuted"
   ],
   "note": "Violated: universal theorems for each loss."
  },
  {
   "property": "C188",
   "status": "proved",
   "theorems": [
    "C188_header_values",
    "C188_blank_characters"
   ],
   "note": ""
  },
  {
   "property": "C189",
   "status": "partial",
   "theorems": [
    "C189_unit_truncates_refuted",
    "C189_unit_hides_refuted"
   ],
   "note": "Violated: two concrete headers, for every float()."
  },
  {
   "property": "C190",
   "status": "proved",
   "theorems": [
    "C190_text_first",
    "C190_can_succeed",
    "C190_open_first_files",
    "C190_save_files"
   ],
   "note": ""
  },
  {
   "property": "C191",
   "status": "partial",
   "theorems": [
    "C191_interrupted_write_refuted"
   ],
   "note": "violated by the code; refuted"
  },
  {
   "property": "C192",
   "status": "proved",
   "theorems": [
    "C192_data_set_files",
    "C192_read_failures"
   ],
   "note": ""
  },
  {
   "property": "C193",
   "status": "partial",
   "theorems": [
    "C193_truncated_file_refuted"
   ],
   "note": "violated by the code; refuted for every data set and every number of points"
  },
  {
   "property": "C194",
   "status": "partial",
   "theorems": [
    "C194_open_first_refuted",
    "C194_save_refuted"
   ],
   "note": "violated by the code; refuted"
  },
  {
   "property": "C195",
   "status": "proved",
   "theorems": [
    "C195_one_operation"
   ],
   "note": ""
  },
  {
   "property": "C196",
   "status": "partial",
   "theorems": [
    "C196_overwritten_refuted"
   ],
   "note": "violated by the code; refuted"
  },
  {
   "property": "C197",
   "status": "partial",
   "theorems": [
    "C197_tables_before_file",
    "C197_load_refuted"
   ],
   "note": "tables and complete file proved; loading refuted (loadaics raises for every file)"
  },
  {
   "property": "C198",
   "status": "proved",
   "theorems": [
    "C198_when_text_is_made"
   ],
   "note": "Exact condition for PDFPeakExtraction.writestr to return a text."
  },
  {
   "property": "C199",
   "status": "partial",
   "theorems": [
    "C199_base_class_refuted"
   ],
   "note": "Violated by the code: the theorem shows that every PeakExtraction raises."
  },
  {
   "property": "C200",
   "status": "proved",
   "theorems": [
    "C200_text_is_complete"
   ],
   "note": "Under the named hypotheses on repr/eval (record python), the edy search, the evaluator lookup and ModelCluster.factory; that these fail in the code is C126/C127."
  },
  {
   "property": "C201",
   "status": "partial",
   "theorems": [
    "C201_model_or_valueerror",
    "C201_always_a_model_refuted"
   ],
   "note": "Proved: the only possible exception is ValueError; refuted: an extraction with idle fits raises it."
  },
  {
   "property": "C202",
   "status": "partial",
   "theorems": [
    "C202_near_and_other_peaks",
    "C202_range_at_a_join",
    "C202_range_at_the_left_end",
    "C202_right_end_refuted"
   ],
   "note": "Proved at joins and at the left end; refuted at the right end (border read with the cluster number)."
  },
  {
   "property": "C203",
   "status": "proved",
   "theorems": [
    "C203_four_signatures",
    "C203_unknown_keywords_refuted"
   ],
   "note": "Proved for all calls; that superfluous keywords are not noticed is stated separately (C203_unknown_keywords_refuted)."
  },
  {
   "property": "C204",
   "status": "proved",
   "theorems": [
    "C204_evaluation",
    "C204_no_parameters",
    "C204_slice",
    "C204_every_point_outside_warns_refuted"
   ],
   "note": "Proved; with unsorted r points outside can go unnoticed (C204_every_point_outside_warns_refuted), which is outside the statement."
  },
  {
   "property": "C205",
   "status": "partial",
   "theorems": [
    "C205_text_gives_the_same_baseline",
    "C205_text_describes_the_baseline_refuted"
   ],
   "note": "Proved while the lists given are unchanged; refuted after they change (C205_text_describes_the_baseline_refuted)."
  },
  {
   "property": "C206",
   "status": "proved",
   "theorems": [
    "C206_baseline_of_the_result"
   ],
   "note": "Proved for all data, baselines and optimisers."
  },
  {
   "property": "C207",
   "status": "proved",
   "theorems": [
    "C207_equal_parts",
    "C207_equivalence",
    "C207_equal_models_agree",
    "C207_copies_are_equal",
    "C207_reflexive_refuted",
    "C207_interchangeable_refuted"
   ],
   "note": "Proved. Separately: a part with NaN is not equal to itself, and equal parts may differ in static_owner (C207_reflexive_refuted, C207_interchangeable_refuted)."
  },
  {
   "property": "C208",
   "status": "proved",
   "theorems": [
    "C208_equal_objects_behave_alike",
    "C208_different_objects_differ",
    "C208_reset_is_fresh_refuted"
   ],
   "note": "Proved. Separately: a reset object does not compare equal to a fresh one although it goes on alike (C208_reset_is_fresh_refuted)."
  },
  {
   "property": "C209",
   "status": "partial",
   "theorems": [
    "C209_frames",
    "C209_results_overwritten_refuted",
    "C209_wrong_peaks_refuted"
   ],
   "note": "Frames proved (C209_frames); that the first best result is overwritten and shown wrongly is proved for all runs (C209_results_overwritten_refuted, C209_wrong_peaks_refuted)."
  },
  {
   "property": "C210",
   "status": "proved",
   "theorems": [
    "C210_results_kept",
    "C210_frames"
   ],
   "note": "Proved for all tables; matplotlib calls may raise."
  },
  {
   "property": "C211",
   "status": "partial",
   "theorems": [
    "C211_stale_model_refuted",
    "C211_first_dot_refuted"
   ],
   "note": "Violated; proved that the shown model is stale and the first dot misplaced in every run."
  },
  {
   "property": "C212",
   "status": "partial",
   "theorems": [
    "C212_plot_refuted",
    "C212_shown_class_raises"
   ],
   "note": "Violated for every input (C212_plot_refuted)."
  },
  {
   "property": "C213",
   "status": "proved",
   "theorems": [
    "C213_value",
    "C213_jacobian",
    "C213_exceptions"
   ],
   "note": "Proved for all pointwise functions and slices."
  },
  {
   "property": "C214",
   "status": "partial",
   "theorems": [
    "C214_list_refuted",
    "C214_numpy_number_refuted",
    "C214_infinite_r_refuted"
   ],
   "note": "Violated; the three exceptions are proved for all inputs (C214_*_refuted)."
  },
  {
   "property": "C215",
   "status": "proved",
   "theorems": [
    "C215_users_baseline_is_left_alone",
    "C215_same_extraction",
    "C215_extract_leaves_baseline_alone"
   ],
   "note": "extract_single and the whole of PDFPeakExtraction.extract; that the ownership model gives the extraction of Extract.v is C215_same_extraction."
  },
  {
   "property": "C216",
   "status": "partial",
   "theorems": [
    "C216_baseline_setting_kept_refuted",
    "C216_stored_results_kept_refuted"
   ],
   "note": "Violated by the code: concrete runs of extract() twice and of PeakStability.run."
  },
  {
   "property": "C217",
   "status": "proved",
   "theorems": [
    "C217_nested_uncertainties"
   ],
   "note": "t_fivepercent is the floating-point product 0.05 * range, abstract."
  },
  {
   "property": "C218",
   "status": "proved",
   "theorems": [
    "C218_accepted_fit_in_order",
    "C218_extracted_in_order",
    "C218_in_order_if_last_fit_accepted",
    "C218_pdf_in_order"
   ],
   "note": "Positions compare as in C38 (NaN last). For extract() of a PDF the exception is any undone last fit."
  },
  {
   "property": "C219",
   "status": "proved",
   "theorems": [
    "C219_search",
    "C219_search_tracer",
    "C219_extract",
    "C219_extract_tracer"
   ],
   "note": "TraceRun.v logs the tracer calls next to Extract.v/PdfExtract.v; nesting by closure of balanced logs, steps by the loop invariant of C49, prunings by C42's argument; joined to Tracer.v by C63."
  },
  {
   "property": "C220",
   "status": "proved",
   "theorems": [
    "C220_extract_again",
    "C220_run",
    "C220_history"
   ],
   "note": ""
  },
  {
   "property": "C221",
   "status": "proved",
   "theorems": [
    "C221_same_parts",
    "C221_numbers",
    "C221_only_fit_errors",
    "C221_shape_assumption",
    "C221_nan_assumption",
    "C221_error_assumption",
    "C221_empty_model_valueerror",
    "C221_extraction_ends",
    "C221_protected_initial_peak",
    "C221_model_or_valueerror",
    "C221_prune_returns"
   ],
   "note": "Quantified over every behaviour of leastsq; the no-NaN part is for models without NaN parameters (strict), since fixed NaN parameters stay NaN. Jacobian and NaN conditions of the last part are those refuted without them in C75."
  },
  {
   "property": "C222",
   "status": "proved",
   "theorems": [
    "C222_quality",
    "C222_fit",
    "C222_single_peak",
    "C222_prune",
    "C222_augment"
   ],
   "note": "Exact arithmetic (integers in any common unit, real criterion). The condition that no fit is undone is needed: see the refutations C86 (prune) and C93 (augment)."
  },
  {
   "property": "C223",
   "status": "proved",
   "theorems": [
    "C223_protected_initial_peak",
    "C223_fit_refines"
   ],
   "note": "Instance of C118 and C119 (PdfExtractProps) with the optimiser of C221 (EngineLink.parts_engine over Parts.fit); assumptions on peak functions: normal forms keep the number of parameters, are idempotent and make no NaN; termination ripples convert parameters as their base function does."
  },
  {
   "property": "C224",
   "status": "proved",
   "theorems": [
    "C224_filter",
    "C224_default_never_traces",
    "C224_settracer"
   ],
   "note": "A token-level parser of Python's test grammar (or, and, not, if-else, parentheses; operands opaque); the joined text parses to the conjunction for every list of well-formed texts."
  },
  {
   "property": "C225",
   "status": "partial",
   "theorems": [
    "C225_unbalanced_text_refuted",
    "C225_empty_list_refuted"
   ],
   "note": "Violated by the code: unbalanced text accepted, empty list refused."
  },
  {
   "property": "C226",
   "status": "proved",
   "theorems": [
    "C226_accepted_fit_is_clean"
   ],
   "note": "Corollary of C40 (exact set removed by cleanfit) and C37 (what is kept) for every outcome of the optimiser."
  },
  {
   "property": "C227",
   "status": "proved",
   "theorems": [
    "C227_clusters_do_not_depend_on_units"
   ],
   "note": "Coordinates are integers (fixed point); rnd and rnd' are the roundings of subtractions in the two units and are assumed to commute with the factor (true of exact arithmetic and, in floating point without overflow and underflow, of powers of two)."
  },
  {
   "property": "C228",
   "status": "proved",
   "theorems": [
    "C228_estimates_do_not_depend_on_units",
    "C228_estimated_baseline_does_not_depend_on_units"
   ],
   "note": "Exact real arithmetic; the sort used for the baseline is assumed to put the scaled values in the same order as the values."
  },
  {
   "property": "C229",
   "status": "proved",
   "theorems": [
    "C229_same_least_squares_problem",
    "C229_classes",
    "C229_same_judgement"
   ],
   "note": "Exact real arithmetic. Gaussian peaks and wrapped functions are not instantiated (their part of the claim is the generic theorem with its hypothesis of proportionality)."
  },
  {
   "property": "C230",
   "status": "proved",
   "theorems": [
    "C230_conversion_of_widths"
   ],
   "note": "Flocq binary64: rounding to nearest even with gradual underflow after every operation; no overflow, x**2 taken as the rounded square. sin is only assumed to return numbers in [-1, 1], arcsin is arbitrary."
  },
  {
   "property": "C231",
   "status": "proved",
   "theorems": [
    "C231_accuracy_of_widths"
   ],
   "note": "As C230, with arcsin and sin accurate to d (and arcsin returning doubles). Non-vacuity: the true functions, rounded, are accurate to 2^-52."
  },
  {
   "property": "C232",
   "status": "partial",
   "theorems": [
    "C232_narrow_widths_refuted",
    "C232_sigma_refuted"
   ],
   "note": "Violated; witnesses proved in the Flocq model. The hypotheses on sin at the ends are shown to hold for the true functions, rounded. A width of 2^-29 of the maximum is far below any grid in practice."
  },
  {
   "property": "C233",
   "status": "proved",
   "theorems": [
    "C233_chi_squared_in_double_precision"
   ],
   "note": "Flocq binary64: rounding to nearest even after every operation, gradual underflow, no overflow. Sums are modelled as any tree of rounded additions in any order."
  },
  {
   "property": "C234",
   "status": "proved",
   "theorems": [
    "C234_criteria_in_double_precision",
    "C234_parameter_counts"
   ],
   "note": "Flocq binary64: rounding to nearest even after every operation; Python's conversion of integers to doubles is rounded as well."
  },
  {
   "property": "C235",
   "status": "partial",
   "theorems": [
    "C235_parameters_not_counted_refuted"
   ],
   "note": "Violated; for AIC (AICc is not stated)."
  },
  {
   "property": "C236",
   "status": "proved",
   "theorems": [
    "C236_akaike_in_double_precision"
   ],
   "note": "Flocq binary64: rounding to nearest even after every operation, gradual underflow, no overflow. Sums are modelled as any tree of rounded additions in any order."
  },
  {
   "property": "C237",
   "status": "proved",
   "theorems": [
    "C237_clustering_of_doubles"
   ],
   "note": "Flocq binary64, unbounded exponent above. Discharges the hypotheses on rounding of C01-C11, C103 and (for powers of two) C227."
  },
  {
   "property": "C238",
   "status": "proved",
   "theorems": [
    "C238_values_in_double_precision"
   ],
   "note": "Flocq binary64: rounding after every operation, gradual underflow, no overflow (a huge area over a tiny width would overflow to infinity in numpy)."
  },
  {
   "property": "C239",
   "status": "partial",
   "theorems": [
    "C239_narrow_peaks_refuted"
   ],
   "note": "Violated; follows from C232. The hypothesis on the sine is shown for the true functions, rounded."
  },
  {
   "property": "C240",
   "status": "proved",
   "theorems": [
    "C240_order_of_models_in_double_precision",
    "C240_growth_in_double_precision"
   ],
   "note": "The criterion is defined separately in exact arithmetic (FloatOrderProps.criterion). The values of the models are the doubles the code computed; overflow is not modelled."
  },
  {
   "property": "C241",
   "status": "proved",
   "theorems": [
    "C241_fit_in_double_precision",
    "C241_single_peak_in_double_precision",
    "C241_unit"
   ],
   "note": "The world of ModelCluster.v with the statistic of FloatEval.v; C241_unit: the exact criterion is that of C222. Pruning and augmenting compare residuals with subtracted peaks and are covered by C222 in exact arithmetic only."
  },
  {
   "property": "C242",
   "status": "proved",
   "theorems": [
    "C242_polynomial_in_double_precision"
   ],
   "note": "FloatBase.polyval_f is the Horner scheme of numpy.polyval with rounding after every operation; the exact polynomial is a separate definition."
  },
  {
   "property": "C243",
   "status": "proved",
   "theorems": [
    "C243_nanospherical_in_double_precision"
   ],
   "note": "r**3 is taken as the rounded cube; overflow is not modelled."
  },
  {
   "property": "C244",
   "status": "partial",
   "theorems": [
    "C244_positive_baseline_refuted"
   ],
   "note": "A genuine, if tiny, violation: exhibited for every radius that is a power of two (where r / radius is exact); r**3 is taken as the rounded cube, which every accurate pow returns here."
  },
  {
   "property": "C245",
   "status": "proved",
   "theorems": [
    "C245_residual_in_double_precision"
   ],
   "note": "FloatResidual.v (rounded residual of Residual.v) against FloatEval.v; MINPACK's own arithmetic is not modelled, only the sum of squares it minimises."
  },
  {
   "property": "C246",
   "status": "proved",
   "theorems": [
    "C246_totals_in_double_precision"
   ],
   "note": "The values of the parts are given (C238, C242, C243 for those of peaks and baselines); overflow is not modelled."
  },
  {
   "property": "C247",
   "status": "proved",
   "theorems": [
    "C247_correlations_in_double_precision"
   ],
   "note": "FloatCorr.v. np.sqrt is correctly rounded and nothing overflows; the lookup of the entries is in Covariance.v (exact arithmetic)."
  },
  {
   "property": "C248",
   "status": "partial",
   "theorems": [
    "C248_correlation_can_exceed_one"
   ],
   "note": "Refuted: 3/(sqrt 3 * sqrt 3) is 1 + 2^-52 in binary64 arithmetic; -(1 + 2^-52) for covariance -3. By C247 the excess is never more than 2^-49."
  },
  {
   "property": "C249",
   "status": "proved",
   "theorems": [
    "C249_correlations_do_not_depend_on_binary_units"
   ],
   "note": "FloatCorr.v. Every rounding commutes with a power of two in the normal range (Flocq: FLT agrees with FLX there); no overflow."
  }
 ]
}