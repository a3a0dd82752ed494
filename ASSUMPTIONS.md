# Print Assumptions of every property theorem

Generated by tools/assumptions.py.

## Closed under the global context (no axioms)

256 theorems

* `DataClustersProps.C01_clusters_well_formed`
* `DataClustersProps.C01_construct_validation`
* `DataClustersProps.C02_duplicate_x_refuted`
* `DataClustersProps.C02_next_progress`
* `DataClustersProps.C02_next_stops_only_when_all_clustered`
* `DataClustersProps.C03_makeclusters_terminates_and_covers`
* `DataClustersProps.C04_resolution_rule`
* `DataClustersProps.C05_find_nearest_cluster_correct`
* `DataClustersProps.C06_left_of_data_wraps_refuted`
* `DataClustersProps.C06_refuted`
* `DataClustersProps.C06_right_of_data_raises_refuted`
* `DataClustersProps.C07_find_adjacent_exact`
* `DataClustersProps.C08_combine_accepted_sound`
* `DataClustersProps.C08_combine_adjacent`
* `DataClustersProps.C08_duplicates_rejected`
* `DataClustersProps.C09_reset_restarts_same_run`
* `DataClustersProps.C103_between_points`
* `FunctionsProps.C104_factory_index_behaviour`
* `BaselinesProps.C105_jacobian_delegates`
* `BaselinesProps.C105_negative_rejected`
* `MultiModelProps.C108_served_keys`
* `TracerProps.C109_readstr_partial`
* `SerialProps.C109_written_traces_never_read_refuted`
* `DataClustersProps.C10_zero_resolution_singletons`
* `PruneProps.C110_prune_never_worse`
* `AugmentProps.C111_augment_never_worse`
* `DataClustersProps.C11_cluster_is_full_exact`
* `DataClustersProps.C11_cut_exact`
* `SerialProps.C122_function_survives_text`
* `SerialProps.C123_function_list_survives_text`
* `SerialProps.C124_part_survives_text`
* `SerialProps.C125_equals_sign_refuted`
* `SerialProps.C126_cluster_text_refuted`
* `SerialProps.C126_writestr_raises_refuted`
* `SerialProps.C127_extraction_text_refuted`
* `SerialProps.C127_stability_load_refuted`
* `SerialProps.C128_first_character_refuted`
* `SerialProps.C129_rows_read_exactly`
* `PartsProps.C12_long_vector_prefix_used`
* `PartsProps.C12_nan_rejected`
* `PartsProps.C12_pack_after_unpack`
* `PartsProps.C12_short_vector`
* `PartsProps.C12_unpack_after_pack`
* `PartsProps.C13_fit_keeps_fixed_up_to_normal_form`
* `PartsProps.C13_pack_keeps_fixed`
* `EstimatePeakProps.C141_one_peak_from_its_cluster`
* `EstimatePeakProps.C141_out_of_range`
* `EstimatePeakProps.C141_quiet_gives_none`
* `EstimatePeakProps.C141_where_the_peak_comes_from`
* `EstimatePeakProps.C142_far_cluster_used_refuted`
* `EstimatePeakProps.C143_added_peaks_are_taken_into_account`
* `ModelClusterProps.C14_cluster_npars`
* `PartsProps.C14_npars_counts`
* `CliProps.C152_failed_save_refuted`
* `CliProps.C152_saving`
* `CliProps.C152_summary_without_extraction_refuted`
* `CovFitProps.C158_covariance_of_a_kept_fit_partial`
* `CovFitProps.C158_covariance_order_refuted`
* `CovFitProps.C158_undone_fit_refuted`
* `QmaxProps.C159_empty`
* `QmaxProps.C159_one_point`
* `PartsProps.C15_copy_compares_equal`
* `PartsProps.C15_copy_equal_and_independent`
* `SummaryProps.C161_any_text`
* `SummaryProps.C161_round_trip`
* `SummaryProps.C162_labels`
* `SummaryProps.C162_summary`
* `AccessProps.C163_by_name_or_index`
* `AccessProps.C164_parts_of_a_model`
* `AccessProps.C165_there_and_back`
* `AccessProps.C165_transform`
* `AccessProps.C166_covariance_refuted`
* `AccessProps.C166_keywords_checked`
* `AccessProps.C166_pgradient_refuted`
* `PartsProps.C16_changeowner_exact`
* `PartsProps.C16_only_owner_evaluates`
* `PlotProps.C170_compare_file_refuted`
* `PlotProps.C170_never_drawn_refuted`
* `LogLevelsProps.C171_console`
* `LogLevelsProps.C171_file`
* `LogLevelsProps.C172_addfilelog_level_refuted`
* `LogLevelsProps.C172_addfilelog_names_refuted`
* `LogLevelsProps.C173_bad_level`
* `LogLevelsProps.C173_no_file`
* `LogLevelsProps.C173_notset_refuted`
* `LogLevelsProps.C173_rejected_level_refuted`
* `LogLevelsProps.C173_unopened_file`
* `LogLevelsProps.C174_accepted`
* `LogLevelsProps.C174_first_rejected`
* `LogLevelsProps.C174_second_rejected_refuted`
* `PartsProps.C17_value_is_sum_of_parts`
* `ViewsProps.C182_boundaries_refuted`
* `ViewsProps.C182_shared_boundary`
* `ViewsProps.C183_animate_refuted`
* `ViewsProps.C183_plot_refuted`
* `ViewsProps.C184_restored`
* `ViewsProps.C184_results_kept`
* `ViewsProps.C185_bad_index_refuted`
* `ViewsProps.C185_no_results_refuted`
* `ViewsProps.C185_nothing_selected_refuted`
* `DatasetTextProps.C188_blank_characters`
* `DatasetTextProps.C188_header_values`
* `DatasetTextProps.C189_unit_hides_refuted`
* `DatasetTextProps.C189_unit_truncates_refuted`
* `PartsProps.C18_empty_model_raises`
* `PartsProps.C18_fit_outcome`
* `PartsProps.C18_no_free_parameters`
* `PartsProps.C18_too_many_parameters`
* `FilesProps.C190_can_succeed`
* `FilesProps.C190_open_first_files`
* `FilesProps.C190_save_files`
* `FilesProps.C190_text_first`
* `FilesProps.C191_interrupted_write_refuted`
* `FilesProps.C194_open_first_refuted`
* `FilesProps.C194_save_refuted`
* `FilesProps.C195_one_operation`
* `FilesProps.C196_overwritten_refuted`
* `FilesProps.C197_load_refuted`
* `ExtractTextProps.C198_when_text_is_made`
* `ExtractTextProps.C199_base_class_refuted`
* `FunctionsProps.C19_cycle_never_finishes`
* `FunctionsProps.C19_references_survive_save_and_load`
* `FunctionsProps.C19_safe_list`
* `ExtractTotalProps.C201_always_a_model_refuted`
* `ExtractTotalProps.C201_model_or_valueerror`
* `ExtractTotalProps.C202_near_and_other_peaks`
* `ExtractTotalProps.C202_range_at_a_join`
* `ExtractTotalProps.C202_range_at_the_left_end`
* `ExtractTotalProps.C202_right_end_refuted`
* `FromSequenceProps.C203_four_signatures`
* `FromSequenceProps.C204_no_parameters`
* `FromSequenceProps.C205_text_gives_the_same_baseline`
* `ExtractBaseProps.C206_baseline_of_the_result`
* `EqualityProps.C207_copies_are_equal`
* `EqualityProps.C207_equal_models_agree`
* `EqualityProps.C207_equal_parts`
* `EqualityProps.C207_equivalence`
* `EqualityProps.C207_interchangeable_refuted`
* `EqualityProps.C207_reflexive_refuted`
* `ClusterEqProps.C208_different_objects_differ`
* `ClusterEqProps.C208_equal_objects_behave_alike`
* `ClusterEqProps.C208_reset_is_fresh_refuted`
* `AnimateProps.C209_frames`
* `AnimateProps.C209_results_overwritten_refuted`
* `AnimateProps.C209_wrong_peaks_refuted`
* `FunctionsProps.C20_off_by_one_refuted`
* `AnimateProps.C210_frames`
* `AnimateProps.C210_results_kept`
* `AnimateProps.C211_first_dot_refuted`
* `AnimateProps.C211_stale_model_refuted`
* `AnimateProps.C212_plot_refuted`
* `AnimateProps.C212_shown_class_raises`
* `ValueKindsProps.C213_exceptions`
* `ValueKindsProps.C213_jacobian`
* `ValueKindsProps.C213_value`
* `ValueKindsProps.C214_infinite_r_refuted`
* `ValueKindsProps.C214_list_refuted`
* `ValueKindsProps.C214_numpy_number_refuted`
* `OwnershipProps.C215_same_extraction`
* `OwnershipProps.C215_users_baseline_is_left_alone`
* `ExtractBaseProps.C217_nested_uncertainties`
* `OrderProps.C218_accepted_fit_in_order`
* `OrderProps.C218_extracted_in_order`
* `OrderProps.C218_in_order_if_last_fit_accepted`
* `TraceRunProps.C219_search`
* `TraceRunProps.C219_search_tracer`
* `FunctionsProps.C21_format_names`
* `FunctionsProps.C21_function_constructor_exact`
* `PartsProps.C21_part_constructor_exact`
* `EngineLinkProps.C221_empty_model_valueerror`
* `EngineLinkProps.C221_error_assumption`
* `EngineLinkProps.C221_extraction_ends`
* `EngineLinkProps.C221_model_or_valueerror`
* `EngineLinkProps.C221_nan_assumption`
* `EngineLinkProps.C221_numbers`
* `EngineLinkProps.C221_only_fit_errors`
* `EngineLinkProps.C221_protected_initial_peak`
* `EngineLinkProps.C221_prune_returns`
* `EngineLinkProps.C221_same_parts`
* `EngineLinkProps.C221_shape_assumption`
* `TraceFilterProps.C224_default_never_traces`
* `TraceFilterProps.C224_filter`
* `TraceFilterProps.C224_settracer`
* `TraceFilterProps.C225_empty_list_refuted`
* `TraceFilterProps.C225_unbalanced_text_refuted`
* `FitCleanProps.C226_accepted_fit_is_clean`
* `ClusterScaleProps.C227_clusters_do_not_depend_on_units`
* `BaselinesProps.C32_no_jacobian_refuted`
* `BaselinesProps.C32_npars_refuted`
* `ModelClusterProps.C37_fit_never_worse`
* `ModelClusterProps.C37_kept_model`
* `ModelClusterProps.C38_deletepeak`
* `ModelClusterProps.C38_replace`
* `ModelClusterProps.C38_replace_any_slice`
* `ModelClusterProps.C39_never_fit`
* `ModelClusterProps.C40_cleanfit_exact`
* `ModelClusterProps.C40_empty_cluster`
* `ModelClusterProps.C41_join_adjacent`
* `ModelClusterProps.C41_join_peaks`
* `ModelClusterProps.C41_rejects`
* `PruneProps.C42_normal_return`
* `PruneProps.C42_terminates_removing_only_removable`
* `AugmentProps.C43_reduce_to_all_or_nothing`
* `ModelClusterProps.C45_contingent`
* `ModelClusterProps.C45_last_fit_size`
* `ModelClusterProps.C45_no_refit_without_growth`
* `VarsProps.C47_clear`
* `ExtractProps.C49_assertions_never_fail`
* `ExtractProps.C49_extracted_spans_the_data`
* `ExtractProps.C49_models_match_clusters`
* `ExtractProps.C49_one_model_covers_everything`
* `ExtractProps.C50_at_most_three_levels`
* `MultiModelProps.C62_documented_key_refuted`
* `TracerProps.C63_balanced`
* `TracerProps.C63_consecutive`
* `TracerProps.C63_inside`
* `TracerProps.C63_levels`
* `TracerProps.C63_outermost`
* `TracerProps.C64_read_refuted`
* `TracerProps.C64_readstr_refuted`
* `StabilityProps.C65_independent_runs`
* `StabilityProps.C65_none`
* `StabilityProps.C65_run`
* `StabilityProps.C65_setcurrent`
* `AugmentProps.C66_normal_return`
* `AugmentProps.C66_return_or_valueerror`
* `AugmentProps.C66_terminates_with_own_and_source_peaks`
* `DatasetProps.C67_getvar`
* `DatasetProps.C67_setvar`
* `TracerProps.C68_snapshot_one`
* `TracerProps.C68_trace`
* `ExtractProps.C69_protected_initial_peaks_survive`
* `DataClustersProps.C71_ragged_runs_refuted`
* `DataClustersProps.C72_decreasing_accepted_refuted`
* `DataClustersProps.C72_rejected_combine_not_atomic_refuted`
* `PartsProps.C73_short_vector_broadcast_refuted`
* `PartsProps.C74_fit_rewrites_fixed_refuted`
* `PartsProps.C75_other_exceptions_refuted`
* `ModelClusterProps.C83_shared_objects_refuted`
* `ModelClusterProps.C84_deletepeak_last_refuted`
* `ModelClusterProps.C85_misplaced_never_removed_refuted`
* `PruneProps.C86_index_error_refuted`
* `PruneProps.C86_never_worse_refuted`
* `PruneProps.C86_protected_nan_refuted`
* `TracerProps.C91_after_exception_refuted`
* `TracerProps.C91_memory_refuted`
* `StabilityProps.C92_bad_index_refuted`
* `StabilityProps.C92_refit_refuted`
* `AugmentProps.C93_protected_always_fails_refuted`
* `AugmentProps.C93_protected_valueerror_refuted`
* `TracerProps.C94_snapshot_refuted`
* `NeighbourProps.C96_boundary_keeps_distant_peaks`
* `NeighbourProps.C96_combining_keeps_distant_peaks`
* `NeighbourProps.C96_neighbourhood_split`
* `NeighbourProps.C97_interpeak_range`
* `RipplesProps.C98_empty_grid`

## `ClassicalDedekindReals.sig_forall_dec`

13 theorems

* `DatasetProps.C112_finite`
* `LoadProps.C130_setdata`
* `LoadProps.C131_rejected_data_are_kept_refuted`
* `LoadProps.C133_loadpdf`
* `FromSequenceProps.C203_unknown_keywords_refuted`
* `BaselinesProps.C30_zero_polynomial`
* `CovarianceProps.C44_complete_matrix_kept`
* `CovarianceProps.C44_expansion`
* `CovarianceProps.C44_rejects_wrong_shapes`
* `CovarianceProps.C44_reuse_refuted`
* `CovTransformProps.C70_transform_needs_covariance`
* `CovTransformProps.C95_baseline_selection_refuted`
* `CovTransformProps.C95_partial_conversion_refuted`

## `ClassicalDedekindReals.sig_forall_dec`, `ClassicalDedekindReals.sig_not_dec`, `Classical_Prop.classic`, `FunctionalExtensionality.functional_extensionality_dep`

92 theorems

* `RipplesProps.C101_gaussianoverr`
* `MultiModelProps.C107_default_argument`
* `BaselinesProps.C113_jacobian_scale`
* `PdfExtractProps.C121_all_peaks_have_ripples_refuted`
* `EstimateProps.C135_estimation_outcomes`
* `EstimateProps.C136_estimate_matches_the_data`
* `EstimateProps.C137_exact_on_noise_free_data`
* `EstimateProps.C138_estimate_depends_on_positive_points`
* `EstimateProps.C138_rescaled_data`
* `EstimateProps.C139_level_data_refuted`
* `ResidualProps.C154_regular_models`
* `ResidualProps.C155_polynomial_baseline_refuted`
* `ResidualProps.C157_positive_area_partial`
* `ResidualProps.C157_sign_after_cleanup_refuted`
* `EstimateUnitsProps.C228_estimates_do_not_depend_on_units`
* `ResidualUnitsProps.C229_classes`
* `PeakFuncsProps.C22_normal_form`
* `FloatWidthProps.C230_conversion_of_widths`
* `FloatWidthProps.C231_accuracy_of_widths`
* `FloatWidthProps.C232_narrow_widths_refuted`
* `FloatWidthProps.C232_sigma_refuted`
* `FloatEvalProps.C233_chi_squared_in_double_precision`
* `FloatEvalProps.C234_criteria_in_double_precision`
* `FloatEvalProps.C234_parameter_counts`
* `FloatEvalProps.C235_parameters_not_counted_refuted`
* `FloatEvalProps.C236_akaike_in_double_precision`
* `FloatClusterProps.C237_clustering_of_doubles`
* `FloatPeakProps.C238_values_in_double_precision`
* `FloatPeakProps.C239_narrow_peaks_refuted`
* `PeakFuncsProps.C23_fwhm_sigma`
* `PeakFuncsProps.C23_round_trip`
* `PeakFuncsProps.C23_too_wide_rejected`
* `FloatOrderProps.C240_growth_in_double_precision`
* `FloatOrderProps.C240_order_of_models_in_double_precision`
* `FloatCritProps.C241_fit_in_double_precision`
* `FloatCritProps.C241_single_peak_in_double_precision`
* `FloatCritProps.C241_unit`
* `FloatBaseProps.C242_polynomial_in_double_precision`
* `FloatBaseProps.C243_nanospherical_in_double_precision`
* `FloatBaseProps.C244_positive_baseline_refuted`
* `FloatResidualProps.C245_residual_in_double_precision`
* `FloatTotalProps.C246_totals_in_double_precision`
* `FloatCorrProps.C247_correlations_in_double_precision`
* `FloatCorrProps.C248_correlation_can_exceed_one`
* `FloatCorrProps.C249_correlations_do_not_depend_on_binary_units`
* `PeakDerivProps.C24_gaussianoverr_jacobian`
* `PeakDerivProps.C24_zero_area`
* `PeakDerivProps.C25_formulas_partial`
* `PeakFuncsProps.C25_gaussian_jacobian_refuted`
* `PeakDerivProps.C26_gradient_matrix`
* `PeakScaleProps.C27_gaussian_scale_at`
* `PeakScaleProps.C27_gaussianoverr_scale_at`
* `PeakScaleProps.C27_outcomes`
* `PeakMaxProps.C28_gaussian_max`
* `PeakMaxProps.C28_gaussianoverr_max`
* `PeakMaxProps.C28_gaussianoverr_no_max`
* `PeakAreaProps.C29_area_is_the_integral`
* `PeakAreaProps.C29_area_of_any_peak`
* `PeakFuncsProps.C29_over_r`
* `PeakFuncsProps.C29_width_and_area_meaning`
* `PeakFuncsProps.C29_width_bounded`
* `BaselinesProps.C31_continuous`
* `BaselinesProps.C31_jacobian_radius`
* `EvaluatorsProps.C36_probabilities`
* `EvaluatorsProps.C36_weights`
* `MatchAtProps.C43_gaussianoverr`
* `ResampleProps.C51_nonuniform_refuted`
* `MultiModelProps.C57_classes_partition_the_models`
* `MultiModelProps.C57_displaced_peaks_refuted`
* `MultiModelProps.C58_accessors_describe_the_model`
* `MultiModelProps.C58_best_sets`
* `MultiModelProps.C58_get_class`
* `MultiModelProps.C58_get_model_any`
* `MultiModelProps.C58_get_model_in_class`
* `MultiModelProps.C58_most_favourable_uncertainty`
* `MultiModelProps.C58_preparation_succeeds`
* `MultiModelProps.C58_stale_classes_refuted`
* `MultiModelProps.C58_unknown_uncertainty`
* `MultiModelProps.C60_repeated_uncertainty_refuted`
* `MultiModelProps.C60_rescaled_equals_direct`
* `MultiModelProps.C61_argument_ignored_refuted`
* `CovTransformProps.C70_gaussianoverr_propagation`
* `PeakFuncsProps.C76_negative_width_refuted`
* `PeakDerivProps.C77_negative_area_refuted`
* `PeakScaleProps.C78_gaussian_at_maximum_refuted`
* `PeakScaleProps.C78_maximum_moves_refuted`
* `PeakScaleProps.C78_nan_parameters_refuted`
* `PeakMaxProps.C79_negative_position_refuted`
* `BaselinesProps.C80_jacobian_exact_partial`
* `BaselinesProps.C80_jacobian_refuted`
* `BaselinesProps.C81_jacobian_scale_refuted`
* `CovTransformProps.C95_gaussian_refuted`

## `ClassicalDedekindReals.sig_forall_dec`, `ClassicalDedekindReals.sig_not_dec`, `FunctionalExtensionality.functional_extensionality_dep`

84 theorems

* `RipplesProps.C100_value_uniform`
* `RipplesProps.C101_jacobian_is_derivative`
* `RipplesProps.C102_coarse_jacobian_refuted`
* `RipplesProps.C102_single_point_refuted`
* `PdfExtractProps.C114_extract_result_only_on_success`
* `PdfExtractProps.C114_fit_result_only_on_success`
* `PdfExtractProps.C115_extraction_data`
* `PdfExtractProps.C115_extraction_grid`
* `PdfExtractProps.C115_fit_grid`
* `PdfExtractProps.C116_extracted_model`
* `PdfExtractProps.C117_ripples`
* `PdfExtractProps.C118_protected_initial_peaks_survive`
* `PdfExtractProps.C119_fit_model`
* `PdfExtractProps.C120_initial_peaks_unchanged_refuted`
* `LoadProps.C131_settings_of_previous_data_refuted`
* `LoadProps.C134_qmax_from_data_refuted`
* `CliProps.C144_exactly_one_file`
* `CliProps.C144_options_reach_the_extraction`
* `CliProps.C144_valid_options_are_accepted`
* `CliProps.C145_uncertainty_modes`
* `CliProps.C146_baseline_function`
* `CliProps.C146_baseline_options`
* `CliProps.C147_missing_uncertainties_refuted`
* `CliProps.C147_modes_raise_refuted`
* `CliProps.C148_evaluator_refuted`
* `CliProps.C148_peak_function_refuted`
* `CliProps.C149_switching_off_refuted`
* `CliProps.C150_baseline_from_values_refuted`
* `CliProps.C151_baseline_from_extraction_refuted`
* `CliProps.C151_saved_settings_refuted`
* `ResidualProps.C154_residual_jacobian`
* `QmaxProps.C159_example`
* `QmaxProps.C159_find_qmax`
* `QmaxProps.C159_lengths`
* `QmaxProps.C160_example`
* `QmaxProps.C160_frequency`
* `MakePlotProps.C175_observed_curve`
* `MakePlotProps.C175_other_curves`
* `MakePlotProps.C175_panels`
* `MakePlotProps.C176_layout`
* `MakePlotProps.C176_succeeds`
* `MakePlotProps.C177_show_individual_refuted`
* `MakePlotProps.C178_inset_without_stability_refuted`
* `MakePlotProps.C178_residual_only_refuted`
* `ViewsProps.C181_text`
* `ViewsProps.C181_undefined`
* `FilesProps.C197_tables_before_file`
* `OwnershipProps.C215_extract_leaves_baseline_alone`
* `OwnershipProps.C216_baseline_setting_kept_refuted`
* `OwnershipProps.C216_stored_results_kept_refuted`
* `OrderProps.C218_pdf_in_order`
* `TraceRunProps.C219_extract`
* `TraceRunProps.C219_extract_tracer`
* `StabilityPdfProps.C220_extract_again`
* `StabilityPdfProps.C220_history`
* `StabilityPdfProps.C220_run`
* `EnginePdfProps.C223_fit_refines`
* `EnginePdfProps.C223_protected_initial_peak`
* `EvaluatorsProps.C36_empty_raises`
* `CovarianceProps.C44_correlations`
* `CovarianceProps.C44_correlationwarning`
* `CovarianceProps.C44_lookups`
* `VarsProps.C47_pdf_aliases`
* `VarsProps.C47_pdf_checks_are_atomic`
* `VarsProps.C48_pdf_documented_defaults`
* `VarsProps.C48_pdf_explicit_settings_survive`
* `VarsProps.C48_pdf_idempotent`
* `VarsProps.C48_pdf_succeeds`
* `VarsProps.C48_pdf_text_qmax`
* `ResampleProps.C51_empty_range`
* `ResampleProps.C51_errors`
* `ResampleProps.C51_formula`
* `ResampleProps.C51_identity`
* `ResampleProps.C51_original_points`
* `ResampleProps.C51_resampledata`
* `ResampleProps.C52_error_scale`
* `ResampleProps.C53_stdratio`
* `RipplesProps.C98_extended_grid`
* `RipplesProps.C99_band_limited_unchanged`
* `RipplesProps.C99_idempotent`
* `RipplesProps.C99_length`
* `RipplesProps.C99_linear`
* `RipplesProps.C99_real`
* `RipplesProps.C99_spectrum`

## `ClassicalDedekindReals.sig_forall_dec`, `FunctionalExtensionality.functional_extensionality_dep`

82 theorems

* `NyquistProps.C106_terminates`
* `BaselinesProps.C113_normal_form`
* `LoadProps.C132_baseline_estimation`
* `EstimateProps.C140_exact_under_signal`
* `EstimateProps.C140_polynomial_estimate`
* `ResidualProps.C153_residual`
* `ResidualProps.C153_zero_residual`
* `ResidualProps.C156_covariance_full_range_partial`
* `ResidualProps.C156_covariance_of_a_slice_refuted`
* `PlotProps.C167_comparepositions`
* `PlotProps.C168_all_shown`
* `PlotProps.C168_dgseries`
* `PlotProps.C169_descending_refuted`
* `PlotProps.C169_example`
* `MakePlotProps.C175_fit_grid`
* `MakePlotProps.C175_observed_grid`
* `ViewsProps.C179_plottable`
* `ViewsProps.C179_residual`
* `ViewsProps.C180_joined_ignored_refuted`
* `DatasetTextProps.C186_round_trip`
* `DatasetTextProps.C186_unchanged`
* `DatasetTextProps.C187_empty_refuted`
* `DatasetTextProps.C187_neutron_data_refuted`
* `DatasetTextProps.C187_spdiameter_refuted`
* `DatasetTextProps.C187_uncertainties_refuted`
* `FilesProps.C192_data_set_files`
* `FilesProps.C192_read_failures`
* `FilesProps.C193_truncated_file_refuted`
* `FromSequenceProps.C204_evaluation`
* `FromSequenceProps.C204_every_point_outside_warns_refuted`
* `FromSequenceProps.C204_slice`
* `FromSequenceProps.C205_text_describes_the_baseline_refuted`
* `CritLinkProps.C222_augment`
* `CritLinkProps.C222_fit`
* `CritLinkProps.C222_prune`
* `CritLinkProps.C222_quality`
* `CritLinkProps.C222_single_peak`
* `EstimateUnitsProps.C228_estimated_baseline_does_not_depend_on_units`
* `ResidualUnitsProps.C229_same_judgement`
* `ResidualUnitsProps.C229_same_least_squares_problem`
* `PeakScaleProps.C27_peak_all_or_nothing`
* `BaselinesProps.C30_value`
* `BaselinesProps.C31_scalar_array_agree`
* `BaselinesProps.C31_value`
* `EvaluatorsProps.C33_lower_is_better`
* `EvaluatorsProps.C33_operators_agree_with_order`
* `EvaluatorsProps.C33_refuses_incomparable`
* `EvaluatorsProps.C33_total_preorder`
* `EvaluatorsProps.C34_criterion_values`
* `EvaluatorsProps.C34_penalty_monotone`
* `EvaluatorsProps.C35_growth_justified_exact`
* `MatchAtProps.C43_all_scalable`
* `MatchAtProps.C43_false_unchanged`
* `MatchAtProps.C43_second_attempt_two_peaks`
* `MatchAtProps.C43_true_effect`
* `CovarianceProps.C44_stays_a_covariance`
* `VarsProps.C46_exactly_the_points_in_range`
* `VarsProps.C47_known_names_are_stored`
* `VarsProps.C47_unknown_name_is_rejected`
* `VarsProps.C48_documented_defaults`
* `VarsProps.C48_explicit_settings_survive`
* `VarsProps.C48_idempotent`
* `VarsProps.C48_range_outside_data_refuted`
* `VarsProps.C48_succeeds`
* `NyquistProps.C54_estimation_cycle_refuted`
* `DatasetProps.C55_outcome`
* `DatasetProps.C55_success`
* `DatasetProps.C56_copy`
* `DatasetProps.C56_independent`
* `MultiModelProps.C59_nearest_key`
* `CovTransformProps.C70_transform_propagates`
* `BaselinesProps.C81_normal_form_refuted`
* `EvaluatorsProps.C82_reused_evaluator_refuted`
* `MatchAtProps.C87_second_attempt_refuted`
* `MatchAtProps.C87_true_means_matched_refuted`
* `VarsProps.C88_range_outside_data_refuted`
* `DatasetProps.C89_failed_read_keeps_data_refuted`
* `DatasetProps.C89_infinity_refuted`
* `DatasetProps.C90_inplace_edit_refuted`
* `DatasetProps.C90_self_copy_refuted`
* `DatasetProps.C90_spdiameter_refuted`
* `CovTransformProps.C95_nonsymmetric_gradient_refuted`

## `Classical_Prop.classic`

1 theorems

* `ExtractReadProps.C200_text_is_complete`
