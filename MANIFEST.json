{
 "claims": [
  {
   "property": "C01",
   "status": "proved",
   "theorems": [
    "C01_voxel_order"
   ],
   "note": "Voxel order of raw volumes"
  },
  {
   "property": "C02",
   "status": "proved",
   "theorems": [
    "C02_size_check",
    "C02_any_dims",
    "C02_fragment_ignored"
   ],
   "note": "Raw size check"
  },
  {
   "property": "C03",
   "status": "proved",
   "theorems": [
    "C03_roundtrip",
    "C03_files_distinct",
    "C03_raw_file",
    "C03_mhd_file",
    "C03_bytes_per_voxel"
   ],
   "note": "Raw byte decoding round trip"
  },
  {
   "property": "C04",
   "status": "proved",
   "theorems": [
    "C04_dims_from_name",
    "C04_dims_any_digits",
    "C04_digit_free_prefix",
    "C04_no_triple_rejected",
    "C04_triple_accepted"
   ],
   "note": "Dimensions from the file name"
  },
  {
   "property": "C05",
   "status": "proved",
   "theorems": [
    "C05_token",
    "C05_table",
    "C05_only_documented_tokens",
    "C05_otherwise_ValueError",
    "C05_plural_rejected",
    "C05_last_two_digits"
   ],
   "note": "Bit depth from the file name"
  },
  {
   "property": "C06",
   "status": "proved",
   "theorems": [
    "C06_header_pairs",
    "C06_fields_as_written",
    "C06_blanks",
    "C06_line_order_irrelevant",
    "C06_unterminated_line_lost",
    "C06_unterminated_data_file",
    "C06_malformed_line"
   ],
   "note": "mhd header parsing"
  },
  {
   "property": "C07",
   "status": "proved",
   "theorems": [
    "C07_table",
    "C07_gz",
    "C07_other_extension",
    "C07_no_extension",
    "C07_nifti_only_refuted"
   ],
   "note": "File type dispatch"
  },
  {
   "property": "C08",
   "status": "proved",
   "theorems": [
    "C08_two_or_three_dims",
    "C08_passthrough",
    "C08_rejections",
    "C08_zero_range",
    "C08_normalise_before_crop",
    "C08_roi_uses_whole_range",
    "C08_crop_first_refuted"
   ],
   "note": "load_data contract"
  },
  {
   "property": "C09",
   "status": "proved",
   "theorems": [
    "C09_unit_range",
    "C09_integer_range",
    "C09_affine_invariance",
    "C09_idempotent"
   ],
   "note": "Real-valued normalisation"
  },
  {
   "property": "C10",
   "status": "proved",
   "theorems": [
    "C10_result",
    "C10_exact_if_it_fits",
    "C10_unit_range",
    "C10_full_scale_iff",
    "C10_full_range_images",
    "C10_signed",
    "C10_order_preserving_refuted",
    "C10_readme_full_scale_refuted"
   ],
   "note": "Unsigned integer normalisation can wrap"
  },
  {
   "property": "C11",
   "status": "proved",
   "theorems": [
    "C11_shortcut_untouched",
    "C11_shortcut_condition",
    "C11_guaranteed_for_8_bit",
    "C11_16_bit_refuted"
   ],
   "note": "Already-normalised shortcut"
  },
  {
   "property": "C12",
   "status": "proved",
   "theorems": [
    "C12_supported_ranges",
    "C12_other_ranges",
    "C12_shape_kept"
   ],
   "note": "Only three output ranges exist"
  },
  {
   "property": "C13",
   "status": "proved",
   "theorems": [
    "C13_binary64_refuted",
    "C13_binary32_refuted",
    "C13_16_bit_refuted",
    "C13_exact_arithmetic"
   ],
   "note": "Floating-point normalisation can lose full scale"
  },
  {
   "property": "C14",
   "status": "proved",
   "theorems": [
    "C14_contents_2d",
    "C14_contents_3d",
    "C14_clipping_2d",
    "C14_clipping_3d",
    "C14_from_the_end_2d",
    "C14_from_the_end_3d",
    "C14_loaded_3d"
   ],
   "note": "Crop contents"
  },
  {
   "property": "C15",
   "status": "proved",
   "theorems": [
    "C15_acceptance",
    "C15_keeping_an_axis_rejected",
    "C15_offsets_ignored"
   ],
   "note": "Crop acceptance rule"
  },
  {
   "property": "C16",
   "status": "proved",
   "theorems": [
    "C16_colour_crop_fails"
   ],
   "note": "Colour images cannot be cropped"
  },
  {
   "property": "C17",
   "status": "proved",
   "theorems": [
    "C17_agreement",
    "C17_mismatch_rejected",
    "C17_lists_rejected",
    "C17_chromatic"
   ],
   "note": "Image pair agreement"
  },
  {
   "property": "C18",
   "status": "proved",
   "theorems": [
    "C18_last_axis_dropped",
    "C18_gray_value"
   ],
   "note": "Silent grayscale conversion of depth-3 data"
  },
  {
   "property": "C19",
   "status": "proved",
   "theorems": [
    "C19_construction_succeeds_iff",
    "C19_only_value_errors",
    "C19_options",
    "C19_which_need_a_range",
    "C19_names",
    "C19_snr_parameter"
   ],
   "note": "Metric construction"
  },
  {
   "property": "C20",
   "status": "proved",
   "theorems": [
    "C20_operators_follow_scores",
    "C20_order_laws",
    "C20_unscored",
    "C20_equality_ignores_class",
    "C20_nan_refuted"
   ],
   "note": "Metric comparison"
  },
  {
   "property": "C21",
   "status": "proved",
   "theorems": [
    "C21_extended",
    "C21_one_infinite",
    "C21_weighted_sum",
    "C21_bilinear",
    "C21_permutation",
    "C21_convex",
    "C21_unscored",
    "C21_zero_weight_refuted"
   ],
   "note": "Linear fusion"
  },
  {
   "property": "C22",
   "status": "proved",
   "theorems": [
    "C22_score_is_rms",
    "C22_metric",
    "C22_bounded",
    "C22_affine",
    "C22_zero_iff_identical_images"
   ],
   "note": "RMSE is a metric on images"
  },
  {
   "property": "C23",
   "status": "proved",
   "theorems": [
    "C23_score_is_psnr",
    "C23_infinite_iff_identical",
    "C23_value",
    "C23_symmetric",
    "C23_nonnegative_iff",
    "C23_lower_bound_refuted"
   ],
   "note": "PSNR value"
  },
  {
   "property": "C24",
   "status": "proved",
   "theorems": [
    "C24_same_ranking",
    "C24_data_range_shifts",
    "C24_ranking_independent_of_range"
   ],
   "note": "PSNR and RMSE rank identically"
  },
  {
   "property": "C25",
   "status": "proved",
   "theorems": [
    "C25_identical_images",
    "C25_score"
   ],
   "note": "SSIM of identical images is 1"
  },
  {
   "property": "C26",
   "status": "proved",
   "theorems": [
    "C26_symmetric"
   ],
   "note": "SSIM is symmetric"
  },
  {
   "property": "C27",
   "status": "proved",
   "theorems": [
    "C27_range",
    "C27_fill_value_refuted"
   ],
   "note": "SSIM stays in [-1, 1]"
  },
  {
   "property": "C28",
   "status": "proved",
   "theorems": [
    "C28_negative_constants",
    "C28_bad_window",
    "C28_accepted",
    "C28_unit_window_refuted",
    "C28_unknown_mode_refuted",
    "C28_exponents_truncated",
    "C28_half_gamma_ignored",
    "C28_types",
    "C28_text_exponents",
    "C28_bool_window",
    "C28_border_unused",
    "C28_mode_types",
    "C28_negative_window_refuted"
   ],
   "note": "SSIM parameter checking"
  },
  {
   "property": "C29",
   "status": "proved",
   "theorems": [
    "C29_uqi_is_ssim",
    "C29_constants_unused",
    "C29_constant_images",
    "C29_scale_invariance_refuted",
    "C29_range_independence_refuted",
    "C29_keyword_clash"
   ],
   "note": "UQI ignores its zero stabilisers"
  },
  {
   "property": "C30",
   "status": "proved",
   "theorems": [
    "C30_mean_of_weighted_channels",
    "C30_identical_images",
    "C30_weights_adding_to_one",
    "C30_weights_required"
   ],
   "note": "Chromatic SSIM averages after weighting"
  },
  {
   "property": "C31",
   "status": "proved",
   "theorems": [
    "C31_identical",
    "C31_maximum",
    "C31_constant"
   ],
   "note": "GSM of identical images"
  },
  {
   "property": "C32",
   "status": "proved",
   "theorems": [
    "C32_at_most_one",
    "C32_symmetric",
    "C32_lower_bound_refuted",
    "C32_upper_bound_refuted",
    "C32_symmetry_refuted"
   ],
   "note": "GSM bounds and symmetry"
  },
  {
   "property": "C33",
   "status": "proved",
   "theorems": [
    "C33_difference_wraps",
    "C33_float_luminance",
    "C33_brighter",
    "C33_float_brighter"
   ],
   "note": "GSM luminance term wraps for 8-bit images"
  },
  {
   "property": "C34",
   "status": "proved",
   "theorems": [
    "C34_sum_zero",
    "C34_shift_invariant",
    "C34_flat_window",
    "C34_convolve_negates",
    "C34_constant_fill_refuted"
   ],
   "note": "Gradient kernels ignore flat regions"
  },
  {
   "property": "C35",
   "status": "proved",
   "theorems": [
    "C35_weighting",
    "C35_between",
    "C35_zero",
    "C35_weight_decreases",
    "C35_thresholds",
    "C35_threshold_zero"
   ],
   "note": "MAD combination"
  },
  {
   "property": "C36",
   "status": "proved",
   "theorems": [
    "C36_detection",
    "C36_appearance",
    "C36_mad"
   ],
   "note": "MAD of identical images is 0"
  },
  {
   "property": "C37",
   "status": "proved",
   "theorems": [
    "C37_assignment",
    "C37_blocks",
    "C37_square",
    "C37_half_overlap",
    "C37_other_overlap_refuted"
   ],
   "note": "MAD block bookkeeping"
  },
  {
   "property": "C38",
   "status": "proved",
   "theorems": [
    "C38_area",
    "C38_block_size_check",
    "C38_stride",
    "C38_nan",
    "C38_nan_returned"
   ],
   "note": "MAD border removal"
  },
  {
   "property": "C39",
   "status": "proved",
   "theorems": [
    "C39_fault_iff",
    "C39_shapes",
    "C39_square_initialised",
    "C39_tall_uninitialised"
   ],
   "note": "C statistics kernels: memory safety"
  },
  {
   "property": "C40",
   "status": "proved",
   "theorems": [
    "C40_plain",
    "C40_minimum"
   ],
   "note": "C minimum standard deviation search"
  },
  {
   "property": "C41",
   "status": "proved",
   "theorems": [
    "C41_in_range",
    "C41_pixel",
    "C41_above"
   ],
   "note": "Lightness lookup"
  },
  {
   "property": "C42",
   "status": "proved",
   "theorems": [
    "C42_piq_slice",
    "C42_own_slice",
    "C42_slice_contents",
    "C42_errors",
    "C42_plane"
   ],
   "note": "Slice selection of slice-wise metrics"
  },
  {
   "property": "C43",
   "status": "proved",
   "theorems": [
    "C43_own",
    "C43_own_dim_error",
    "C43_experimental",
    "C43_piq",
    "C43_piq_dim_ignored",
    "C43_piq_mean",
    "C43_dimension_refuted"
   ],
   "note": "Full-volume scores ignore dim"
  },
  {
   "property": "C44",
   "status": "proved",
   "theorems": [
    "C44_vsi",
    "C44_vsi_with_dim",
    "C44_others",
    "C44_refuted"
   ],
   "note": "VSI cannot score RGB images directly"
  },
  {
   "property": "C45",
   "status": "proved",
   "theorems": [
    "C45_value",
    "C45_affine",
    "C45_negation",
    "C45_coincide",
    "C45_full"
   ],
   "note": "CNR value and invariance"
  },
  {
   "property": "C46",
   "status": "proved",
   "theorems": [
    "C46_value",
    "C46_scaling",
    "C46_offset",
    "C46_noise"
   ],
   "note": "SNR value and scaling"
  },
  {
   "property": "C47",
   "status": "proved",
   "theorems": [
    "C47_cubic",
    "C47_spherical",
    "C47_spherical_colour"
   ],
   "note": "Region masks"
  },
  {
   "property": "C48",
   "status": "proved",
   "theorems": [
    "C48_check",
    "C48_types",
    "C48_region",
    "C48_empty",
    "C48_truncated"
   ],
   "note": "Border check"
  },
  {
   "property": "C49",
   "status": "proved",
   "theorems": [
    "C49_given",
    "C49_never",
    "C49_full"
   ],
   "note": "Colour CNR"
  },
  {
   "property": "C50",
   "status": "proved",
   "theorems": [
    "C50_given",
    "C50_stored",
    "C50_missing",
    "C50_reuse"
   ],
   "note": "Stored centres"
  },
  {
   "property": "C51",
   "status": "proved",
   "theorems": [
    "C51_type_error",
    "C51_never",
    "C51_multiple"
   ],
   "note": "SNR cannot be used in batch mode"
  },
  {
   "property": "C52",
   "status": "proved",
   "theorems": [
    "C52_range",
    "C52_integer",
    "C52_unit",
    "C52_outside",
    "C52_dims"
   ],
   "note": "Q-Measure grey-value range"
  },
  {
   "property": "C53",
   "status": "proved",
   "theorems": [
    "C53_single",
    "C53_multiple",
    "C53_history"
   ],
   "note": "Batch results equal single results"
  },
  {
   "property": "C54",
   "status": "proved",
   "theorems": [
    "C54_same_roi",
    "C54_failure",
    "C54_identical",
    "C54_reused",
    "C54_refuted",
    "C54_reference_refuted"
   ],
   "note": "Batch caching is wrong with per-pair ROIs"
  },
  {
   "property": "C55",
   "status": "proved",
   "theorems": [
    "C55_reused",
    "C55_refuted"
   ],
   "note": "Batch caching is wrong after resizing"
  },
  {
   "property": "C56",
   "status": "proved",
   "theorems": [
    "C56_results",
    "C56_distinct"
   ],
   "note": "Batch result structure"
  },
  {
   "property": "C57",
   "status": "proved",
   "theorems": [
    "C57_rows",
    "C57_before",
    "C57_extension"
   ],
   "note": "Batch CSV alignment"
  },
  {
   "property": "C58",
   "status": "proved",
   "theorems": [
    "C58_columns",
    "C58_last",
    "C58_last_noref",
    "C58_distinct"
   ],
   "note": "Metrics with equal names collide"
  },
  {
   "property": "C59",
   "status": "proved",
   "theorems": [
    "C59_rejected",
    "C59_accepted",
    "C59_empty",
    "C59_global"
   ],
   "note": "ROI list checking"
  },
  {
   "property": "C60",
   "status": "proved",
   "theorems": [
    "C60_rows",
    "C60_path",
    "C60_objects",
    "C60_second",
    "C60_idempotent",
    "C60_repeated",
    "C60_compare",
    "C60_dict",
    "C60_replaced"
   ],
   "note": "Exporting metric results"
  },
  {
   "property": "C61",
   "status": "proved",
   "theorems": [
    "C61_once",
    "C61_positions",
    "C61_distinct",
    "C61_below",
    "C61_package"
   ],
   "note": "Comparison image: every metric printed once"
  },
  {
   "property": "C62",
   "status": "proved",
   "theorems": [
    "C62_accepted",
    "C62_axis",
    "C62_rejected",
    "C62_refuted",
    "C62_slice",
    "C62_outside"
   ],
   "note": "Comparison image: slice choice"
  },
  {
   "property": "C63",
   "status": "proved",
   "theorems": [
    "C63_written",
    "C63_kept",
    "C63_letters",
    "C63_batch",
    "C63_multiple",
    "C63_metadata",
    "C63_image",
    "C63_upper_case",
    "C63_no_stem"
   ],
   "note": "File name extensions on export"
  },
  {
   "property": "C64",
   "status": "proved",
   "theorems": [
    "C64_accepted",
    "C64_rejected",
    "C64_index_n",
    "C64_arguments"
   ],
   "note": "visualize_3d bounds"
  },
  {
   "property": "C65",
   "status": "proved",
   "theorems": [
    "C65_never",
    "C65_type_error",
    "C65_set_centers",
    "C65_keyword",
    "C65_stored",
    "C65_nothing",
    "C65_subplots"
   ],
   "note": "CNR visualisation always fails"
  },
  {
   "property": "C66",
   "status": "proved",
   "theorems": [
    "C66_window",
    "C66_borders",
    "C66_local",
    "C66_not_centred",
    "C66_first",
    "C66_nonneg",
    "C66_scale",
    "C66_modes",
    "C66_oblong"
   ],
   "note": "correlate_convolve_abs window"
  },
  {
   "property": "C67",
   "status": "proved",
   "theorems": [
    "C67_blocks",
    "C67_dims"
   ],
   "note": "Block extraction"
  },
  {
   "property": "C68",
   "status": "proved",
   "theorems": [
    "C68_cleaned",
    "C68_centre",
    "C68_region",
    "C68_defined"
   ],
   "note": "Automatic region"
  },
  {
   "property": "C69",
   "status": "proved",
   "theorems": [
    "C69_transposed",
    "C69_grey",
    "C69_linear"
   ],
   "note": "RGB to YUV uses the transposed matrix"
  },
  {
   "property": "C70",
   "status": "proved",
   "theorems": [
    "C70_percentile",
    "C70_band",
    "C70_adjacent",
    "C70_top",
    "C70_colour"
   ],
   "note": "Percentile binarisation"
  },
  {
   "property": "C71",
   "status": "proved",
   "theorems": [
    "C71_inherited",
    "C71_history",
    "C71_reset",
    "C71_histogram",
    "C71_float",
    "C71_mixed",
    "C71_file",
    "C71_stale_refuted"
   ],
   "note": "Stale image statistics"
  },
  {
   "property": "C72",
   "status": "proved",
   "theorems": [
    "C72_kept",
    "C72_count",
    "C72_loaded",
    "C72_refused",
    "C72_backwards",
    "C72_folder"
   ],
   "note": "Projection reduction script"
  },
  {
   "property": "C73",
   "status": "proved",
   "theorems": [
    "C73_crop",
    "C73_square",
    "C73_not_a_box",
    "C73_unnamed",
    "C73_factors"
   ],
   "note": "Volume crop script"
  },
  {
   "property": "C74",
   "status": "proved",
   "theorems": [
    "C74_loaded",
    "C74_thick",
    "C74_none",
    "C74_wrong_size"
   ],
   "note": "Stack combination script"
  },
  {
   "property": "C75",
   "status": "proved",
   "theorems": [
    "C75_rows",
    "C75_copied_rows",
    "C75_three"
   ],
   "note": "Pair list script"
  },
  {
   "property": "C76",
   "status": "proved",
   "theorems": [
    "C76_missing",
    "C76_found",
    "C76_attribute",
    "C76_flag",
    "C76_deps"
   ],
   "note": "Optional imports"
  },
  {
   "property": "C77",
   "status": "proved",
   "theorems": [
    "C77_ramp_response",
    "C77_all_kernels",
    "C77_xyz_blind",
    "C77_diagonal_refuted"
   ],
   "note": "Gradient kernels measure slopes"
  },
  {
   "property": "C78",
   "status": "proved",
   "theorems": [
    "C78_uniform_reference",
    "C78_first_half",
    "C78_constant_deviates"
   ],
   "note": "The masking deviation is taken over real and imaginary parts"
  },
  {
   "property": "C79",
   "status": "proved",
   "theorems": [
    "C79_detection",
    "C79_mad",
    "C79_appearance"
   ],
   "note": "MAD without blocks is 0"
  },
  {
   "property": "C80",
   "status": "proved",
   "theorems": [
    "C80_symmetric",
    "C80_weights",
    "C80_no_orientation",
    "C80_value"
   ],
   "note": "MAD appearance index is symmetric"
  },
  {
   "property": "C81",
   "status": "proved",
   "theorems": [
    "C81_plane",
    "C81_slice",
    "C81_volume"
   ],
   "note": "Chromatic mode of the slice-wise metrics"
  },
  {
   "property": "C82",
   "status": "proved",
   "theorems": [
    "C82_cubic",
    "C82_rgb",
    "C82_yuv",
    "C82_columns"
   ],
   "note": "Colour images and narrow images in SNR"
  },
  {
   "property": "C83",
   "status": "proved",
   "theorems": [
    "C83_leak"
   ],
   "note": "Keywords of a scoring call are remembered"
  },
  {
   "property": "C84",
   "status": "proved",
   "theorems": [
    "C84_type_error",
    "C84_inside",
    "C84_radius",
    "C84_small"
   ],
   "note": "Found regions lie inside the image"
  },
  {
   "property": "C85",
   "status": "proved",
   "theorems": [
    "C85_alias",
    "C85_given",
    "C85_full"
   ],
   "note": "Region type with automatic centres"
  },
  {
   "property": "C86",
   "status": "proved",
   "theorems": [
    "C86_order",
    "C86_layout_refuted",
    "C86_double"
   ],
   "note": "Q-Measure reads raw memory"
  },
  {
   "property": "C87",
   "status": "proved",
   "theorems": [
    "C87_keyword",
    "C87_keyword_multiple",
    "C87_grey",
    "C87_rejected"
   ],
   "note": "Colour images in batch and multi-metric runs"
  },
  {
   "property": "C88",
   "status": "proved",
   "theorems": [
    "C88_second_pass",
    "C88_multiple",
    "C88_batch",
    "C88_refuted",
    "C88_8_bit"
   ],
   "note": "Repeated 16-bit normalisation in batch and multi-metric runs"
  },
  {
   "property": "C89",
   "status": "proved",
   "theorems": [
    "C89_content",
    "C89_short",
    "C89_no_range",
    "C89_distinct",
    "C89_range"
   ],
   "note": "Content of the metadata file"
  },
  {
   "property": "C90",
   "status": "proved",
   "theorems": [
    "C90_turned",
    "C90_always_grey",
    "C90_colour",
    "C90_narrow"
   ],
   "note": "Comparison image: orientation and colour"
  },
  {
   "property": "C91",
   "status": "proved",
   "theorems": [
    "C91_fails",
    "C91_workflow",
    "C91_works"
   ],
   "note": "From export_results to export_image"
  },
  {
   "property": "C92",
   "status": "proved",
   "theorems": [
    "C92_before",
    "C92_before_image",
    "C92_figures",
    "C92_pairs",
    "C92_names_differ",
    "C92_no_path",
    "C92_after",
    "C92_multiple_no_image",
    "C92_export",
    "C92_multiple"
   ],
   "note": "Reports"
  },
  {
   "property": "C93",
   "status": "proved",
   "theorems": [
    "C93_scored",
    "C93_mixed_types"
   ],
   "note": "The figure shows the scored images"
  },
  {
   "property": "C94",
   "status": "proved",
   "theorems": [
    "C94_crosshair",
    "C94_negative"
   ],
   "note": "Crosshair of slice views"
  },
  {
   "property": "C95",
   "status": "proved",
   "theorems": [
    "C95_volume",
    "C95_plane",
    "C95_plane_refuted"
   ],
   "note": "Drawn regions and scored regions"
  },
  {
   "property": "C96",
   "status": "proved",
   "theorems": [
    "C96_explicit",
    "C96_stored_ignored",
    "C96_radius",
    "C96_full",
    "C96_whole",
    "C96_unhashable",
    "C96_small",
    "C96_fallback",
    "C96_short"
   ],
   "note": "SNR region display"
  },
  {
   "property": "C97",
   "status": "proved",
   "theorems": [
    "C97_cnr",
    "C97_cnr_again",
    "C97_snr",
    "C97_snr_none",
    "C97_score_kind"
   ],
   "note": "Start of set_centers"
  },
  {
   "property": "C98",
   "status": "proved",
   "theorems": [
    "C98_colour",
    "C98_grey",
    "C98_volume"
   ],
   "note": "ImageArray.visualize"
  },
  {
   "property": "C99",
   "status": "proved",
   "theorems": [
    "C99_folder",
    "C99_same_name",
    "C99_no_folder",
    "C99_argument"
   ],
   "note": "Copying in the pair list script"
  },
  {
   "property": "C100",
   "status": "proved",
   "theorems": [
    "C100_folders",
    "C100_unsigned",
    "C100_real",
    "C100_constant",
    "C100_usage"
   ],
   "note": "mat export script"
  },
  {
   "property": "C101",
   "status": "proved",
   "theorems": [
    "C101_inside",
    "C101_reflect",
    "C101_mirror",
    "C101_nearest",
    "C101_wrap",
    "C101_constant",
    "C101_unknown"
   ],
   "note": "Border modes of the windows"
  },
  {
   "property": "C102",
   "status": "proved",
   "theorems": [
    "C102_saved",
    "C102_moved",
    "C102_radius",
    "C102_refuted",
    "C102_untouched"
   ],
   "note": "CNR widgets store what they show"
  },
  {
   "property": "C103",
   "status": "proved",
   "theorems": [
    "C103_shared",
    "C103_open"
   ],
   "note": "CNR widgets share module variables"
  },
  {
   "property": "C104",
   "status": "proved",
   "theorems": [
    "C104_cnr",
    "C104_snr"
   ],
   "note": "When the sliders accept the start values"
  },
  {
   "property": "C105",
   "status": "proved",
   "theorems": [
    "C105_saved",
    "C105_radius",
    "C105_radius_2d",
    "C105_refuted"
   ],
   "note": "SNR widgets store what they show"
  },
  {
   "property": "C106",
   "status": "proved",
   "theorems": [
    "C106_thresholds",
    "C106_possible",
    "C106_reopened"
   ],
   "note": "Calculating the full region"
  },
  {
   "property": "C107",
   "status": "proved",
   "theorems": [
    "C107_stale",
    "C107_other",
    "C107_kind",
    "C107_twice"
   ],
   "note": "Which full region is saved"
  },
  {
   "property": "C108",
   "status": "proved",
   "theorems": [
    "C108_round_trip",
    "C108_weights",
    "C108_odd_real",
    "C108_even_real_refuted",
    "C108_constant",
    "C108_below_peak",
    "C108_injective",
    "C108_square",
    "C108_transposed_refuted",
    "C108_monitor"
   ],
   "note": "Weights of the contrast sensitivity filter"
  },
  {
   "property": "C109",
   "status": "proved",
   "theorems": [
    "C109_affine",
    "C109_constant",
    "C109_mean",
    "C109_errors"
   ],
   "note": "Log-Gabor responses ignore the mean"
  },
  {
   "property": "C110",
   "status": "proved",
   "theorems": [
    "C110_gain",
    "C110_blocked",
    "C110_even",
    "C110_odd",
    "C110_odd_refuted",
    "C110_range",
    "C110_mad"
   ],
   "note": "Frequencies passed by the log-Gabor filters"
  },
  {
   "property": "C111",
   "status": "proved",
   "theorems": [
    "C111_appearance",
    "C111_copy",
    "C111_mad"
   ],
   "note": "MAD does not see brightness changes and inversion"
  },
  {
   "property": "C112",
   "status": "proved",
   "theorems": [
    "C112_value",
    "C112_dark",
    "C112_uniform"
   ],
   "note": "Detection index of MAD and references that hide every distortion"
  },
  {
   "property": "C113",
   "status": "proved",
   "theorems": [
    "C113_blind",
    "C113_volume"
   ],
   "note": "MAD with data range 1 is always 0"
  },
  {
   "property": "C114",
   "status": "proved",
   "theorems": [
    "C114_round_trip",
    "C114_injective",
    "C114_long_refuted"
   ],
   "note": "Exported csv tables can be read back exactly"
  },
  {
   "property": "C115",
   "status": "proved",
   "theorems": [
    "C115_pairs",
    "C115_script"
   ],
   "note": "Batch mode reads the pairs file of write_to_csv.py, unless a name contains a quotation mark"
  },
  {
   "property": "C116",
   "status": "proved",
   "theorems": [
    "C116_line_ends",
    "C116_last_line_end",
    "C116_open_quotation",
    "C116_line_ends_refuted",
    "C116_plain",
    "C116_blanks",
    "C116_one_column",
    "C116_value_error_refuted"
   ],
   "note": "Pair files of other programs"
  },
  {
   "property": "C117",
   "status": "proved",
   "theorems": [
    "C117_round",
    "C117_order",
    "C117_again",
    "C117_text",
    "C117_digits",
    "C117_values",
    "C117_negative",
    "C117_scored",
    "C117_unscored",
    "C117_message",
    "C117_unscored_refuted",
    "C117_after_export"
   ],
   "note": "Printed scores"
  },
  {
   "property": "C118",
   "status": "proved",
   "theorems": [
    "C118_load_same",
    "C118_pair_same",
    "C118_range",
    "C118_pair",
    "C118_range_used",
    "C118_crop",
    "C118_crop_z_refuted",
    "C118_normalised",
    "C118_normalised_refuted",
    "C118_thresholds",
    "C118_thresholds_refuted",
    "C118_exponent_order",
    "C118_exponents"
   ],
   "note": "Warnings"
  },
  {
   "property": "C119",
   "status": "proved",
   "theorems": [
    "C119_piq",
    "C119_own",
    "C119_volume",
    "C119_plane",
    "C119_plane_refuted",
    "C119_refused",
    "C119_message",
    "C119_message_refuted"
   ],
   "note": "Warnings and messages about dim and im_slice"
  },
  {
   "property": "C120",
   "status": "proved",
   "theorems": [
    "C120_only_identical",
    "C120_ssim",
    "C120_uqi",
    "C120_exponent_refuted",
    "C120_window_refuted",
    "C120_negative_refuted"
   ],
   "note": "A score of 1 means identical images"
  },
  {
   "property": "C121",
   "status": "proved",
   "theorems": [
    "C121_structural_similarity",
    "C121_scores",
    "C121_rmse_psnr",
    "C121_gsm",
    "C121_gsm_refuted",
    "C121_offset_refuted"
   ],
   "note": "Scores do not depend on the unit of the grey values"
  },
  {
   "property": "C122",
   "status": "proved",
   "theorems": [
    "C122_structural_similarity",
    "C122_scores",
    "C122_pixels",
    "C122_moved_pixels",
    "C122_gsm_refuted"
   ],
   "note": "Scores do not depend on the orientation of the images"
  },
  {
   "property": "C123",
   "status": "proved",
   "theorems": [
    "C123_exact",
    "C123_rounding",
    "C123_representable",
    "C123_nearest",
    "C123_hidden_pixel",
    "C123_hidden_score",
    "C123_distortion_seen_refuted",
    "C123_contrast",
    "C123_flat",
    "C123_cast",
    "C123_one_only_if_equal_refuted"
   ],
   "note": "Single precision can hide distortions from SSIM"
  },
  {
   "property": "C124",
   "status": "proved",
   "theorems": [
    "C124_identical",
    "C124_symmetric",
    "C124_exactly_one_refuted",
    "C124_flat"
   ],
   "note": "Identical and exchanged images in single precision"
  },
  {
   "property": "C125",
   "status": "proved",
   "theorems": [
    "C125_range",
    "C125_default",
    "C125_at_most_one_refuted",
    "C125_near_one_refuted"
   ],
   "note": "Range of SSIM in single precision"
  },
  {
   "property": "C126",
   "status": "proved",
   "theorems": [
    "C126_read",
    "C126_size",
    "C126_missing",
    "C126_rmse",
    "C126_psnr",
    "C126_ssim",
    "C126_same_content",
    "C126_dims_unseen",
    "C126_three_slices",
    "C126_float_words"
   ],
   "note": "Scores of raw and mhd files"
  },
  {
   "property": "C127",
   "status": "proved",
   "theorems": [
    "C127_three_fields",
    "C127_byte_order",
    "C127_two_dims",
    "C127_local"
   ],
   "note": "Header fields the mhd reader does not look at"
  },
  {
   "property": "C128",
   "status": "proved",
   "theorems": [
    "C128_cnr",
    "C128_snr",
    "C128_auto_full",
    "C128_auto_ball",
    "C128_snr_auto_full",
    "C128_cube_refuted",
    "C128_auto_cube_refuted",
    "C128_auto_ball_refuted"
   ],
   "note": "CNR and SNR do not depend on the orientation if the centres are moved the right way"
  },
  {
   "property": "C129",
   "status": "proved",
   "theorems": [
    "C129_table",
    "C129_results_are_pairs",
    "C129_again",
    "C129_truncated",
    "C129_stopped",
    "C129_no_pairs",
    "C129_pairs_path",
    "C129_relative_refuted"
   ],
   "note": "A whole batch run, from pairs file and images to results.csv"
  },
  {
   "property": "C130",
   "status": "proved",
   "theorems": [
    "C130_unit",
    "C130_gain",
    "C130_float",
    "C130_unsigned",
    "C130_8_bit",
    "C130_gain_16_bit_refuted",
    "C130_gain_8_bit_refuted"
   ],
   "note": "Scores of normalised files"
  },
  {
   "property": "C131",
   "status": "proved",
   "theorems": [
    "C131_psnr_error",
    "C131_psnr_digits",
    "C131_psnr_8_bit",
    "C131_error",
    "C131_six_digits",
    "C131_8_bit",
    "C131_constant",
    "C131_zero",
    "C131_underflow",
    "C131_overflow",
    "C131_zero_float_refuted",
    "C131_finite_refuted",
    "C131_constant_16_bit_refuted",
    "C131_symmetric",
    "C131_sign",
    "C131_files"
   ],
   "note": "RMSE and PSNR in floating point"
  },
  {
   "property": "C132",
   "status": "proved",
   "theorems": [
    "C132_snr_error",
    "C132_cnr_error",
    "C132_constant",
    "C132_test",
    "C132_16_bit_snr",
    "C132_16_bit_cnr",
    "C132_three_voxels",
    "C132_constant_float_refuted",
    "C132_three_voxels_cnr"
   ],
   "note": "CNR and SNR in floating point"
  },
  {
   "property": "C133",
   "status": "proved",
   "theorems": [
    "C133_snr",
    "C133_delivered",
    "C133_shapes",
    "C133_columns",
    "C133_scores",
    "C133_widgets",
    "C133_files",
    "C133_slice",
    "C133_batch_pictures",
    "C133_batch_delivered",
    "C133_batch_errors",
    "C133_batch_files",
    "C133_no_pairs",
    "C133_same"
   ],
   "note": "The notebooks the README recommends"
  },
  {
   "property": "C134",
   "status": "proved",
   "theorems": [
    "C134_formula",
    "C134_lower",
    "C134_off",
    "C134_raises",
    "C134_score",
    "C134_lower_refuted"
   ],
   "note": "Exponents of SSIM"
  },
  {
   "property": "C135",
   "status": "proved",
   "theorems": [
    "C135_rmse",
    "C135_psnr",
    "C135_psnr_integer",
    "C135_psnr_unbounded",
    "C135_mad",
    "C135_mad_indices",
    "C135_cnr",
    "C135_cnr_refuted",
    "C135_snr",
    "C135_snr_refuted",
    "C135_snr_colour_refuted"
   ],
   "note": "The score ranges documented in the README table"
  },
  {
   "property": "C136",
   "status": "proved",
   "theorems": [
    "C136_load_same",
    "C136_pair_same",
    "C136_construct_same",
    "C136_ssim_same",
    "C136_mad_same",
    "C136_cnr_same",
    "C136_snr_same",
    "C136_load_texts",
    "C136_range",
    "C136_dims",
    "C136_input",
    "C136_first",
    "C136_pair",
    "C136_lists",
    "C136_shapes_refuted",
    "C136_pair_texts",
    "C136_ndim",
    "C136_construct",
    "C136_ssim",
    "C136_positive_refuted",
    "C136_mad",
    "C136_block_equal",
    "C136_cnr",
    "C136_radius_refuted",
    "C136_snr",
    "C136_normalize",
    "C136_crop",
    "C136_numbers",
    "C136_mad_weights",
    "C136_nr_first"
   ],
   "note": "Texts of the exceptions"
  },
  {
   "property": "C137",
   "status": "proved",
   "theorems": [
    "C137_tuple",
    "C137_entries",
    "C137_print",
    "C137_print_others",
    "C137_number",
    "C137_numpy",
    "C137_never",
    "C137_twice",
    "C137_itself",
    "C137_order",
    "C137_triple",
    "C137_fuse",
    "C137_one_pixel",
    "C137_no_order",
    "C137_missing_entry",
    "C137_arrays",
    "C137_pair_triple"
   ],
   "note": "SNR objects after scoring"
  },
  {
   "property": "C138",
   "status": "proved",
   "theorems": [
    "C138_history",
    "C138_calls",
    "C138_globals",
    "C138_not_plane",
    "C138_after",
    "C138_other_size",
    "C138_before",
    "C138_unset",
    "C138_refused",
    "C138_threads_same",
    "C138_threads_other",
    "C138_weights_form",
    "C138_weights_caller",
    "C138_weights_again",
    "C138_weights_lost",
    "C138_weights_ratio"
   ],
   "note": "MAD keeps its settings in module variables; results do not depend on earlier calls, but concurrent or direct calls do"
  },
  {
   "property": "C139",
   "status": "proved",
   "theorems": [
    "C139_construct",
    "C139_axes",
    "C139_axes_nr",
    "C139_no_dim",
    "C139_dim",
    "C139_ignored",
    "C139_centers",
    "C139_same_region",
    "C139_flat",
    "C139_length",
    "C139_zero",
    "C139_snr",
    "C139_psnr",
    "C139_psnr_line",
    "C139_rmse",
    "C139_rmse_line_refuted",
    "C139_ssim",
    "C139_mad"
   ],
   "note": "What the assertions of the project's test suite amount to for all images"
  },
  {
   "property": "C140",
   "status": "proved",
   "theorems": [
    "C140_rmse",
    "C140_psnr",
    "C140_ranked",
    "C140_brightness",
    "C140_gain",
    "C140_scores",
    "C140_ssim_refuted"
   ],
   "note": "Stronger distortions get worse scores: always for RMSE and PSNR, for SSIM and UQI with changes of brightness and contrast but not in general"
  },
  {
   "property": "C141",
   "status": "proved",
   "theorems": [
    "C141_raises",
    "C141_scores_raise",
    "C141_close",
    "C141_scores_close",
    "C141_close_sharp",
    "C141_limit",
    "C141_16_for_8",
    "C141_raises_refuted",
    "C141_ranking_refuted"
   ],
   "note": "A larger data_range never lowers SSIM or UQI of nonnegative images, and a far too large one makes every score almost 1"
  },
  {
   "property": "C142",
   "status": "proved",
   "theorems": [
    "C142_rmse",
    "C142_psnr",
    "C142_infinite"
   ],
   "note": "How RMSE and PSNR of a volume follow from those of its slices"
  },
  {
   "property": "C143",
   "status": "proved",
   "theorems": [
    "C143_gaussian",
    "C143_score",
    "C143_rmse_psnr",
    "C143_uniform_refuted"
   ],
   "note": "A volume of equal slices has the score of the slice, except with uniform windows"
  },
  {
   "property": "C144",
   "status": "proved",
   "theorems": [
    "C144_rmse",
    "C144_psnr",
    "C144_printed",
    "C144_invisible",
    "C144_snr_lower",
    "C144_snr_upper",
    "C144_cnr"
   ],
   "note": "Smallest and largest scores of images with integer grey values"
  },
  {
   "property": "C145",
   "status": "proved",
   "theorems": [
    "C145_agree",
    "C145_comment",
    "C145_single",
    "C145_tight",
    "C145_missing",
    "C145_last",
    "C145_lines",
    "C145_injective",
    "C145_files"
   ],
   "note": "The version found by the build and by the documentation, and the generated requirement files"
  },
  {
   "property": "C146",
   "status": "proved",
   "theorems": [
    "C146_lowered",
    "C146_raised",
    "C146_at_most_one",
    "C146_signs",
    "C146_inverted_refuted",
    "C146_falling_refuted"
   ],
   "note": "GSM and changes of contrast: monotone only if some gradient value is positive, and different for rising and falling grey values"
  },
  {
   "property": "C147",
   "status": "proved",
   "theorems": [
    "C147_gain",
    "C147_monotone",
    "C147_flat",
    "C147_flat_worst"
   ],
   "note": "The appearance index of MAD is proportional to the change of contrast, and jumps at a flat image"
  },
  {
   "property": "C148",
   "status": "proved",
   "theorems": [
    "C148_parts",
    "C148_bounds",
    "C148_psnr",
    "C148_shift",
    "C148_constant",
    "C148_cnr_snr"
   ],
   "note": "RMSE is made of brightness, contrast and structure; CNR is SNR of the background times the relative contrast"
  },
  {
   "property": "C149",
   "status": "proved",
   "theorems": [
    "C149_mean",
    "C149_bounds",
    "C149_diluted",
    "C149_special",
    "C149_error",
    "C149_empty"
   ],
   "note": "What the MAD and GSM score of a volume says about its slices"
  },
  {
   "property": "C150",
   "status": "proved",
   "theorems": [
    "C150_flat_pixels",
    "C150_unseen",
    "C150_same_gradients",
    "C150_orientation"
   ],
   "note": "GSM sees neither pixels without gradient nor the direction of edges"
  },
  {
   "property": "C151",
   "status": "proved",
   "theorems": [
    "C151_monotone",
    "C151_unanimous",
    "C151_psnr_rmse",
    "C151_both_positive_refuted"
   ],
   "note": "Ranking images with fused scores: right exactly if the signs of the weights match the metrics"
  },
  {
   "property": "C152",
   "status": "proved",
   "theorems": [
    "C152_exact",
    "C152_convex",
    "C152_psnr",
    "C152_average",
    "C152_many",
    "C152_many_bound",
    "C152_noise"
   ],
   "note": "RMSE and PSNR of averaged images"
  },
  {
   "property": "C153",
   "status": "proved",
   "theorems": [
    "C153_rmse",
    "C153_psnr",
    "C153_sharp"
   ],
   "note": "RMSE and PSNR along a chain of processing steps"
  },
  {
   "property": "C154",
   "status": "proved",
   "theorems": [
    "C154_snr",
    "C154_cnr",
    "C154_noise",
    "C154_cancel_refuted"
   ],
   "note": "SNR and CNR of averaged images: never below the worse image unless the noise cancels, which gives 0"
  }
 ]
}