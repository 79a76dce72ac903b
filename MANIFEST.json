{
 "claims": [
  {
   "property": "C01",
   "status": "proved",
   "theorems": [
    "C01_offset_in_range",
    "C01_offset_injective",
    "C01_offset_surjective",
    "C01_offset_order"
   ],
   "note": "Sizes are unbounded naturals."
  },
  {
   "property": "C02",
   "status": "proved",
   "theorems": [
    "C02_reshape_succeeds_iff",
    "C02_reshape_keeps_elements",
    "C02_reshape_failure_changes_nothing",
    "C02_resize_shape",
    "C02_resize_preserves_data",
    "C02_history_wf"
   ],
   "note": ""
  },
  {
   "property": "C03",
   "status": "proved",
   "theorems": [
    "C03_transpose",
    "C03_transpose_twice",
    "C03_transpose_without_memory"
   ],
   "note": ""
  },
  {
   "property": "C04",
   "status": "proved",
   "theorems": [
    "C04_serialize_roundtrip",
    "C04_header_only",
    "C04_mapped_roundtrip",
    "C04_serialize_injective"
   ],
   "note": "Bit patterns of floats; sizes below 2^64. Wrap-around of the size product on malformed headers is outside this property. The 8-bit convert mode of Serialize is not part of it."
  },
  {
   "property": "C05",
   "status": "proved",
   "theorems": [
    "C05_copy_sample",
    "C05_copy_map",
    "C05_copy_map_failure"
   ],
   "note": "A source without maps makes CopySample report success even for sample numbers that do not exist; the theorem therefore assumes at least one map."
  },
  {
   "property": "C06",
   "status": "proved",
   "theorems": [
    "C06_pixel_maximum",
    "C06_maximum",
    "C06_abs_maximum",
    "C06_answer_unique"
   ],
   "note": ""
  },
  {
   "property": "C07",
   "status": "proved",
   "theorems": [
    "C07_safe",
    "C07_ownership",
    "C07_all_released",
    "C07_shadow_releases_nothing",
    "C07_resize_value",
    "C07_new_value",
    "C07_map_value",
    "C07_mapping_pages",
    "C07_move",
    "C07_copy",
    "C07_shadow_shares",
    "C07_write_shared",
    "C07_moved_shadow_refuted",
    "C07_moved_mapping_refuted",
    "C07_remapped_refuted",
    "C07_empty_shadow_refuted",
    "C07_stale_shadow_refuted",
    "C07_mapping_tail_refuted"
   ],
   "note": "Heap of numbered blocks; double release, release with the wrong function and access to released memory are UB. Values refine Tensor_Model (C07_resize_value, C07_new_value, C07_copy, C07_map_value, C07_move). Six refutations for unsupported uses. The preallocated/dont_delete form of Resize used by CompressedTensorStream is not part of the histories."
  },
  {
   "property": "C08",
   "status": "proved",
   "theorems": [
    "C08_clear_all",
    "C08_clear_sample"
   ],
   "note": ""
  },
  {
   "property": "C09",
   "status": "proved",
   "theorems": [
    "C09_roundtrip",
    "C09_roundtrip_identical",
    "C09_bit_identity_refuted",
    "C09_huge_tensors_refuted"
   ],
   "note": "Proved for tensors below 2^29 elements. Two findings are proved as refutations: zeros of both signs may lose their sign, and tensors of 2^30 elements or more cannot be decompressed (32-bit byte counter)."
  },
  {
   "property": "C10",
   "status": "proved",
   "theorems": [
    "C10_output_size",
    "C10_compress_stays_in_buffer"
   ],
   "note": ""
  },
  {
   "property": "C11",
   "status": "proved",
   "theorems": [
    "C11_decoder_outcome",
    "C11_decompressed_size",
    "C11_output_check_refuted"
   ],
   "note": "Complete case analysis of all byte sequences below 2^32 bytes; the missing output bound check is proved as a refutation."
  },
  {
   "property": "C12",
   "status": "proved",
   "theorems": [
    "C12_compressed_file_loads",
    "C12_compression_tool",
    "C12_empty_entry"
   ],
   "note": ""
  },
  {
   "property": "C13",
   "status": "proved",
   "theorems": [
    "C13_float_file_loads",
    "C13_file_kind",
    "C13_float_file_misread_iff"
   ],
   "note": ""
  },
  {
   "property": "C14",
   "status": "proved",
   "theorems": [
    "C14_copy_sample",
    "C14_request_history",
    "C14_missing_target_sample_refuted"
   ],
   "note": "Out-of-range target samples are proved to be a memory error in the fast path (refutation)."
  },
  {
   "property": "C15",
   "status": "proved",
   "theorems": [
    "C15_history",
    "C15_update_ignored",
    "C15_initialize",
    "C15_update_recorded",
    "C15_wrong_phase_ignored",
    "C15_late_registration_refuted"
   ],
   "note": ""
  },
  {
   "property": "C16",
   "status": "proved",
   "theorems": [
    "C16_reports",
    "C16_snapshot"
   ],
   "note": ""
  },
  {
   "property": "C17",
   "status": "proved",
   "theorems": [
    "C17_feed_forward",
    "C17_feed_forward_selected",
    "C17_initialize_order",
    "C17_cycle_refuted",
    "C17_outside_node_refuted"
   ],
   "note": ""
  },
  {
   "property": "C18",
   "status": "proved",
   "theorems": [
    "C18_back_propagate",
    "C18_weights_order",
    "C18_built_network"
   ],
   "note": ""
  },
  {
   "property": "C19",
   "status": "proved",
   "theorems": [
    "C19_accumulation_nodes",
    "C19_same_data",
    "C19_second_output_refuted",
    "C19_gradient_sum"
   ],
   "note": ""
  },
  {
   "property": "C20",
   "status": "proved",
   "theorems": [
    "C20_load",
    "C20_restore",
    "C20_restore_prefix",
    "C20_restore_up_to",
    "C20_empty_file_refuted"
   ],
   "note": ""
  },
  {
   "property": "C21",
   "status": "proved",
   "theorems": [
    "C21_history",
    "C21_refused",
    "C21_built",
    "C21_user_name_collision_refuted"
   ],
   "note": ""
  },
  {
   "property": "C22",
   "status": "proved",
   "theorems": [
    "C22_is_complete",
    "C22_outside_node_accepted",
    "C22_missing_layer_refuted"
   ],
   "note": ""
  },
  {
   "property": "C23",
   "status": "proved",
   "theorems": [
    "C23_gradient_descent",
    "C23_history",
    "C23_real_rule",
    "C23_new_trainer"
   ],
   "note": ""
  },
  {
   "property": "C24",
   "status": "proved",
   "theorems": [
    "C24_schedule",
    "C24_counter_wrap_refuted"
   ],
   "note": ""
  },
  {
   "property": "C25",
   "status": "proved",
   "theorems": [
    "C25_epoch",
    "C25_train",
    "C25_iterations",
    "C25_iterations_refuted"
   ],
   "note": ""
  },
  {
   "property": "C26",
   "status": "proved",
   "theorems": [
    "C26_resume",
    "C26_history_cleared"
   ],
   "note": ""
  },
  {
   "property": "C27",
   "status": "proved",
   "theorems": [
    "C27_passes",
    "C27_outputs"
   ],
   "note": ""
  },
  {
   "property": "C28",
   "status": "proved",
   "theorems": [
    "C28_test_run",
    "C28_each_once",
    "C28_filler_weights",
    "C28_empty_test_set_refuted"
   ],
   "note": ""
  },
  {
   "property": "C29",
   "status": "proved",
   "theorems": [
    "C29_loss_sampling",
    "C29_training_slot"
   ],
   "note": ""
  },
  {
   "property": "C30",
   "status": "proved",
   "theorems": [
    "C30_dimensions",
    "C30_maps",
    "C30_accepts",
    "C30_all_images",
    "C30_test_images_refuted",
    "C30_wrap_refuted"
   ],
   "note": "The first test images (as many as there are training images) are ignored and sizes just below 2^32 wrap to zero: both proved as refutations."
  },
  {
   "property": "C31",
   "status": "proved",
   "theorems": [
    "C31_large_test_image_refuted",
    "C31_training_sample",
    "C31_testing_sample",
    "C31_out_of_range",
    "C31_provides"
   ],
   "note": ""
  },
  {
   "property": "C32",
   "status": "proved",
   "theorems": [
    "C32_pairs",
    "C32_enumeration",
    "C32_counts",
    "C32_training_sample",
    "C32_testing_sample_equal_counts",
    "C32_wrong_test_patch_refuted",
    "C32_read_behind_table_refuted",
    "C32_small_image_refuted"
   ],
   "note": "The property is about training indices. For test indices the analogous statement is proved when both sets have the same number of patches and refuted otherwise (wrong patch, or a read behind the table). Images smaller than the patch wrap the counts (refuted)."
  },
  {
   "property": "C33",
   "status": "proved",
   "theorems": [
    "C33_one_hot",
    "C33_one_class",
    "C33_image",
    "C33_out_of_range",
    "C33_no_result_refuted",
    "C33_matches",
    "C33_at_most_one",
    "C33_one_class_value"
   ],
   "note": "A successful CopySample has no return value (proved as a refutation); the effect on the target is what the theorem describes."
  },
  {
   "property": "C34",
   "status": "proved",
   "theorems": [
    "C34_gemm",
    "C34_gemm_exact",
    "C34_column_major_refused",
    "C34_gemv"
   ],
   "note": ""
  },
  {
   "property": "C35",
   "status": "proved",
   "theorems": [
    "C35_connected",
    "C35_forward",
    "C35_forward_rounded",
    "C35_dropout_refused"
   ],
   "note": ""
  },
  {
   "property": "C36",
   "status": "proved",
   "theorems": [
    "C36_patch_extraction",
    "C36_gradient",
    "C36_adjoint",
    "C36_tall_refuted",
    "C36_padding_refuted",
    "C36_out_of_bounds_refuted"
   ],
   "note": ""
  },
  {
   "property": "C37",
   "status": "proved",
   "theorems": [
    "C37_swap",
    "C37_involution"
   ],
   "note": ""
  },
  {
   "property": "C38",
   "status": "proved",
   "theorems": [
    "C38_upscale",
    "C38_downsample",
    "C38_average_of_upscaled",
    "C38_adjoint",
    "C38_upscale_layer",
    "C38_downsampling_layer",
    "C38_downsampling_no_gradient"
   ],
   "note": ""
  },
  {
   "property": "C39",
   "status": "proved",
   "theorems": [
    "C39_accepts",
    "C39_pooling",
    "C39_first_max",
    "C39_nan_refuted"
   ],
   "note": ""
  },
  {
   "property": "C40",
   "status": "proved",
   "theorems": [
    "C40_create",
    "C40_pooling",
    "C40_zero_stride_refuted",
    "C40_window_refuted",
    "C40_large_refuted"
   ],
   "note": ""
  },
  {
   "property": "C41",
   "status": "proved",
   "theorems": [
    "C41_concat_accepts",
    "C41_concat_forward",
    "C41_concat_backward",
    "C41_concat_mismatch_refuted",
    "C41_sum_accepts",
    "C41_sum_forward",
    "C41_sum_backward",
    "C41_sum_mismatch_refuted",
    "C41_border_forward",
    "C41_border_backward",
    "C41_border_disabled",
    "C41_prior_forward",
    "C41_prior_backward"
   ],
   "note": ""
  },
  {
   "property": "C42",
   "status": "proved",
   "theorems": [
    "C42_sigmoid",
    "C42_tanh",
    "C42_rectifier",
    "C42_rectifier_closed",
    "C42_connect",
    "C42_create"
   ],
   "note": "Over the real numbers, on whole tensors. The rectifier has no derivative at 0; there the layer passes no gradient (C42_rectifier_closed)."
  },
  {
   "property": "C43",
   "status": "proved",
   "theorems": [
    "C43_loss",
    "C43_gradient",
    "C43_zero_weight",
    "C43_zero_weight_gradient",
    "C43_nonnegative",
    "C43_exact",
    "C43_shape_refuted",
    "C43_weights_refuted"
   ],
   "note": "Over the real numbers. Findings: Connect compares element counts only, so differently shaped labels (C43_shape_refuted) and weights of any size (C43_weights_refuted) are accepted and read out of bounds."
  },
  {
   "property": "C44",
   "status": "proved",
   "theorems": [
    "C44_constructor",
    "C44_accepts",
    "C44_window_inside",
    "C44_create_outputs_refuted",
    "C44_groups_refuted"
   ],
   "note": ""
  },
  {
   "property": "C45",
   "status": "proved",
   "theorems": [
    "C45_characters",
    "C45_valid",
    "C45_parse_unique",
    "C45_extract",
    "C45_reassemble",
    "C45_group_unique",
    "C45_construct"
   ],
   "note": "Validity, extraction and construction proved for all strings against an independent grammar; std::regex is modelled as POSIX matching (derivatives), and C45_group_unique shows that captures do not depend on the matching strategy."
  },
  {
   "property": "C46",
   "status": "proved",
   "theorems": [
    "C46_invalid_unchanged",
    "C46_valid",
    "C46_inject",
    "C46_override",
    "C46_read_back",
    "C46_inject_refuted",
    "C46_text_seed_refuted",
    "C46_large_seed_refuted"
   ],
   "note": "Proved for all valid descriptors in which only the parameter seed ends in 'seed' and its value is a number (tidy); validity, type and overriding hold for every descriptor. Refutations: a(xseed=5) is overwritten, a(seed=x) keeps its old seed in front, seeds above 2^31-1 cannot be read back."
  },
  {
   "property": "C47",
   "status": "proved",
   "theorems": [
    "C47_absent",
    "C47_string",
    "C47_count",
    "C47_datum",
    "C47_kernel_size",
    "C47_cases",
    "C47_descriptor",
    "C47_setting",
    "C47_setting_absent",
    "C47_suffix_refuted",
    "C47_size_without_x_refuted",
    "C47_name_with_x_refuted",
    "C47_bare_setting_refuted",
    "C47_longer_setting_refuted"
   ],
   "note": "Every line and name: value of the first name= up to the next space, unchanged without one; numbers that fit into int, AxB sizes, settings at line starts, parameters of descriptors. Refutations for names that are suffixes of other names, sizes without x, names with x, bare identifiers and longer words."
  },
  {
   "property": "C48",
   "status": "proved",
   "theorems": [
    "C48_layers",
    "C48_exact",
    "C48_reported",
    "C48_patch",
    "C48_fcn",
    "C48_manual",
    "C48_manual_ignored",
    "C48_range",
    "C48_overflow_refuted",
    "C48_window",
    "C48_window_general",
    "C48_window_refuted",
    "C48_missing_size_refuted",
    "C48_factor_wraps_refuted"
   ],
   "note": "Proved from the text of the configuration file to the sizes accepted by the layer models; machine int overflow is a stated precondition. The original reading (patch size = dependency window) is refuted for strided convolutions (C48_window_refuted) and proved for the remaining case (C48_window); C48_window_general gives the exact difference."
  },
  {
   "property": "C49",
   "status": "proved",
   "theorems": [
    "C49_counts",
    "C49_row_sums",
    "C49_column_sums",
    "C49_trace",
    "C49_grand_total",
    "C49_consistent",
    "C49_order_independent",
    "C49_order_with_rounding_refuted",
    "C49_rates",
    "C49_rates_in_range",
    "C49_nothing_to_report",
    "C49_reset",
    "C49_reset_before_connect_refuted"
   ],
   "note": "Counts hold for any arithmetic (rounding included); sums, order independence and rates in exact arithmetic. Findings: Reset before Connect writes through null pointers; with rounding the totals depend on the order of the pixels."
  },
  {
   "property": "C50",
   "status": "proved",
   "theorems": [
    "C50_counts",
    "C50_no_threshold_rejected",
    "C50_partition",
    "C50_monotone",
    "C50_monotone_real",
    "C50_monotone_float",
    "C50_default_thresholds",
    "C50_best_threshold",
    "C50_update_total_refuted",
    "C50_report",
    "C50_report_exists",
    "C50_thresholds"
   ],
   "note": "Counts for any arithmetic; the partition in exact arithmetic; monotonicity in the reals and for float addition with rounding. Finding: UpdateAll reads out of bounds when F1 is 0/0 at every threshold. The third (weight) tensor must have at least as many elements as the first; Connect checks only its samples."
  },
  {
   "property": "C51",
   "status": "proved",
   "theorems": [
    "C51_strongest_class",
    "C51_single_class",
    "C51_negative_outputs_refuted"
   ],
   "note": "Colorize over binary32 patterns, any number of classes and colours. Refuted: if no output is positive, class 0 is painted although another output is larger."
  },
  {
   "property": "C52",
   "status": "proved",
   "theorems": [
    "C52_byte",
    "C52_order",
    "C52_png_loaded",
    "C52_png16_loaded",
    "C52_png_round_trip",
    "C52_png_refused",
    "C52_jpg_loaded",
    "C52_jpg_round_trip",
    "C52_jpg_grey_refuted",
    "C52_out_of_range_refuted",
    "C52_png_buffer",
    "C52_png_big_refuted",
    "C52_ushort",
    "C52_uchar",
    "C52_order16"
   ],
   "note": "Float arithmetic is the standard library's SpecFloat with 24 digits. libpng and libjpeg themselves are not modelled; JPG is about the scan lines handed to and received from libjpeg."
  },
  {
   "property": "C53",
   "status": "proved",
   "theorems": [
    "C53_patches",
    "C53_mean",
    "C53_labels",
    "C53_large_patch_refuted",
    "C53_label_centre_refuted",
    "C53_position"
   ],
   "note": "ExtractPatches and ExtractLabels with the address arithmetic of data_ptr_const modulo 2^64; positions of patches within 2^-23 of the exact quotient. Refuted: larger patches read outside the image; the label is not that of the centre."
  },
  {
   "property": "C54",
   "status": "proved",
   "theorems": [
    "C54_parameters",
    "C54_counts",
    "C54_layer",
    "C54_verdict",
    "C54_quotient",
    "C54_nan_refuted",
    "C54_stride_refuted"
   ],
   "note": "Passes are oracles on an arbitrary world; counters unbounded. Findings: NaN ratios count as okay (C54_nan_refuted), skip_weights = 2^32-1 never terminates (C54_stride_refuted)."
  },
  {
   "property": "C55",
   "status": "proved",
   "theorems": [
    "C55_bounds",
    "C55_values",
    "C55_defined",
    "C55_upper_rows",
    "C55_region",
    "C55_wide_refuted"
   ],
   "note": "binary32/binary64 arithmetic modelled with SpecFloat and related to Flocq; pow(q,2.0) is taken as q*q. Finding: undefined conversion for very wide images (C55_wide_refuted)."
  },
  {
   "property": "C56",
   "status": "proved",
   "theorems": [
    "C56_terminates",
    "C56_loop",
    "C56_shared_element_refuted",
    "C56_gemm",
    "C56_gemv",
    "C56_im2col",
    "C56_add",
    "C56_activation_forward",
    "C56_activation_backward",
    "C56_softmax_forward",
    "C56_softmax_backward",
    "C56_accumulate",
    "C56_pooling_forward",
    "C56_pooling_backward",
    "C56_strided_pooling_forward",
    "C56_strided_pooling_backward",
    "C56_concat_forward",
    "C56_concat_backward",
    "C56_border_forward",
    "C56_border_backward",
    "C56_prior_forward",
    "C56_prior_backward",
    "C56_lrn_forward",
    "C56_lrn_backward",
    "C56_sample_weights",
    "C56_binary_stat"
   ],
   "note": "Threads interleave at the level of single reads and single writes of elements (read-modify-write is two steps). For every OpenMP loop of the library except the one in BinaryStatLayer (C50) and the OpenCL build: no data race, no fault, no stuck state, and every finished execution has the memory of the sequential loop. Each theorem assumes that the sequential loop succeeds (C34-C43, C57 prove when it does). Backward max pooling assumes recorded positions inside the image, which the forward pass records (C39). LRN assumes height <= width as C57 does. A refutation shows why disjointness is needed."
  },
  {
   "property": "C57",
   "status": "proved",
   "theorems": [
    "C57_neighbourhood",
    "C57_forward",
    "C57_backward",
    "C57_wide_refuted",
    "C57_tall_refuted"
   ],
   "note": ""
  },
  {
   "property": "C58",
   "status": "proved",
   "theorems": [
    "C58_stacks",
    "C58_balanced",
    "C58_push",
    "C58_pop",
    "C58_brackets",
    "C58_connected",
    "C58_chain",
    "C58_network",
    "C58_registered",
    "C58_complete",
    "C58_output",
    "C58_unchecked_stack_refuted",
    "C58_second_output_refuted",
    "C58_group_zero_refuted",
    "C58_layers",
    "C58_no_neurons"
   ],
   "note": "AddLayers over strings: every line, both stacks, final upscaling, loss layers; the layers of the network are exactly those the text describes, in order, with their parameters (C58_layers); defined behaviour iff stack limits are kept; a fully connected layer without a number of neurons is refused (C58_no_neurons); exact inputs of every layer; resulting graph satisfies the hypotheses of C17-C19 and C22. Values of datum parameters are read by an arbitrary function. Refuted: unchecked stacks, second output upscaled twice, group=0."
  },
  {
   "property": "C59",
   "status": "proved",
   "theorems": [
    "C59_load_png",
    "C59_load_jpg",
    "C59_write_png",
    "C59_write_jpg",
    "C59_unsupported",
    "C59_tensor_refuted",
    "C59_refused_png_refuted",
    "C59_lost_jpg_refuted",
    "C59_round_trip"
   ],
   "note": "Coders are parameters (their pixel loops are C52, the tensor format C04). Findings: .Tensor and .jpeg names never work (C59_tensor_refuted); refused PNGs leave an empty file and report success; unopenable JPG files are not reported."
  },
  {
   "property": "C60",
   "status": "partial",
   "theorems": [
    "C60_forward",
    "C60_input_partial",
    "C60_weights_partial",
    "C60_weights_refuted",
    "C60_sparsity_partial",
    "C60_sparsity_refuted"
   ],
   "note": "The full statement is false of the code. Proved: the input's gradient without sparsity weight. Findings: the parameters' gradients ignore the gradients of the outputs (C60_weights_refuted); the sparsity term lacks the factor a (C60_sparsity_refuted)."
  },
  {
   "property": "C61",
   "status": "proved",
   "theorems": [
    "C61_quickprop_update",
    "C61_quickprop_step_bounded",
    "C61_initial_step_refuted"
   ],
   "note": ""
  },
  {
   "property": "C62",
   "status": "proved",
   "theorems": [
    "C62_test",
    "C62_covers_test_set"
   ],
   "note": ""
  },
  {
   "property": "C63",
   "status": "proved",
   "theorems": [
    "C63_pairs",
    "C63_alternating",
    "C63_load_files",
    "C63_empty_directory_refuted"
   ],
   "note": ""
  },
  {
   "property": "C64",
   "status": "proved",
   "theorems": [
    "C64_backward",
    "C64_transpose"
   ],
   "note": ""
  },
  {
   "property": "C65",
   "status": "proved",
   "theorems": [
    "C65_softmax",
    "C65_rows_refuted",
    "C65_backward_identity",
    "C65_backward_refuted"
   ],
   "note": "Over the real numbers, for one row and one map. Findings: other rows and maps are never written (C65_rows_refuted); the backward pass is the identity, not the derivative (C65_backward_refuted)."
  },
  {
   "property": "C66",
   "status": "proved",
   "theorems": [
    "C66_resize",
    "C66_reshape",
    "C66_offset",
    "C66_wrap_refuted"
   ],
   "note": "Relates the unbounded sizes of the other models to std::size_t. Finding: sizes in a file header wrap unnoticed (C66_wrap_refuted)."
  },
  {
   "property": "C67",
   "status": "proved",
   "theorems": [
    "C67_settings",
    "C67_number",
    "C67_bare_refuted",
    "C67_large_number_refuted"
   ],
   "note": "Number parsing of datum values is a parameter; counts use the model of atoi. Findings: a key without value (C67_bare_refuted), numbers above INT_MAX (C67_large_number_refuted)."
  },
  {
   "property": "C68",
   "status": "proved",
   "theorems": [
    "C68_large_color",
    "C68_config",
    "C68_counts",
    "C68_sources",
    "C68_patch_sources",
    "C68_testing_descriptor_refuted",
    "C68_default_error_refuted",
    "C68_weights_twice_refuted",
    "C68_colors_first_refuted"
   ],
   "note": "Conversion of weights to float and the opening of files are parameters. Findings: mapped test tensors use a descriptor of the training file (C68_testing_descriptor_refuted), default after kitti keeps KITTI, weights given twice, colors before classes."
  },
  {
   "property": "C69",
   "status": "proved",
   "theorems": [
    "C69_byte",
    "C69_monotone",
    "C69_raw",
    "C69_range_refuted"
   ],
   "note": "Values are real numbers represented by binary32 patterns (Flocq). Finding: values outside [-1, 1] have no defined byte (C69_range_refuted)."
  },
  {
   "property": "C70",
   "status": "proved",
   "theorems": [
    "C70_classify",
    "C70_classify_one",
    "C70_prior",
    "C70_tall_refuted",
    "C70_one_pixel_refuted"
   ],
   "note": "The network is an arbitrary function of the shown tensors. Findings: padded height above the padded width with a height that is no multiple of 8 writes outside memory (C70_tall_refuted); images one pixel wide or high have NaN positions (C70_one_pixel_refuted)."
  },
  {
   "property": "C71",
   "status": "proved",
   "theorems": [
    "C71_stream_file",
    "C71_compressed_file",
    "C71_same_as_lists",
    "C71_direct_gray_refuted"
   ],
   "note": "Image decoding is a parameter. Finding: direct RGB labels from one-channel images read outside memory (C71_direct_gray_refuted)."
  },
  {
   "property": "C72",
   "status": "proved",
   "theorems": [
    "C72_keeps_first",
    "C72_kept_load",
    "C72_interrupted",
    "C72_interrupted_refuted",
    "C72_missing_file_refuted",
    "C72_session",
    "C72_extract",
    "C72_write_back_refuted",
    "C72_end_of_input_refuted"
   ],
   "note": "Findings: while it rewrites, tensorStreamTool passes through an empty file (C72_interrupted_refuted); a missing file or the end of the input never ends the programs; writing back keeps only one tensor of a stream (C72_write_back_refuted)."
  },
  {
   "property": "C73",
   "status": "proved",
   "theorems": [
    "C73_table",
    "C73_no_experiment",
    "C73_unwritable_refuted",
    "C73_non_ascii_refuted",
    "C73_same_name_refuted"
   ],
   "note": "Printing of numbers is a parameter that yields neither comma nor newline. Findings: a file that cannot be opened (C73_unwritable_refuted), descriptions with characters above 127 (C73_non_ascii_refuted), equal column names (C73_same_name_refuted)."
  },
  {
   "property": "C74",
   "status": "proved",
   "theorems": [
    "C74_lines",
    "C74_epoch_range",
    "C74_same_parameters",
    "C74_reports",
    "C74_looking",
    "C74_files",
    "C74_load",
    "C74_set_epoch",
    "C74_reset",
    "C74_save_load",
    "C74_tstat",
    "C74_train_split",
    "C74_runs",
    "C74_script",
    "C74_end_of_input_refuted",
    "C74_script_lines",
    "C74_test_epoch_refuted",
    "C74_fcn_momentum_refuted",
    "C74_other_sizes_refuted",
    "C74_graph_file_refuted",
    "C74_set_epoch_default_refuted"
   ],
   "note": "Passes through the networks, initialisation, reading and writing parameter files, clock and number of weights are parameters of the model. Findings: tests are reported under the wrong epoch (C74_test_epoch_refuted), FCN mode forgets the momentum between trainings (C74_fcn_momentum_refuted), end of input loops for ever (C74_end_of_input_refuted), files of other networks (C74_other_sizes_refuted), graph of the wrong network (C74_graph_file_refuted), unreadable epoch numbers (C74_set_epoch_default_refuted)."
  },
  {
   "property": "C75",
   "status": "proved",
   "theorems": [
    "C75_gradient",
    "C75_each_parameter",
    "C75_built",
    "C75_sigmoid",
    "C75_tanh",
    "C75_rectifier",
    "C75_sum",
    "C75_concat",
    "C75_loss",
    "C75_convolution",
    "C75_border",
    "C75_prior",
    "C75_upscale",
    "C75_pooling",
    "C75_strided_pooling",
    "C75_normalization",
    "C75_network",
    "C75_unused_output_refuted"
   ],
   "note": "Over the real numbers. A layer is given by what it does to the memory of the network; C75_gradient composes layers that obey the chain rule, C75_built adds the accumulation nodes Initialize inserts. C75_sigmoid to C75_normalization show that the modelled layers obey it; pooling where every region has one largest element, normalization for square images. C75_network: networks of these layers, with nothing assumed about the layers beyond matching shapes; the non-vacuity example has a shared output, a normalization and a statistics layer. C75_unused_output_refuted: outputs nobody asks for their gradient."
  },
  {
   "property": "C76",
   "status": "proved",
   "theorems": [
    "C76_iteration",
    "C76_descent"
   ],
   "note": "Over the real numbers. The trainer of C23/C25 run on the networks of C75: the pass is FeedForward, losses, BackPropagate on the memory of the network. C76_iteration gives every parameter after an iteration in terms of the derivative of the loss the network reports; C76_descent the decrease of the loss. Away from kinks (inputs 0 of a rectifier, ties of a pooling). The samples of a pass are given by its number."
  },
  {
   "property": "C77",
   "status": "proved",
   "theorems": [
    "C77_counts",
    "C77_table",
    "C77_reweighted",
    "C77_ignoring_weights_refuted",
    "C77_weights_twice_refuted"
   ],
   "note": "long doubles are real numbers. C77_counts (what is counted), C77_table (shares and corrections), C77_reweighted (corrections balance, exact arithmetic). Findings: the table that ignores weights does not (C77_ignoring_weights_refuted), the other one applies them twice (C77_weights_twice_refuted)."
  },
  {
   "property": "C78",
   "status": "proved",
   "theorems": [
    "C78_same_network",
    "C78_same_layers",
    "C78_same_parameters",
    "C78_mentioned_flatten_refuted",
    "C78_sizes",
    "C78_parameters"
   ],
   "note": "The layers of AddLayers and their sizes; sizes without upper limit. C78_same_network (accepted together, complete together, same connections), C78_same_layers, C78_same_parameters. C78_sizes and C78_parameters: the sizes used here are those of the models of the layers themselves. Lines in which the word flatten occurs without asking for that layer are excluded: C78_mentioned_flatten_refuted."
  },
  {
   "property": "C79",
   "status": "proved",
   "theorems": [
    "C79_whole_images",
    "C79_patches",
    "C79_thin_kernels_refuted"
   ],
   "note": "C79_whole_images and C79_patches: layers, inputs and sizes end to end, the size of the output is unique. Configurations without stack commands, one output line, padding less than the kernel (as in C48), no layer that resizes behind a spatial prior. C79_thin_kernels_refuted: kernels in one direction only."
  },
  {
   "property": "C80",
   "status": "proved",
   "theorems": [
    "C80_initial_weights",
    "C80_forgets",
    "C80_bounded",
    "C80_reset_refuted",
    "C80_seed_refuted"
   ],
   "note": "C80_initial_weights: which weights are drawn, with which range, from which engine, and what stays. C80_forgets: independence of earlier weights and gains. C80_bounded: the bound over the reals. C80_reset_refuted: biases survive reset. C80_seed_refuted: seed of a descriptor ignored."
  },
  {
   "property": "C81",
   "status": "proved",
   "theorems": [
    "C81_statistics",
    "C81_rates",
    "C81_dataset",
    "C81_loss_refuted",
    "C81_every_pass"
   ],
   "note": "C81_statistics: the matrix after a test, for any arithmetic in which zero is neutral. C81_rates: the reported rates over the reals, and readiness for the next test. C81_dataset: datasets deliver their test set. The network is any function that treats samples independently. C81_loss_refuted: the test loss is averaged over fillers."
  },
  {
   "property": "C82",
   "status": "proved",
   "theorems": [
    "C82_input",
    "C82_activation",
    "C82_sum",
    "C82_concatenation",
    "C82_border",
    "C82_prior",
    "C82_upscale",
    "C82_pooling",
    "C82_strided_pooling",
    "C82_normalization",
    "C82_convolution",
    "C82_testing_convolution",
    "C82_accumulation",
    "C82_network",
    "C82_computes"
   ],
   "note": "One theorem per layer, C82_network for the whole graph, C82_computes: the network with batch size b computes what it computes with batch size 1, which is the hypothesis of C81. Any numbers, floats included. Matrix products are the loops of TensorMath.cpp; a BLAS or OpenCL product may add in another order for another batch size. Softmax, HMax, sparsity and dropout in training mode are not covered."
  },
  {
   "property": "C83",
   "status": "proved",
   "theorems": [
    "C83_loss",
    "C83_gradient",
    "C83_training"
   ],
   "note": "C83_loss, C83_gradient and C83_training; the last compares two trainers with different batch sizes and passes per iteration that are shown the same samples. Real arithmetic: with floats the sums differ by rounding. Parameters at which a rectifier, maximum or border of a clamp is met are excluded (no derivative there). No dropout."
  },
  {
   "property": "C84",
   "status": "proved",
   "theorems": [
    "C84_files",
    "C84_session",
    "C84_return_refuted",
    "C84_unnamed_refuted",
    "C84_late_sink_refuted"
   ],
   "note": "C84_files: any calls to the aggregator (values of the lines included); C84_session: the commands of trainNetwork, with C74_reports. Files are functions from names to contents; the directory csv must exist and the files be writable (C73_unwritable_refuted)."
  },
  {
   "property": "C85",
   "status": "proved",
   "theorems": [
    "C85_product",
    "C85_convolution",
    "C85_cancellation_refuted",
    "C85_overflow_refuted"
   ],
   "note": "C85_product for GEMM, C85_convolution for the whole layer in testing mode or without dropout, both against real arithmetic on the values of the same floats. The sequential order of the reference GEMM is modelled, not that of a BLAS."
  },
  {
   "property": "C86",
   "status": "proved",
   "theorems": [
    "C86_input",
    "C86_rectifier",
    "C86_sigmoid",
    "C86_tanh",
    "C86_sum",
    "C86_concatenation",
    "C86_border",
    "C86_prior",
    "C86_upscale",
    "C86_pooling",
    "C86_strided_pooling",
    "C86_convolution",
    "C86_testing_convolution",
    "C86_accumulation",
    "C86_sink",
    "C86_network"
   ],
   "note": "C86_network lifts the layer theorems to whole graphs; both networks run the same model code, one on binary32 bit patterns, one on real numbers. The exponential function of the C++ library is a parameter with a stated accuracy (C86_exponential shows that correct rounding meets it). Local response normalization, dropout while training and the backward pass are not covered."
  },
  {
   "property": "C87",
   "status": "proved",
   "theorems": [
    "C87_labels",
    "C87_prediction"
   ],
   "note": "Joins C58 (what AddLayers connects), C19 (accumulation nodes) and C82 (layers treat samples alike). That CreateOutputs and Connect of the layers succeed with the stated shapes is a hypothesis (ConfigNet_Model.runs, one case per layer); their checks are C35, C41 and C42. The convolution is in testing mode. Statistics layers, which have no outputs, are not part of the text."
  },
  {
   "property": "C88",
   "status": "proved",
   "theorems": [
    "C88_any_float_file",
    "C88_any_compressed_file",
    "C88_any_tool",
    "C88_any_parameters",
    "C88_cut_header",
    "C88_cut_data_refuted",
    "C88_cut_mapped_refuted",
    "C88_cut_parameters_refuted"
   ],
   "note": "Reads by std::istream::read; sizes are not reduced modulo 2^64 (C66) and running out of memory is not modelled. Compressed files are read without mapping. What happens to the incomplete tensor is in the _refuted theorems, which hold for every cut behind the third size of a tensor (for cuts inside the fourth size: if the bytes left of it tell its value)."
  },
  {
   "property": "C89",
   "status": "proved",
   "theorems": [
    "C89_file",
    "C89_automatic_names",
    "C89_complete",
    "C89_same_names_refuted"
   ],
   "note": "Layer descriptions, descriptions and sizes of buffers are parameters. The reader of Draw_Spec.v understands lines of the form written here, not the whole language of graph files."
  },
  {
   "property": "C90",
   "status": "proved",
   "theorems": [
    "C90_batch_sizes",
    "C90_sessions",
    "C90_reload"
   ],
   "note": "As for C87 (prediction; image sizes the layers accept, squares for normalization). Which entries of the parameter list belong to which node is a parameter of the theorem. Both networks are made of the same text on the same input node."
  },
  {
   "property": "C91",
   "status": "proved",
   "theorems": [
    "C91_function",
    "C91_reports"
   ],
   "note": "As for C87 (image sizes the layers accept, squares for normalization) and C81 (the test has enough iterations for the whole test set; the sums of the confusion matrix are exact, while the network computes in floats). The confusion matrix is that of the one output [out]."
  },
  {
   "property": "C92",
   "status": "proved",
   "theorems": [
    "C92_run",
    "C92_samples",
    "C92_order"
   ],
   "note": "C92_run follows both trainers through Train with the inductive relation reaches for the states on the way; the condition on kinks is only about the samples shown at these states. Real arithmetic, gradient descent (not QuickProp), no dropout. That an iteration shows both the same samples is a hypothesis of C92_run; C92_samples derives it from the order of the samples, and C92_order shows that the dataset input layer keeps this order for all batch sizes (fully convolutional datasets: images of one size, since loss sampling uses random numbers per block of the batch's size). That loss sampling removes the same weights is not stated."
  },
  {
   "property": "C93",
   "status": "proved",
   "theorems": [
    "C93_two",
    "C93_four",
    "C93_alone",
    "C93_samples",
    "C93_live",
    "C93_written",
    "C93_outputs",
    "C93_resized_refuted",
    "C93_alone_refuted"
   ],
   "note": "Stated on the tensor memory of C07: shows means equal shape and equal memory block. The hypotheses ask for tensors with memory (an empty tensor cannot be shown safely: C07_empty_shadow_refuted). Findings: resizing the user's tensor leaves the layer with released memory (C93_resized_refuted), and what the layer makes up (helper, label, weight) is never filled (C93_alone_refuted)."
  },
  {
   "property": "C94",
   "status": "proved",
   "theorems": [
    "C94_report",
    "C94_batches",
    "C94_whole",
    "C94_configured",
    "C94_every_pass"
   ],
   "note": "Float arithmetic of the counters and of the reported numbers is modelled exactly. The network between input and output is a function of each sample (computes), as in C81; C94_configured proves this, in float arithmetic, for the networks of configuration texts (with C91_function). Weights must be non-negative floats (class and error weights of the datasets are). The last exception is C50_update_total_refuted; C94_report has it as its second case."
  },
  {
   "property": "C95",
   "status": "proved",
   "theorems": [
    "C95_directory",
    "C95_device",
    "C95_no_device",
    "C95_default",
    "C95_log_level",
    "C95_files",
    "C95_missing_device_refuted",
    "C95_bare_refuted",
    "C95_longer_refuted"
   ],
   "note": "Linux build with OpenCL; the OpenCL calls behind the choice of the device, messages and GTK are not modelled. Paths longer than the buffer of 16383 characters are excluded (length path <= room). Only files that can be read to their end are considered. The three exceptions are recorded as refutations."
  }
 ]
}