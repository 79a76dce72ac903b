# Formal model of cvjena/cn24 in Rocq (Coq 8.16.1)

## Ground rules

* The model is a set of total, computable Gallina functions, written function by function from `/repo`;
  every definition carries a comment with the file and lines it models and every simplification made.
* `X_Model.v` files hold the model and no proofs, `X_Spec.v` the independent specification (where one is
  needed), `X_Proofs.v` the lemmas and `X_Props.v` only the property theorems (`exact lemma`), their
  `Print Assumptions` and the non-vacuity examples.
* Undefined behaviour (out-of-bounds access, use of released memory) and `FATAL` (which logs and throws)
  are separate outcomes: `res A := Ok a | Fatal | UB`.
* Indices, dimensions and counts are unbounded `nat`/`N`/`Z`; where a property is about 32/64-bit
  arithmetic the wrap-around is written explicitly.
* `datum` (a 32-bit float) is one of:
  - a 32-bit pattern, for everything that stores, copies, compresses or writes floats,
  - Flocq's `binary32`, for comparisons and pixel conversion, where rounding and NaN matter,
  - an element of an arbitrary commutative ring / ordered set given as Section variables (closed by the
    Section, so the theorems quantify over it), for data movement, linear algebra and pooling,
  - a real number, for derivatives and learning rate schedules.
  Linear-algebra theorems are about exact arithmetic, except those of C85 and C86, which bound the rounding errors.
* Loops are folds over explicit index lists. Loops whose body stores into a buffer are modelled as the list
  of stores in program order executed one by one on the buffer, out-of-bounds stores being `UB`.

## What is modelled

| Code | Model | Left out |
|---|---|---|
| `util/Tensor.{h,cpp}` | `Tensor_Model`, `Heap_Model` (ownership), `SizeWrap_Model` (64-bit sizes), `Stream_Model` (Serialize, Deserialize), `Files_Model`, `Raw_Model` (converted output) | OpenCL transfers, MKL allocation, `PrintStats` |
| `util/CompressedTensor.*` | `Codec_Model`, `Bytes_Model` | |
| `util/TensorStream.*`, `FloatTensorStream.*`, `CompressedTensorStream.*`, `ListTensorStream.*` | `Stream_Model`, `List_Model`, `Single_Model` | failures of `iostream` other than end of file |
| `util/StatAggregator.*`, `util/CSVStatSink.*`, `net/NetStatus.h` | `Stat_Model`, `Csv_Model` | printing of numbers, `ConsoleStatSink` |
| `tools/classifyImage.cpp`, `makeTensorStream.cpp`, `makeCompressedTensorStream.cpp`, `tensorStreamTool.cpp`, `tensorTool.cpp` | `Classify_Model`, `MakeStream_Model`, `ToolStream_Model` | messages on the console |
| `tools/trainNetwork.cpp` | `Session_Model` (both modes, all commands), `Hybrid_Model` (assembly of the two networks) | option parsing, messages, the gradient check and the viewer; the passes through the networks, initialisation and the format of parameter files are parameters (modelled in `Graph_Model`, `NetParams_Model`) |
| `tools/tensorStreamStats.cpp` | `StreamStats_Model` | long doubles are reals; printing |
| `src/net/NetGraph.cpp` passes with memory | `Backprop_Model` (FeedForward, AggregateLoss, BackPropagate on data and gradients) | layers are functions on the contents of tensors, without private state; layer view and timing output |
| `ActivationFunctions.cpp`, `SumLayer.cpp`, `ConcatenationLayer.cpp`, `ErrorLayer.cpp`, `ConvolutionLayer.cpp`, `InputLayer.cpp`, `ResizeLayer.cpp`, `SpatialPriorLayer.cpp`, `UpscaleLayer.cpp`, `MaxPoolingLayer.cpp`, `AdvancedMaxPoolingLayer.cpp`, `LocalResponseNormalizationLayer.cpp` as parts of a network | `BackpropLayers_Model` (wraps the layer models of C35, C38 to C43 and C57 into the memory of `Backprop_Model`) | convolution without dropout; the previous contents of the tensors a layer writes are parameters of the layer |
| `Trainer.cpp` on a network | `TrainNet_Model` (the trainer of `Trainer_Model` with the passes of `Backprop_Model`) | reals instead of floats; the samples of a pass are given by its number |
| `Trainer::Test` on a network with dataset and confusion matrix, command "test" of trainNetwork | `Evaluate_Model` (connects `Trainer_Model`, `DatasetInput_Model`, `StatLayers_Model`) | the layers between input and output are a parameter; one confusion matrix; statistics other than its rates are in `Session_Model` |
| the same with one class: binary statistics layer instead of the confusion matrix | `EvaluateBinary_Model` | as above; one binary statistics layer |
| System::Init: configuration file, numbers of platform and device, log level; CLHelper::Init up to the choice of the device | `System_Model` | Linux; file contents, devices and the path of the program are parameters |
| `net/NetGraph.*`, `NetGraphNode.h`, `GradientAccumulationLayer.*` | `Graph_Model`, `NetParams_Model`, `Accumulate_Model`, `Draw_Model` (PrintGraph) | |
| `net/Trainer.*` | `Trainer_Model`, `Schedule_Model` | timing and progress output |
| `net/InputLayer.*` (constructors, `CreateOutputs`) | `InputLayer_Model` | buffer descriptors and log output not modelled |
| `net/DatasetInputLayer.*` | `DatasetInput_Model` | |
| `util/TensorStreamDataset.cpp`, `TensorStreamPatchDataset.cpp` | `Dataset_Model`, `Patch_Model`, `DatasetConfig_Model` (`CreateFromConfiguration`) | parsing of float texts |
| `math/TensorMath.cpp` | `Math_Model` (reference branches) | BLAS, MKL and OpenCL branches |
| `net/ConvolutionLayer.*` | `ConvLayer_Model` | random initialisation of weights is in `Init_Model` |
| `net/MaxPoolingLayer.*`, `AdvancedMaxPoolingLayer.*` | `Pool_Model` | |
| `net/ConcatenationLayer`, `SumLayer`, `ResizeLayer`, `UpscaleLayer`, `InputDownSamplingLayer`, `SpatialPriorLayer` | `Layers_Model` | |
| `net/LocalResponseNormalizationLayer.*` | `LRN_Model` | |
| `net/NonLinearityLayer`, `ActivationFunctions`, `HMaxActivationFunction`, `ErrorLayer` | `Act_Model` | random initialisation of HMax parameters |
| `net/ConfusionMatrixLayer`, `BinaryStatLayer` | `StatLayers_Model` | printing |
| `net/LayerFactory.cpp`, `util/ConfigParsing.cpp` | `Regex_Model`, `LayerFactory_Model`, `Config_Model`, `Str_Model` | |
| `factory/ConfigurableFactory.cpp` | `Receptive_Model`, `Factory_Model`, `Settings_Model` | |
| `util/PNGUtil.cpp`, `JPGUtil.cpp`, `Config.h` | `Pixel_Model`, `Files_Model` | coding and decoding inside libpng and libjpeg |
| `util/Colorize.cpp`, `Segmentation.cpp`, `KITTIData.cpp`, `GradientTester.cpp` | `Colorize_Model`, `Segmentation_Model`, `Kitti_Model`, `Gradient_Model` | |
| OpenMP loops | `Par_Model` | memory models weaker than sequential consistency of single stores |

## Not modelled

OpenCL/BLAS/MKL builds, GUI (`TensorViewer`), libpng/libjpeg internals, logging text, timing, the OpenCL part of `Init.cpp` behind the choice of the device, iostream
failure other than end of file, memory exhaustion, the remaining command line tools. Outside `Heap_Model`, `mmap` is treated as
reading the same bytes.

## Plan per property

| Property | Modelled by | Proof |
|---|---|---|
| C01 C02 C03 C05 C08 | tensor = shape + optional element list; Offset, Reshape, Resize, Transpose, CopyMap/Sample, Clear as store lists | arithmetic bijection, last-write lemma, induction over histories |
| C04 C12 C13 | byte streams, little-endian words, Serialize/Deserialize/LoadFile | round trip by induction over the list of tensors |
| C06 | scan with strict comparison over binary32 | loop invariant |
| C07 | heap of blocks with owners, op histories | invariant by induction |
| C09 C10 C11 C14 | RLE encoder/decoder over 32-bit patterns | invariant of the encoder loop against a run decomposition; decoder by induction |
| C15 C16 | state machine of StatAggregator | refinement to "updates since reset" by induction over calls |
| C17 C18 C19 C21 C22 | graph as node table, DFS with visited flags, GA insertion | topological rank, induction |
| C20 | parameters in node order over the C04 codec | induction |
| C23 C24 C25 C26 | optimizer state, epoch loop over event traces, real schedule | induction, real analysis |
| C27 C28 C29 | input layer state machine with shuffle oracle | invariant over draws |
| C30 C31 C32 C33 | dataset constructors and sample access | arithmetic, store lists; rounding error analysis for the one-class label |
| C34-C41 C44 | reference CPU kernels and layers over a ring / ordered carrier | sums over index lists, store lists |
| C42 C43 C60 | real functions | `derivable_pt_lim` |
| C45 C46 C47 C59 | strings as lists of characters; regular expression as decision function | induction over strings |
| C48 C58 | configuration interpreter | induction over the layer list |
| C49 C50 C51 | statistics layers | induction over batches |
| C52 | binary32 arithmetic on all 256 (65536) values | exhaustive evaluation, domain is finite |
| C53 C54 C55 C57 | index arithmetic, float formulas over R | arithmetic |
| C56 | store lists of different iterations are disjoint | permutation invariance |
| C61 C62 | gradient updates and test passes as in the trainer model | induction, arithmetic |
| C63 | list files as lists of lines | induction over the lines |
| C64 C65 | convolution backward over a ring, softmax over R | sums over index lists |
| C66 | 64-bit wrap-around written out | modular arithmetic |
| C67 | `InitOptimalSettings` line by line | induction over the lines of a rendered file |
| C68 | `CreateFromConfiguration` as a line automaton, `strtoul` with base 16 | induction over the parts of a rendered file |
| C69 | `Serialize` with conversion, binary32 arithmetic | lists of pixels, Flocq rounding |
| C70 | `classifyImage` from the loaded image to the written picture; the network is a parameter | pointwise reading of the stores |
| C71 | the two `make…Stream` tools on top of the list and stream models | induction over the lines |
| C72 | `tensorStreamTool`, `tensorTool` as programs on file contents | induction over tensors and commands |
| C73 | `CSVStatSink` as appended texts; number printing is a parameter | induction over columns and rows |
| C74 | `trainNetwork` as a state machine over two trainers, shared parameter memory, statistics calls and files | invariants over command sequences, composed with the trainer and statistics models |
| C75 | one pass through a network: data, gradients and parameter gradients in memory, layers as functions on them | reverse-mode differentiation: a balance of inner products carried backward over the order in which layers run |
| C76 | the trainer's iteration with the passes of C75 as its passes | composition of C23 with the directional derivatives of C75; a negative derivative along the step gives the decrease |
| C77 | counting loop of tensorStreamStats over the data set of C31, tables of counts | induction over samples and pixels; field arithmetic |
| C78 | both networks of a hybrid session: two runs of the factory of C58 on one text, CreateOutputs and parameters of its layers | simulation between the runs, induction over lines; induction over derivations of sizes |
| C79 | sizes in a network built from a configuration: receptive field and factor of C48, layers and connections of C58, CreateOutputs of C78 | induction over lines and over the chain of layers |
| C80 | gains and weights during NetGraph::InitializeWeights; distribution and engine are parameters, the order of the layers is that of C18 | induction over the visiting order; gains against an inductive fan |
| C81 | a test run as a whole: C62's test, C28's input layer, C49's matrix, connected as in trainNetwork; the layers in between are a parameter that treats samples independently | invariant over slots and batches: the pixels counted are those of the samples loaded so far; fillers weigh nothing |
| C82 | the layers of C75 set up for two batch sizes, and the convolution in testing mode; C75's pass through the graph | contents of each layer's output as a function of the same sample of its inputs; induction over the visiting order |
| C83 | the layers and passes of C75 and C76 set up for a batch and for one sample | C82's contents of each layer; the loss as a sum over samples; C75 makes gradients derivatives, which are unique; C76 turns gradients into updates |
| C84 | a CSVStatSink driven by the calls of the StatAggregator, for the calls of a session of trainNetwork | C73's text of a line, C16's log of reports and C74's rows of a session; invariant over the calls: the file of each experiment is the text of the reports kept for it |
| C85 | the GEMM of Math_Model.v and the convolution layer of ConvLayer_Model.v on binary32 bit patterns | Flocq's error bound for one rounding, induction over the terms of a sum with an invariant that bounds error and size, then C32 and C35 to get from the loops to the sums |
| C86 | the layer behaviours of BackpropLayers_Model.v and Batch_Model.v on binary32 bit patterns and on real numbers, and the forward pass of Graph_Model.v over both | each layer keeps tensors close (C85, Flocq's rounding bound, the mean value theorem for the logistic function and the hyperbolic tangent, monotonicity of the maximum), then induction over the order of the forward pass |
| C87 | AddLayers (Factory_Model.v), Initialize (Graph_Model.v), each layer a text can name as a layer behaviour (ConfigNet_Model.v), and the forward pass from a dataset input to an output (Batch_Model.v) | invariant over the lines of the text (most recent output and stacks hold first outputs only), C19 for the connections after the insertion of accumulation nodes, then C82 |
| C88 | the loaders of Stream_Model.v, ToolStream_Model.v and NetParams_Model.v on arbitrary bytes and on cut files | invariant of the stream state (a failed read has seen the end), each turn of a loop consumes a header or sees the end; byte positions for the cut tensor |
| C89 | PrintGraph and the command graph (Draw_Model.v) for the graphs of Graph_Model.v | a reader of the lines is specified separately (Draw_Spec.v); it is proved to invert the writer line by line |
| C90 | the networks of C87 in two sessions, joined by the parameter file of C20 | every layer that runs for one batch size is connected for any other; both sessions are compared with the network that sees one image (C87), after the restored parameters are shown equal (C20) |
| C91 | the test of C81 (Evaluate_Model.v) on the networks of C87 | one function for all sessions comes from C90 and C87; the test counts each sample once (C81), and a sample has only one list of classified pixels |
| C92 | Train and Epoch of Trainer_Model.v on the network of C76, states on the way as an inductive relation (TrainRun_Spec.v) | induction on iterations and epochs; the invariant keeps shapes, counters and the equality of parameters and momentum; the step is C83_training at the parameters reached; the order of samples: each loaded slot is one step of a sequence that the seed determines |
| C93 | the three constructors and CreateOutputs of InputLayer (InputLayer_Model.v) as operations on the tensors of Heap_Model.v | the new tensors are computed; each Shadow is a step of C07; histories are appended, and a tensor that is not the target of an operation keeps its description |
| C94 | Trainer::Test on a dataset input layer, a network and the binary statistics layer (EvaluateBinary_Model.v; pieces of C27 to C29, C50, C62) | induction on the batches as in C81; elements of a batch are regrouped by sample; adding a zero weight to a non-negative float changes nothing; the choice of the threshold is C50; C91_function for configured networks (DetectReport_Props.v); a failed pass stays failed (EvaluateFail_Props.v) |
| C95 | System::Init, GetExecutablePath and the choice of the device in CLHelper::Init (System_Model.v); files, devices and the link to the program are parameters | induction over the lines of the configuration; the last slash of a path is unique |

## Trusted base

* Coq 8.16.1's kernel (and `vm_compute`, which it includes); no native compilation, no plugins, no axioms of our own.
* The correspondence between `/repo` and the model, which is by reading: every definition cites the lines it models.
* The C++ semantics assumed: `datum` is IEEE binary32 and `double` binary64, round to nearest even, without excess precision or
  contraction; `std::size_t` has 64 and `int` 32 bits; little-endian machine; out-of-range conversions, null and out-of-bounds
  accesses are undefined behaviour (`UB`).
* Oracles, closed over by Sections and therefore universally quantified in the theorems: contents of uninitialised memory,
  random numbers, shuffles, layers inside the trainer and the gradient tester, image coders.
* The axioms below come from the standard library's real numbers (and, for `classic`, from Flocq's use of it). The other constants
  that an audit of the loaded libraries lists are not used by any theorem here.

What `Print Assumptions` prints for each theorem (generated by `tools/assumptions.py`):

<!-- assumptions begin -->
*Closed under the global context* (472 theorems): C01_offset_in_range, C01_offset_injective, C01_offset_order, C01_offset_surjective, C02_history_wf, C02_reshape_failure_changes_nothing, C02_reshape_keeps_elements, C02_reshape_succeeds_iff, C02_resize_preserves_data, C02_resize_shape, C03_transpose, C03_transpose_twice, C03_transpose_without_memory, C04_header_only, C04_mapped_roundtrip, C04_serialize_injective, C04_serialize_roundtrip, C05_copy_map, C05_copy_map_failure, C05_copy_sample, C06_abs_maximum, C06_answer_unique, C06_maximum, C06_pixel_maximum, C07_all_released, C07_copy, C07_empty_shadow_refuted, C07_map_value, C07_mapping_pages, C07_mapping_tail_refuted, C07_move, C07_moved_mapping_refuted, C07_moved_shadow_refuted, C07_new_value, C07_ownership, C07_remapped_refuted, C07_resize_value, C07_safe, C07_shadow_releases_nothing, C07_shadow_shares, C07_stale_shadow_refuted, C07_write_shared, C08_clear_all, C08_clear_sample, C09_bit_identity_refuted, C09_huge_tensors_refuted, C09_roundtrip, C09_roundtrip_identical, C10_compress_stays_in_buffer, C10_output_size, C11_decoder_outcome, C11_decompressed_size, C11_output_check_refuted, C12_compressed_file_loads, C12_compression_tool, C12_empty_entry, C13_file_kind, C13_float_file_loads, C13_float_file_misread_iff, C14_copy_sample, C14_missing_target_sample_refuted, C14_request_history, C15_history, C15_initialize, C15_late_registration_refuted, C15_update_ignored, C15_update_recorded, C15_wrong_phase_ignored, C16_reports, C16_snapshot, C17_cycle_refuted, C17_feed_forward, C17_feed_forward_selected, C17_initialize_order, C17_outside_node_refuted, C18_back_propagate, C18_built_network, C18_weights_order, C19_accumulation_nodes, C19_gradient_sum, C19_same_data, C19_second_output_refuted, C20_empty_file_refuted, C20_load, C20_restore, C20_restore_prefix, C20_restore_up_to, C21_built, C21_history, C21_refused, C21_user_name_collision_refuted, C22_is_complete, C22_missing_layer_refuted, C22_outside_node_accepted, C23_gradient_descent, C23_history, C23_new_trainer, C25_epoch, C25_train, C26_history_cleared, C26_resume, C27_outputs, C27_passes, C28_each_once, C28_empty_test_set_refuted, C28_filler_weights, C28_test_run, C29_loss_sampling, C29_training_slot, C30_accepts, C30_all_images, C30_dimensions, C30_maps, C30_test_images_refuted, C30_wrap_refuted, C31_large_test_image_refuted, C31_out_of_range, C31_provides, C31_testing_sample, C31_training_sample, C32_counts, C32_enumeration, C32_pairs, C32_read_behind_table_refuted, C32_small_image_refuted, C32_testing_sample_equal_counts, C32_training_sample, C32_wrong_test_patch_refuted, C33_at_most_one, C33_image, C33_matches, C33_no_result_refuted, C33_one_class, C33_one_hot, C33_out_of_range, C34_column_major_refused, C34_gemm, C34_gemm_exact, C34_gemv, C35_connected, C35_dropout_refused, C35_forward, C35_forward_rounded, C36_adjoint, C36_gradient, C36_out_of_bounds_refuted, C36_padding_refuted, C36_patch_extraction, C36_tall_refuted, C37_involution, C37_swap, C38_adjoint, C38_average_of_upscaled, C38_downsample, C38_downsampling_layer, C38_downsampling_no_gradient, C38_upscale, C38_upscale_layer, C39_accepts, C39_first_max, C39_nan_refuted, C39_pooling, C40_create, C40_large_refuted, C40_pooling, C40_window_refuted, C40_zero_stride_refuted, C41_border_backward, C41_border_disabled, C41_border_forward, C41_concat_accepts, C41_concat_backward, C41_concat_forward, C41_concat_mismatch_refuted, C41_prior_backward, C41_prior_forward, C41_sum_accepts, C41_sum_backward, C41_sum_forward, C41_sum_mismatch_refuted, C42_connect, C42_create, C44_accepts, C44_constructor, C44_create_outputs_refuted, C44_groups_refuted, C44_window_inside, C45_characters, C45_construct, C45_extract, C45_group_unique, C45_parse_unique, C45_reassemble, C45_valid, C46_inject, C46_inject_refuted, C46_invalid_unchanged, C46_large_seed_refuted, C46_override, C46_read_back, C46_text_seed_refuted, C46_valid, C47_absent, C47_bare_setting_refuted, C47_cases, C47_count, C47_datum, C47_descriptor, C47_kernel_size, C47_longer_setting_refuted, C47_name_with_x_refuted, C47_setting, C47_setting_absent, C47_size_without_x_refuted, C47_string, C47_suffix_refuted, C48_exact, C48_factor_wraps_refuted, C48_fcn, C48_layers, C48_manual, C48_manual_ignored, C48_missing_size_refuted, C48_overflow_refuted, C48_patch, C48_range, C48_reported, C48_window, C48_window_general, C48_window_refuted, C49_column_sums, C49_consistent, C49_counts, C49_grand_total, C49_order_independent, C49_order_with_rounding_refuted, C49_reset, C49_reset_before_connect_refuted, C49_row_sums, C49_trace, C50_best_threshold, C50_counts, C50_default_thresholds, C50_monotone, C50_no_threshold_rejected, C50_partition, C50_update_total_refuted, C51_negative_outputs_refuted, C51_single_class, C51_strongest_class, C52_byte, C52_jpg_grey_refuted, C52_jpg_loaded, C52_jpg_round_trip, C52_order, C52_out_of_range_refuted, C52_png16_loaded, C52_png_big_refuted, C52_png_buffer, C52_png_loaded, C52_png_refused, C52_png_round_trip, C53_label_centre_refuted, C53_labels, C53_large_patch_refuted, C53_mean, C53_patches, C54_counts, C54_nan_refuted, C54_parameters, C54_stride_refuted, C55_wide_refuted, C56_accumulate, C56_activation_backward, C56_activation_forward, C56_add, C56_binary_stat, C56_border_backward, C56_border_forward, C56_concat_backward, C56_concat_forward, C56_gemm, C56_gemv, C56_im2col, C56_loop, C56_lrn_backward, C56_lrn_forward, C56_pooling_backward, C56_pooling_forward, C56_prior_backward, C56_prior_forward, C56_sample_weights, C56_shared_element_refuted, C56_softmax_backward, C56_softmax_forward, C56_strided_pooling_backward, C56_strided_pooling_forward, C56_terminates, C57_forward, C57_neighbourhood, C57_tall_refuted, C57_wide_refuted, C58_balanced, C58_brackets, C58_chain, C58_complete, C58_connected, C58_group_zero_refuted, C58_layers, C58_network, C58_no_neurons, C58_output, C58_pop, C58_push, C58_registered, C58_second_output_refuted, C58_stacks, C58_unchecked_stack_refuted, C59_load_jpg, C59_load_png, C59_lost_jpg_refuted, C59_refused_png_refuted, C59_round_trip, C59_tensor_refuted, C59_unsupported, C59_write_jpg, C59_write_png, C61_quickprop_update, C62_test, C63_alternating, C63_empty_directory_refuted, C63_load_files, C63_pairs, C64_backward, C64_transpose, C65_backward_identity, C66_offset, C66_reshape, C66_resize, C66_wrap_refuted, C67_bare_refuted, C67_large_number_refuted, C67_number, C67_settings, C68_colors_first_refuted, C68_config, C68_counts, C68_default_error_refuted, C68_large_color, C68_patch_sources, C68_sources, C68_testing_descriptor_refuted, C68_weights_twice_refuted, C69_range_refuted, C70_classify, C70_classify_one, C70_one_pixel_refuted, C70_tall_refuted, C71_direct_gray_refuted, C72_end_of_input_refuted, C72_extract, C72_interrupted, C72_interrupted_refuted, C72_keeps_first, C72_kept_load, C72_missing_file_refuted, C72_session, C72_write_back_refuted, C73_no_experiment, C73_non_ascii_refuted, C73_same_name_refuted, C73_table, C73_unwritable_refuted, C74_end_of_input_refuted, C74_epoch_range, C74_fcn_momentum_refuted, C74_files, C74_graph_file_refuted, C74_lines, C74_load, C74_looking, C74_other_sizes_refuted, C74_reports, C74_reset, C74_runs, C74_same_parameters, C74_save_load, C74_script, C74_script_lines, C74_set_epoch, C74_set_epoch_default_refuted, C74_test_epoch_refuted, C74_train_split, C74_tstat, C75_unused_output_refuted, C78_mentioned_flatten_refuted, C78_parameters, C78_same_layers, C78_same_network, C78_same_parameters, C78_sizes, C79_patches, C79_thin_kernels_refuted, C79_whole_images, C80_forgets, C80_initial_weights, C80_reset_refuted, C80_seed_refuted, C81_dataset, C81_every_pass, C81_loss_refuted, C81_statistics, C82_accumulation, C82_activation, C82_border, C82_computes, C82_concatenation, C82_convolution, C82_input, C82_network, C82_normalization, C82_pooling, C82_prior, C82_strided_pooling, C82_sum, C82_testing_convolution, C82_upscale, C84_files, C84_late_sink_refuted, C84_return_refuted, C84_session, C84_unnamed_refuted, C85_cancellation_refuted, C87_labels, C87_prediction, C88_any_compressed_file, C88_any_float_file, C88_any_parameters, C88_any_tool, C88_cut_data_refuted, C88_cut_header, C88_cut_mapped_refuted, C88_cut_parameters_refuted, C89_automatic_names, C89_complete, C89_file, C89_same_names_refuted, C90_batch_sizes, C90_reload, C90_sessions, C91_function, C92_order, C92_samples, C93_alone, C93_alone_refuted, C93_four, C93_live, C93_outputs, C93_resized_refuted, C93_samples, C93_two, C93_written, C94_every_pass, C95_bare_refuted, C95_default, C95_device, C95_directory, C95_files, C95_log_level, C95_longer_refuted, C95_missing_device_refuted, C95_no_device.

*`ClassicalDedekindReals.sig_forall_dec`, `FunctionalExtensionality.functional_extensionality_dep`* (44 theorems): C23_real_rule, C42_rectifier, C42_rectifier_closed, C43_exact, C43_gradient, C43_loss, C43_nonnegative, C43_shape_refuted, C43_weights_refuted, C43_zero_weight, C43_zero_weight_gradient, C49_nothing_to_report, C49_rates, C49_rates_in_range, C50_monotone_real, C54_quotient, C61_initial_step_refuted, C61_quickprop_step_bounded, C75_border, C75_built, C75_concat, C75_convolution, C75_each_parameter, C75_gradient, C75_loss, C75_pooling, C75_prior, C75_rectifier, C75_strided_pooling, C75_sum, C75_upscale, C77_counts, C77_ignoring_weights_refuted, C77_reweighted, C77_table, C77_weights_twice_refuted, C85_overflow_refuted, C86_accumulation, C86_border, C86_concatenation, C86_input, C86_network, C86_sink, C91_reports.

*`ClassicalDedekindReals.sig_forall_dec`, `ClassicalDedekindReals.sig_not_dec`, `FunctionalExtensionality.functional_extensionality_dep`* (9 theorems): C42_sigmoid, C42_tanh, C60_forward, C65_backward_refuted, C65_rows_refuted, C65_softmax, C75_sigmoid, C75_tanh, C80_bounded.

*`ClassicalDedekindReals.sig_forall_dec`, `ClassicalDedekindReals.sig_not_dec`, `Classical_Prop.classic`, `FunctionalExtensionality.functional_extensionality_dep`* (59 theorems): C24_counter_wrap_refuted, C24_schedule, C25_iterations, C25_iterations_refuted, C33_one_class_value, C50_monotone_float, C50_report, C50_report_exists, C50_thresholds, C52_order16, C52_uchar, C52_ushort, C53_position, C54_layer, C54_verdict, C55_bounds, C55_defined, C55_region, C55_upper_rows, C55_values, C57_backward, C60_input_partial, C60_sparsity_partial, C60_sparsity_refuted, C60_weights_partial, C60_weights_refuted, C62_covers_test_set, C69_byte, C69_monotone, C69_raw, C70_prior, C71_compressed_file, C71_same_as_lists, C71_stream_file, C75_network, C75_normalization, C76_descent, C76_iteration, C81_rates, C83_gradient, C83_loss, C83_training, C85_convolution, C85_product, C86_convolution, C86_pooling, C86_prior, C86_rectifier, C86_sigmoid, C86_strided_pooling, C86_sum, C86_tanh, C86_testing_convolution, C86_upscale, C92_run, C94_batches, C94_configured, C94_report, C94_whole.
<!-- assumptions end -->

## Findings

Where the full statement is false of the code, the model shows it: each theorem below exhibits inputs or a history. The property
itself is then stated and proved with the needed restriction (generated by `tools/findings.py`).

<!-- findings begin -->
* `C07_empty_shadow_refuted`: A tensor that shadows a tensor without memory never releases the memory it gets later.
* `C07_mapping_tail_refuted`: munmap is called without the offset of the data in its page, so the last page of the mapping may stay mapped.
* `C07_moved_mapping_refuted`: Moving a mapped tensor: the new tensor releases the mapping with delete[].
* `C07_moved_shadow_refuted`: Moving a shadow makes the new tensor an owner: its destruction releases memory that another tensor owns, and the owner's destruction releases it again.
* `C07_remapped_refuted`: Mapping a second file into a mapped tensor unmaps the new mapping instead of the old one: reading the tensor is undefined, and the old mapping is never released.
* `C07_stale_shadow_refuted`: A shadow is not told when its target's memory goes away.
* `C09_bit_identity_refuted`: With zeros of both signs the bits may change: -0 +0 comes back as +0 +0.
* `C09_huge_tensors_refuted`: From 2^30 elements on, a tensor that was compressed cannot be decompressed.
* `C11_output_check_refuted`: The decoder does not check its output buffer: well-formed data that announces fewer elements than it holds makes it write outside.
* `C14_missing_target_sample_refuted`: A target sample that does not exist: the plain stream refuses, the compressed stream writes outside the target's memory.
* `C15_late_registration_refuted`: Registering a statistic after Initialize and then updating it writes outside the statistics' memory; so does generating output before Initialize.
* `C17_cycle_refuted`: A network with a cycle is not detected; the recursion never ends.
* `C17_outside_node_refuted`: A node outside the network is run by the first pass only: its flag is never cleared.
* `C19_second_output_refuted`: A node read through its second output loses its data source.
* `C20_empty_file_refuted`: Loading an empty file does not leave the network alone: the first parameter is resized to nothing.
* `C21_user_name_collision_refuted`: A name chosen by the user can coincide with an automatic one.
* `C22_missing_layer_refuted`: A node whose layer is missing is not reported: the check itself fails.
* `C24_counter_wrap_refuted`: The iteration number is a 32-bit product: the rate jumps back to the base rate.
* `C25_iterations_refuted`: With a ratio of 1 the configured number of iterations is performed exactly up to 2^24, but 2^24 + 1 iterations become 2^24.
* `C28_empty_test_set_refuted`: without test samples the filler itself is requested from the dataset, which has none; a dataset that rejects the request makes testing fail.
* `C30_test_images_refuted`: the first test images (as many as there are training images) are not considered, so the dataset can be smaller than an image it contains.
* `C30_wrap_refuted`: Sizes just below 2^32 wrap around to zero.
* `C31_large_test_image_refuted`: Loading that image writes behind the end of the helper output.
* `C32_read_behind_table_refuted`: More test than training patches (here: no training images): the search reads behind the end of the table of running sums.
* `C32_small_image_refuted`: An image smaller than the patch: the width difference wraps and the dataset reports patches that do not exist (here about 2^32).
* `C32_wrong_test_patch_refuted`: Three training patches, one test patch with value 50: the test sample shows value 11, the second training patch.
* `C33_no_result_refuted`: a successful copy has no return value.
* `C36_out_of_bounds_refuted`: and behind the last row it is added to memory outside the tensor.
* `C36_padding_refuted`: with horizontal padding the gradient of the right border goes to the next row.
* `C36_tall_refuted`: (TensorMath.cpp:335 tests iy instead of ix): for an input higher than wide the gradient of the rows below the width is lost.
* `C39_nan_refuted`: if no value of a region is above -FLT_MAX, for example if all are NaN, the output is -FLT_MAX, which the region does not contain, and the gradient goes to the top left pixel of the map, over the gradient that belongs there.
* `C40_large_refuted`: positions from 2^24 on do not all fit into a float. In an image with 2^24 + 2 columns (one row, windows of two columns, stride 1) where the last window selected its first pixel, column 2^24, its gradient also goes to column 2^24 + 1.
* `C40_window_refuted`: CreateOutputs does not check that the window fits, and rounds towards zero: a window wider than the image is accepted and read behind the image.
* `C40_zero_stride_refuted`: a stride of zero, which the constructor accepts, is divided by.
* `C41_concat_mismatch_refuted`: inputs that differ in both width and height are only reported (line 36 does not return), can pass the element count in Connect, and the second input is then lost.
* `C41_sum_mismatch_refuted`: inputs with different heights are taken by CreateOutputs; Connect then follows the null pointer [output_] instead of refusing them.
* `C43_shape_refuted`: Connect accepts prediction and label of different shapes as long as the element counts agree; the passes then read out of bounds.
* `C43_weights_refuted`: nor does it look at the size of the weight tensor.
* `C44_create_outputs_refuted`: CreateOutputs alone accepts a kernel that does not fit, because signed division rounds towards zero.
* `C44_groups_refuted`: a layer built from a configuration string is not checked: with a number of output maps that the groups do not divide it is inserted all the same.
* `C46_inject_refuted`: Without the restriction the claim fails: another parameter's value is overwritten ...
* `C46_large_seed_refuted`: ... and a seed that does not fit into an int cannot be read back.
* `C46_text_seed_refuted`: ... a seed that is not a number stays in front of the new one, and a layer reads that one ...
* `C47_bare_setting_refuted`: A line with nothing but the identifier throws out_of_range.
* `C47_longer_setting_refuted`: A longer word at the start of a line is taken for the setting.
* `C47_name_with_x_refuted`: A parameter whose own name has an x throws out_of_range.
* `C47_size_without_x_refuted`: A size without an x takes the x of a later word: the setting is overwritten by something that is not a size.
* `C47_suffix_refuted`: s. A longer name that ends in the given one is read instead of it.
* `C48_factor_wraps_refuted`: The factor wraps around silently.
* `C48_missing_size_refuted`: A pooling layer without a size reads uninitialized variables.
* `C48_overflow_refuted`: the border of a network may be too large for an int, and a factor may wrap around to 0.
* `C48_window_refuted`: s. With a stride the reported size is not the size of the window: it is 4, but the output pixel depends on 3 pixels.
* `C49_order_with_rounding_refuted`: With rounding it does: 2^24 + 1 + 1 in another order.
* `C49_reset_before_connect_refuted`: the stat's init function calls Reset, and before Connect this writes through null pointers.
* `C50_update_total_refuted`: if every positive element is missed and some negative one is not, precision and recall are 0, F1 is 0/0 and no threshold is chosen; UpdateAll then reads outside the arrays.
* `C51_negative_outputs_refuted`: The strongest class is missed if no output is positive.
* `C52_jpg_grey_refuted`: writing a JPG does not check the number of channels and reads behind the data of a tensor with one channel.
* `C52_out_of_range_refuted`: datums outside [0, 1], as networks produce them, have no defined byte.
* `C52_png_big_refuted`: the size is computed with 32 bits. For a 40000 x 40000 RGB image (libpng accepts up to a million in each direction) row 10000 is written outside the array.
* `C53_label_centre_refuted`: The label is not the one of the centre of the patch.
* `C53_large_patch_refuted`: A larger patch reads outside the image.
* `C54_nan_refuted`: A ratio that is not a number (a gradient that is NaN, or 0/0) counts as okay: a network whose gradients are all NaN passes the check.
* `C54_stride_refuted`: With skip_weights = 2^32 - 1 the stride is 0 and the check never ends.
* `C55_wide_refuted`: The computation is undefined for very wide images: WSC(613) exceeds int.
* `C56_shared_element_refuted`: Without the second condition the statement is false: two iterations adding to one element may lose an update.
* `C57_tall_refuted`: ... and for every image higher than wide it runs over the end of its memory.
* `C57_wide_refuted`: for images wider than high the columns beyond the height are not computed: the output keeps what was there before ...
* `C58_group_zero_refuted`: group=0 makes the constructor of the convolution layer divide by zero.
* `C58_second_output_refuted`: A second output is upscaled twice: the upscaling for the first output is not remembered.
* `C58_unchecked_stack_refuted`: The stacks are not checked: a pop too many, or the 65th push, is undefined behaviour.
* `C59_lost_jpg_refuted`: a JPG file that cannot be opened for writing is not reported.
* `C59_refused_png_refuted`: writing a tensor that the PNG coder refuses (more than one sample, or other than three maps: C52_png_refused) reports success and leaves an empty file, even over an older image.
* `C59_tensor_refuted`: three characters are compared with six, so files named .Tensor can be neither loaded nor written, whatever they hold; likewise names that end in jpeg or JPEG.
* `C60_sparsity_refuted`: The term the code adds per element is the derivative divided by a: right for a = 1 only.
* `C60_weights_refuted`: the gradients of the outputs do not enter those of the parameters. Here the loss does not depend on the output at all, yet a gets a gradient.
* `C61_initial_step_refuted`: In the first iteration of a fresh trainer all weights but the very first one stay where they are, whatever their gradients (above 1e-15): the initial step is lost.
* `C63_empty_directory_refuted`: an empty directory name is undefined behaviour.
* `C65_backward_refuted`: ... which is not the derivative: with a single class the output is constantly 1, and a gradient of 1 is still passed back.
* `C65_rows_refuted`: images with more than one row or map keep their old output there.
* `C66_wrap_refuted`: the size in the header of a file is not checked. A header can promise 2^62 + 1 samples of four elements although the memory holds four elements: the first element of the second sample, which the shape allows, lies outside. Reshape accepts such a shape too.
* `C67_bare_refuted`: s: a line with nothing but the name of a setting ends the program with an exception, ...
* `C67_large_number_refuted`: ... and so does a number that is not an int: its conversion is undefined.
* `C68_colors_first_refuted`: Colors in front of the classes are not read.
* `C68_default_error_refuted`: s: the name default does not select the default error function.
* `C68_testing_descriptor_refuted`: the descriptor for mapping the test file is one of the training file (line 441), so mapped test tensors show the contents of the training file.
* `C68_weights_twice_refuted`: Weights that are given twice give three weights per class.
* `C69_range_refuted`: values above 1.0157 or below -1, as networks compute them, have no byte.
* `C70_one_pixel_refuted`: Nor is the prior a number for an image that is one pixel wide (or high).
* `C70_tall_refuted`: The full claim, for images of every shape, is false: whenever the padded image is higher than wide and has padding rows, clearing those rows runs past the end of the helper tensor.
* `C71_direct_gray_refuted`: asked for direct RGB labels, the tool reads past the end of label images with one channel.
* `C72_end_of_input_refuted`: at the end of its input the program goes on asking forever.
* `C72_interrupted_refuted`: But the tensors to be kept are not safe: when some tensors are dropped there is a moment when the file is empty.
* `C72_missing_file_refuted`: A missing file: the tool never ends.
* `C72_write_back_refuted`: writing a tensor back replaces the whole file by that tensor; the others are lost.
* `C73_non_ascii_refuted`: a description with a character above 127, as in a UTF-8 text, passes a negative number to isalnum.
* `C73_same_name_refuted`: different descriptions can have the same name in the header.
* `C73_unwritable_refuted`: a file that cannot be opened is written to through a null pointer.
* `C74_end_of_input_refuted`: when the standard input ends, trainNetwork does not: it goes on reading empty lines and complaining about them for ever, whatever the session was.
* `C74_fcn_momentum_refuted`: in FCN mode (one network) "train epochs=1" twice is not "train epochs=2", nor is a test between two trainings harmless: trainNetwork sets the epoch of the testing trainer, which is the same trainer, and Trainer::SetEpoch forgets the momentum.
* `C74_graph_file_refuted`: "graph file=test.dot" writes the graph of the testing network: the word test is looked for in the whole line, also in the file name.
* `C74_other_sizes_refuted`: a parameter file of another network with the same number of tensors is loaded, after which training reads and writes outside the trainer's buffers; no message is shown.
* `C74_set_epoch_default_refuted`: "set epoch 5", and any line whose number cannot be read, goes back to epoch 0 and forgets the momentum instead of being rejected.
* `C74_test_epoch_refuted`: "set epoch epoch=5" followed by "test" reports its row under the epoch that was trained last (or 0), not under the epoch that was set: Trainer::Test does not tell the statistics the epoch.
* `C75_unused_output_refuted`: every output of a layer has to be asked for its gradient. The parameters of a layer whose output no layer hands a gradient to get gradients that depend on what is left in memory: BackPropagate of every layer runs and nothing clears the gradients of its outputs. The loss does not depend on these parameters, and a trainer moves them at random.
* `C77_ignoring_weights_refuted`: tensorStreamStats' "Stats when ignoring weights" do not ignore the class weights: two data sets that differ in the weight of one class only get different statistics. GetTrainingSample has multiplied the weights of the pixels by the class weights.
* `C77_weights_twice_refuted`: tensorStreamStats' "Stats when not ignoring weights" apply the class weights twice: one pixel of a class with weight 2 counts 4.
* `C78_mentioned_flatten_refuted`: a layer line in which the word flatten merely occurs (here in a parameter nobody reads) is dropped from the network that is tested and kept in the network that is trained, so the two networks of a hybrid session have different layers and the parameters are shadowed across different layers (NetGraph::GetParameters by position) or not at all (ConfigurableFactory.cpp:203-208).
* `C79_thin_kernels_refuted`: the border for whole images is only added if the receptive field is larger than one pixel in both directions (ConfigurableFactory.cpp:167), so a network whose kernels extend in one direction only gives an output narrower than the image, and the loss layer refuses it (ErrorLayer.cpp:48-51).
* `C80_reset_refuted`: the command "reset" of trainNetwork (tools/trainNetwork.cpp:397-400), which its help describes as "Reinitializes the nets parameters" (line 496), calls InitializeWeights only: this redraws the weights of convolutions (src/net/ ConvolutionLayer.cpp:328-348) but leaves all biases, and the parameters of HMax layers, at their trained values, so training does not start over.
* `C80_seed_refuted`: a convolution built from a descriptor (LayerFactory::ConstructLayer) reads the parameter seed= into a local variable and never passes it to its random number engine (src/net/ConvolutionLayer.cpp:72-98; the other constructor does, line 41): the engine always starts in its default state. A seed in the descriptor, such as the one LayerFactory::InjectSeed puts there, has no effect: equal convolutions draw the same numbers, and no seed changes their initial weights.
* `C81_loss_refuted`: the test loss is too small. It is averaged over all batches, although fillers have no loss: there is always at least one filler, and a whole batch of them if the batch size divides the size of the test set. Here both test pixels have a loss of 4, but the values that are averaged are 4 and 0.
* `C84_late_sink_refuted`: a sink that is registered after Initialize is not told the statistics: it writes lines without them, and without any message.
* `C84_return_refuted`: going back to an earlier experiment erases what was recorded for it: its file is truncated.
* `C84_unnamed_refuted`: every start of the program erases csv/unnamed.csv, the statistics of the last run for which no experiment was set, even if an experiment is set before anything is trained.
* `C85_cancellation_refuted`: the bound is relative to the sum of the absolute values, not to the result: if large terms cancel, the computed result can have no correct digit. Here 2^24 + 1 - 2^24 is computed as 0.
* `C85_overflow_refuted`: beyond the range of floats nothing can be said about the result: finite factors whose products cancel give infinity minus infinity, which is not a number.
* `C88_cut_data_refuted`: a tensor file that is cut short is not refused. FloatTensorStream.cpp and Tensor::Deserialize never look at the number of bytes read: the last tensor is handed out in full size, its missing values are uninitialized memory; with less than four complete sizes in the header even all of its values.
* `C88_cut_mapped_refuted`: a tensor file that is cut inside the values of a tensor and memory mapped is accepted; the program faults when it touches the missing values (Tensor.cpp:288-303 maps as many bytes as the header asks for).
* `C88_cut_parameters_refuted`: the parameter in which the file ends is left half restored: the leading values come from the file, the others are those the network had before. NetGraph::DeserializeParameters reports nothing.
* `C89_same_names_refuted`: nodes are drawn under their names, and names given by the user need not be unique (see C21). Then different networks have the same drawing: which of the nodes of one name a layer reads cannot be told.
* `C93_alone_refuted`: the constructor with only a data tensor makes a helper tensor that nobody fills: whatever was in that memory is what the network gets as spatial information. The same holds for the label and the weight that the layer makes up.
* `C93_resized_refuted`: the layer does not notice when the user's tensor gets another size: the network then reads released memory.
* `C95_bare_refuted`: a line of the configuration that consists of the word opencl_device alone ends the program with an uncaught exception.
* `C95_longer_refuted`: a line that only begins like a setting, such as opencl_device_name=Tahiti, sets the number to 0.
* `C95_missing_device_refuted`: a device number for which there is no device is not reported: CLHelper::Init reads behind the end of the array of devices (also with a platform number).
<!-- findings end -->

## Mutation runs

`tools/mutate.py` edits a model definition in a scratch copy and rebuilds it; examples and refutations that fail are cut out first,
so that a mutation counts as found only if a general lemma or theorem fails. Results are in `seeded/LOG.jsonl`.

How to read a log line with `failed_lemma`: the build stopped at that lemma. `failed` is then inferred, not observed: it lists the
theorems whose statement or proof refers to that lemma, directly or through others (`tools/seedlog.py`, from the `.glob` files);
each of them was not proved for the edited program, but they were not tried one by one. `claim` of such a line is the title of the
property these theorems belong to. A failed proof script alone does not show that the statement is false of the edited program;
only edits that survived were examined by hand, and their lines say which theorem was tightened or why the edit changes nothing.
