{
 "C01": {
  "note": "Sizes are unbounded naturals."
 },
 "C05": {
  "note": "A source without maps makes CopySample report success even for sample numbers that do not exist; the theorem therefore assumes at least one map."
 },
 "C04": {
  "note": "Bit patterns of floats; sizes below 2^64. Wrap-around of the size product on malformed headers is outside this property. The 8-bit convert mode of Serialize is not part of it."
 },
 "C09": {
  "note": "Proved for tensors below 2^29 elements. Two findings are proved as refutations: zeros of both signs may lose their sign, and tensors of 2^30 elements or more cannot be decompressed (32-bit byte counter)."
 },
 "C11": {
  "note": "Complete case analysis of all byte sequences below 2^32 bytes; the missing output bound check is proved as a refutation."
 },
 "C14": {
  "note": "Out-of-range target samples are proved to be a memory error in the fast path (refutation)."
 },
 "C30": {
  "note": "The first test images (as many as there are training images) are ignored and sizes just below 2^32 wrap to zero: both proved as refutations."
 },
 "C32": {
  "note": "The property is about training indices. For test indices the analogous statement is proved when both sets have the same number of patches and refuted otherwise (wrong patch, or a read behind the table). Images smaller than the patch wrap the counts (refuted)."
 },
 "C33": {
  "note": "A successful CopySample has no return value (proved as a refutation); the effect on the target is what the theorem describes."
 },
 "C52": {
  "note": "Float arithmetic is the standard library's SpecFloat with 24 digits. libpng and libjpeg themselves are not modelled; JPG is about the scan lines handed to and received from libjpeg."
 },
 "C42": {
  "note": "Over the real numbers, on whole tensors. The rectifier has no derivative at 0; there the layer passes no gradient (C42_rectifier_closed)."
 },
 "C43": {
  "note": "Over the real numbers. Findings: Connect compares element counts only, so differently shaped labels (C43_shape_refuted) and weights of any size (C43_weights_refuted) are accepted and read out of bounds."
 },
 "C60": {
  "note": "The full statement is false of the code. Proved: the input's gradient without sparsity weight. Findings: the parameters' gradients ignore the gradients of the outputs (C60_weights_refuted); the sparsity term lacks the factor a (C60_sparsity_refuted)."
 },
 "C65": {
  "note": "Over the real numbers, for one row and one map. Findings: other rows and maps are never written (C65_rows_refuted); the backward pass is the identity, not the derivative (C65_backward_refuted)."
 },
 "C56": {
  "note": "Threads interleave at the level of single reads and single writes of elements (read-modify-write is two steps). For every OpenMP loop of the library except the one in BinaryStatLayer (C50) and the OpenCL build: no data race, no fault, no stuck state, and every finished execution has the memory of the sequential loop. Each theorem assumes that the sequential loop succeeds (C34-C43, C57 prove when it does). Backward max pooling assumes recorded positions inside the image, which the forward pass records (C39). LRN assumes height <= width as C57 does. A refutation shows why disjointness is needed."
 },
 "C49": {
  "note": "Counts hold for any arithmetic (rounding included); sums, order independence and rates in exact arithmetic. Findings: Reset before Connect writes through null pointers; with rounding the totals depend on the order of the pixels."
 },
 "C50": {
  "note": "Counts for any arithmetic; the partition in exact arithmetic; monotonicity in the reals and for float addition with rounding. Finding: UpdateAll reads out of bounds when F1 is 0/0 at every threshold. The third (weight) tensor must have at least as many elements as the first; Connect checks only its samples."
 },
 "C45": {
  "note": "Validity, extraction and construction proved for all strings against an independent grammar; std::regex is modelled as POSIX matching (derivatives), and C45_group_unique shows that captures do not depend on the matching strategy."
 },
 "C46": {
  "note": "Proved for all valid descriptors in which only the parameter seed ends in 'seed' and its value is a number (tidy); validity, type and overriding hold for every descriptor. Refutations: a(xseed=5) is overwritten, a(seed=x) keeps its old seed in front, seeds above 2^31-1 cannot be read back."
 },
 "C47": {
  "note": "Every line and name: value of the first name= up to the next space, unchanged without one; numbers that fit into int, AxB sizes, settings at line starts, parameters of descriptors. Refutations for names that are suffixes of other names, sizes without x, names with x, bare identifiers and longer words."
 },
 "C48": {
  "note": "Proved from the text of the configuration file to the sizes accepted by the layer models; machine int overflow is a stated precondition. The original reading (patch size = dependency window) is refuted for strided convolutions (C48_window_refuted) and proved for the remaining case (C48_window); C48_window_general gives the exact difference."
 },
 "C58": {
  "note": "AddLayers over strings: every line, both stacks, final upscaling, loss layers; the layers of the network are exactly those the text describes, in order, with their parameters (C58_layers); defined behaviour iff stack limits are kept; a fully connected layer without a number of neurons is refused (C58_no_neurons); exact inputs of every layer; resulting graph satisfies the hypotheses of C17-C19 and C22. Values of datum parameters are read by an arbitrary function. Refuted: unchecked stacks, second output upscaled twice, group=0."
 },
 "C51": {
  "note": "Colorize over binary32 patterns, any number of classes and colours. Refuted: if no output is positive, class 0 is painted although another output is larger."
 },
 "C53": {
  "note": "ExtractPatches and ExtractLabels with the address arithmetic of data_ptr_const modulo 2^64; positions of patches within 2^-23 of the exact quotient. Refuted: larger patches read outside the image; the label is not that of the centre."
 },
 "C54": {
  "note": "Passes are oracles on an arbitrary world; counters unbounded. Findings: NaN ratios count as okay (C54_nan_refuted), skip_weights = 2^32-1 never terminates (C54_stride_refuted)."
 },
 "C55": {
  "note": "binary32/binary64 arithmetic modelled with SpecFloat and related to Flocq; pow(q,2.0) is taken as q*q. Finding: undefined conversion for very wide images (C55_wide_refuted)."
 },
 "C07": {
  "note": "Heap of numbered blocks; double release, release with the wrong function and access to released memory are UB. Values refine Tensor_Model (C07_resize_value, C07_new_value, C07_copy, C07_map_value, C07_move). Six refutations for unsupported uses. The preallocated/dont_delete form of Resize used by CompressedTensorStream is not part of the histories."
 },
 "C59": {
  "note": "Coders are parameters (their pixel loops are C52, the tensor format C04). Findings: .Tensor and .jpeg names never work (C59_tensor_refuted); refused PNGs leave an empty file and report success; unopenable JPG files are not reported."
 },
 "C66": {
  "note": "Relates the unbounded sizes of the other models to std::size_t. Finding: sizes in a file header wrap unnoticed (C66_wrap_refuted)."
 },
 "C67": {
  "note": "Number parsing of datum values is a parameter; counts use the model of atoi. Findings: a key without value (C67_bare_refuted), numbers above INT_MAX (C67_large_number_refuted)."
 },
 "C68": {
  "note": "Conversion of weights to float and the opening of files are parameters. Findings: mapped test tensors use a descriptor of the training file (C68_testing_descriptor_refuted), default after kitti keeps KITTI, weights given twice, colors before classes."
 },
 "C69": {
  "note": "Values are real numbers represented by binary32 patterns (Flocq). Finding: values outside [-1, 1] have no defined byte (C69_range_refuted)."
 },
 "C70": {
  "note": "The network is an arbitrary function of the shown tensors. Findings: padded height above the padded width with a height that is no multiple of 8 writes outside memory (C70_tall_refuted); images one pixel wide or high have NaN positions (C70_one_pixel_refuted)."
 },
 "C71": {
  "note": "Image decoding is a parameter. Finding: direct RGB labels from one-channel images read outside memory (C71_direct_gray_refuted)."
 },
 "C72": {
  "note": "Findings: while it rewrites, tensorStreamTool passes through an empty file (C72_interrupted_refuted); a missing file or the end of the input never ends the programs; writing back keeps only one tensor of a stream (C72_write_back_refuted)."
 },
 "C73": {
  "note": "Printing of numbers is a parameter that yields neither comma nor newline. Findings: a file that cannot be opened (C73_unwritable_refuted), descriptions with characters above 127 (C73_non_ascii_refuted), equal column names (C73_same_name_refuted)."
 },
 "C74": {
  "note": "Passes through the networks, initialisation, reading and writing parameter files, clock and number of weights are parameters of the model. Findings: tests are reported under the wrong epoch (C74_test_epoch_refuted), FCN mode forgets the momentum between trainings (C74_fcn_momentum_refuted), end of input loops for ever (C74_end_of_input_refuted), files of other networks (C74_other_sizes_refuted), graph of the wrong network (C74_graph_file_refuted), unreadable epoch numbers (C74_set_epoch_default_refuted)."
 },
 "C75": {
  "note": "Over the real numbers. A layer is given by what it does to the memory of the network; C75_gradient composes layers that obey the chain rule, C75_built adds the accumulation nodes Initialize inserts. C75_sigmoid to C75_normalization show that the modelled layers obey it; pooling where every region has one largest element, normalization for square images. C75_network: networks of these layers, with nothing assumed about the layers beyond matching shapes; the non-vacuity example has a shared output, a normalization and a statistics layer. C75_unused_output_refuted: outputs nobody asks for their gradient."
 },
 "C76": {
  "note": "Over the real numbers. The trainer of C23/C25 run on the networks of C75: the pass is FeedForward, losses, BackPropagate on the memory of the network. C76_iteration gives every parameter after an iteration in terms of the derivative of the loss the network reports; C76_descent the decrease of the loss. Away from kinks (inputs 0 of a rectifier, ties of a pooling). The samples of a pass are given by its number."
 },
 "C77": {
  "note": "long doubles are real numbers. C77_counts (what is counted), C77_table (shares and corrections), C77_reweighted (corrections balance, exact arithmetic). Findings: the table that ignores weights does not (C77_ignoring_weights_refuted), the other one applies them twice (C77_weights_twice_refuted)."
 },
 "C78": {
  "note": "The layers of AddLayers and their sizes; sizes without upper limit. C78_same_network (accepted together, complete together, same connections), C78_same_layers, C78_same_parameters. C78_sizes and C78_parameters: the sizes used here are those of the models of the layers themselves. Lines in which the word flatten occurs without asking for that layer are excluded: C78_mentioned_flatten_refuted."
 },
 "C79": {
  "note": "C79_whole_images and C79_patches: layers, inputs and sizes end to end, the size of the output is unique. Configurations without stack commands, one output line, padding less than the kernel (as in C48), no layer that resizes behind a spatial prior. C79_thin_kernels_refuted: kernels in one direction only."
 },
 "C80": {
  "note": "C80_initial_weights: which weights are drawn, with which range, from which engine, and what stays. C80_forgets: independence of earlier weights and gains. C80_bounded: the bound over the reals. C80_reset_refuted: biases survive reset. C80_seed_refuted: seed of a descriptor ignored."
 },
 "C81": {
  "note": "C81_statistics: the matrix after a test, for any arithmetic in which zero is neutral. C81_rates: the reported rates over the reals, and readiness for the next test. C81_dataset: datasets deliver their test set. The network is any function that treats samples independently. C81_loss_refuted: the test loss is averaged over fillers."
 },
 "C82": {
  "note": "One theorem per layer, C82_network for the whole graph, C82_computes: the network with batch size b computes what it computes with batch size 1, which is the hypothesis of C81. Any numbers, floats included. Matrix products are the loops of TensorMath.cpp; a BLAS or OpenCL product may add in another order for another batch size. Softmax, HMax, sparsity and dropout in training mode are not covered."
 },
 "C83": {
  "note": "C83_loss, C83_gradient and C83_training; the last compares two trainers with different batch sizes and passes per iteration that are shown the same samples. Real arithmetic: with floats the sums differ by rounding. Parameters at which a rectifier, maximum or border of a clamp is met are excluded (no derivative there). No dropout."
 },
 "C84": {
  "note": "C84_files: any calls to the aggregator (values of the lines included); C84_session: the commands of trainNetwork, with C74_reports. Files are functions from names to contents; the directory csv must exist and the files be writable (C73_unwritable_refuted)."
 },
 "C85": {
  "note": "C85_product for GEMM, C85_convolution for the whole layer in testing mode or without dropout, both against real arithmetic on the values of the same floats. The sequential order of the reference GEMM is modelled, not that of a BLAS."
 },
 "C86": {
  "note": "C86_network lifts the layer theorems to whole graphs; both networks run the same model code, one on binary32 bit patterns, one on real numbers. The exponential function of the C++ library is a parameter with a stated accuracy (C86_exponential shows that correct rounding meets it). Local response normalization, dropout while training and the backward pass are not covered."
 },
 "C87": {
  "note": "Joins C58 (what AddLayers connects), C19 (accumulation nodes) and C82 (layers treat samples alike). That CreateOutputs and Connect of the layers succeed with the stated shapes is a hypothesis (ConfigNet_Model.runs, one case per layer); their checks are C35, C41 and C42. The convolution is in testing mode. Statistics layers, which have no outputs, are not part of the text."
 },
 "C88": {
  "note": "Reads by std::istream::read; sizes are not reduced modulo 2^64 (C66) and running out of memory is not modelled. Compressed files are read without mapping. What happens to the incomplete tensor is in the _refuted theorems, which hold for every cut behind the third size of a tensor (for cuts inside the fourth size: if the bytes left of it tell its value)."
 },
 "C89": {
  "note": "Layer descriptions, descriptions and sizes of buffers are parameters. The reader of Draw_Spec.v understands lines of the form written here, not the whole language of graph files."
 },
 "C90": {
  "note": "As for C87 (prediction; image sizes the layers accept, squares for normalization). Which entries of the parameter list belong to which node is a parameter of the theorem. Both networks are made of the same text on the same input node."
 },
 "C91": {
  "note": "As for C87 (image sizes the layers accept, squares for normalization) and C81 (the test has enough iterations for the whole test set; the sums of the confusion matrix are exact, while the network computes in floats). The confusion matrix is that of the one output [out]."
 },
 "C92": {
  "note": "C92_run follows both trainers through Train with the inductive relation reaches for the states on the way; the condition on kinks is only about the samples shown at these states. Real arithmetic, gradient descent (not QuickProp), no dropout. That an iteration shows both the same samples is a hypothesis of C92_run; C92_samples derives it from the order of the samples, and C92_order shows that the dataset input layer keeps this order for all batch sizes (fully convolutional datasets: images of one size, since loss sampling uses random numbers per block of the batch's size). That loss sampling removes the same weights is not stated."
 },
 "C93": {
  "note": "Stated on the tensor memory of C07: shows means equal shape and equal memory block. The hypotheses ask for tensors with memory (an empty tensor cannot be shown safely: C07_empty_shadow_refuted). Findings: resizing the user's tensor leaves the layer with released memory (C93_resized_refuted), and what the layer makes up (helper, label, weight) is never filled (C93_alone_refuted)."
 },
 "C94": {
  "note": "Float arithmetic of the counters and of the reported numbers is modelled exactly. The network between input and output is a function of each sample (computes), as in C81; C94_configured proves this, in float arithmetic, for the networks of configuration texts (with C91_function). Weights must be non-negative floats (class and error weights of the datasets are). The last exception is C50_update_total_refuted; C94_report has it as its second case."
 },
 "C95": {
  "note": "Linux build with OpenCL; the OpenCL calls behind the choice of the device, messages and GTK are not modelled. Paths longer than the buffer of 16383 characters are excluded (length path <= room). Only files that can be read to their end are considered. The three exceptions are recorded as refutations."
 }
}