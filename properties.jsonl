{"id": "C01", "title": "Tensor addressing is a bijection onto the element range", "statement": "For a Tensor with any dimensions, the element number returned for in-range coordinates (x,y,map,sample) is below elements(), two different coordinates never share an element number, and every element number below elements() belongs to some coordinate, in the order sample, map, line, pixel.", "quantifier": "all tensor dimensions and all coordinates", "why_tests_cant": "tests sample a few shapes; aliasing shows only for particular combinations of width, height, maps and samples", "anchors": ["include/cn24/util/Tensor.h:Tensor::Offset"]}
{"id": "C02", "title": "Reshape and Resize keep the data exactly when the element count is unchanged", "statement": "Reshape succeeds exactly when the tensor holds memory and the requested shape has the same number of elements; on success all elements keep their value and element number, on failure nothing changes. Resize always ends with the requested shape (or the empty shape when the requested element count is zero) and preserves the data whenever Reshape would have succeeded.", "quantifier": "all tensors and all requested shapes, and all histories of Reshape and Resize calls", "why_tests_cant": "histories of resizes are unbounded and the interesting cases are the coincidences of element counts", "anchors": ["src/util/Tensor.cpp:Tensor::Reshape", "src/util/Tensor.cpp:Tensor::Resize", "src/util/Tensor.cpp:Tensor::DeleteIfPossible"]}
{"id": "C03", "title": "Transpose swaps width and height of every map and is an involution", "statement": "After Transpose, the shape has width and height exchanged, the value at (x,y,map,sample) is the previous value at (y,x,map,sample), and transposing twice restores the tensor. A tensor without memory is left alone.", "quantifier": "all tensors", "why_tests_cant": "needs every shape and every position", "anchors": ["src/util/Tensor.cpp:Tensor::Transpose"]}
{"id": "C04", "title": "Tensor serialization round-trips bit for bit and consumes exactly what it wrote", "statement": "Deserializing what Serialize wrote, followed by arbitrary other bytes, gives back a tensor with the same shape and bit-identical elements, for whatever tensor it is read into, and leaves the stream positioned exactly behind the tensor. Reading only the header yields the same shape and the same stream position.", "quantifier": "all tensors (including NaN patterns and empty tensors), all receiving tensors, all following stream contents", "why_tests_cant": "all bit patterns and all shapes", "anchors": ["src/util/Tensor.cpp:Tensor::Serialize", "src/util/Tensor.cpp:Tensor::Deserialize"]}
{"id": "C05", "title": "CopySample and CopyMap copy, zero-pad and touch nothing else", "statement": "Copying a sample (or map) into a target at least as large reproduces the source pixels in the top-left corner, writes zero in the rest of the target map and changes no other map or sample. When the call reports failure the target is unchanged. The call succeeds exactly when map counts agree, both sample numbers exist and the target is at least as wide and high as the source.", "quantifier": "all source and target shapes and sample numbers", "why_tests_cant": "frame conditions over all other elements and all shapes", "anchors": ["src/util/Tensor.cpp:Tensor::CopySample", "src/util/Tensor.cpp:Tensor::CopyMap"]}
{"id": "C06", "title": "Maximum searches return the first largest element", "statement": "Maximum, PixelMaximum and AbsMaximum return the position of the first element that is not smaller than any other comparable element of the searched sample, pixel or tensor; NaN is never preferred over a number above the lowest float; if no element beats the starting value the answer is 0.", "quantifier": "all float contents, including NaN, infinities and ties", "why_tests_cant": "ties, NaN and infinities in all positions", "anchors": ["src/util/Tensor.cpp:Tensor::Maximum", "src/util/Tensor.cpp:Tensor::PixelMaximum", "src/util/Tensor.cpp:Tensor::AbsMaximum"]}
{"id": "C07", "title": "Tensor memory is released exactly once", "statement": "For any history of constructing, copying, moving, resizing, shadowing, file-mapping, reading, writing and destroying tensors in which each operation is a supported one (no moving of a shadow or mapped tensor, no second mapping into a mapped tensor, no shadowing of a tensor without memory, no access to a shadow whose owner's memory is gone), no operation is undefined, no memory block is released twice, an owning tensor points to live memory that has no other owner, all live memory has an owner, when every tensor is destroyed every block has been released once, a shadow never releases the memory it borrows, and other tensors keep their shape, memory and contents. For each unsupported operation there is a history that goes wrong.", "quantifier": "all finite histories of tensor operations, all shapes and contents", "why_tests_cant": "double frees depend on histories", "anchors": ["src/util/Tensor.cpp:Tensor::Shadow", "src/util/Tensor.cpp:Tensor::Resize", "src/util/Tensor.cpp:Tensor::DeleteIfPossible", "src/util/Tensor.cpp:Tensor::Tensor(Tensor&&)"]}
{"id": "C08", "title": "Clear writes the requested value exactly where requested", "statement": "Clear without a sample number sets every element; with a valid sample number it sets exactly the elements of that sample and leaves all others unchanged.", "quantifier": "all tensors, values and sample numbers", "why_tests_cant": "frame condition", "anchors": ["src/util/Tensor.cpp:Tensor::Clear"]}
{"id": "C09", "title": "Run-length compression round-trips", "statement": "Decompressing a compressed tensor never fails, never reads outside the compressed bytes, restores the shape and the number of elements, and every element compares equal (as a float) to the original; elements that are NaN, or that are not zero, come back bit for bit, so a tensor without zeros of both signs comes back bit-identical.", "quantifier": "all sequences of 32-bit float patterns of any length", "why_tests_cant": "runs crossing the 253 limit, escaped marker bytes in any byte position, NaNs and signed zeros", "anchors": ["src/util/CompressedTensor.cpp:CompressedTensor::CompressData", "src/util/CompressedTensor.cpp:CompressedTensor::DecompressData", "src/util/CompressedTensor.cpp:CompressedTensor::Compress", "src/util/CompressedTensor.cpp:CompressedTensor::Decompress"]}
{"id": "C10", "title": "The compressor never overruns its output buffer", "statement": "The number of bytes produced for n elements is at most 8n, hence fits the buffer of 8n+2 bytes the caller allocates.", "quantifier": "all float sequences", "why_tests_cant": "worst case over all inputs", "anchors": ["src/util/CompressedTensor.cpp:CompressedTensor::CompressData", "src/util/CompressedTensor.cpp:CompressedTensor::Compress"]}
{"id": "C11", "title": "The decompressor rejects malformed data only by an error", "statement": "For every byte sequence the decoder either stops with an error, or yields elements determined by the documented escape and run encoding; it reads past the end of its input exactly when the data ends inside an escape or run.", "quantifier": "all byte sequences", "why_tests_cant": "arbitrary corrupted files", "anchors": ["src/util/CompressedTensor.cpp:CompressedTensor::DecompressData"]}
{"id": "C12", "title": "Compressed tensor files load back the tensors that were written", "statement": "A file made of the magic number followed by compressed tensors in sequence loads as exactly these tensors, in order, for any number of non-empty tensors; loading stops at the first empty tensor or at the end of the file.", "quantifier": "all lists of tensors", "why_tests_cant": "unbounded files", "anchors": ["src/util/CompressedTensorStream.cpp:LoadFile", "src/util/CompressedTensor.cpp:CompressedTensor::Serialize", "src/util/CompressedTensor.cpp:CompressedTensor::Deserialize"]}
{"id": "C13", "title": "Float tensor files load back the tensors that were written, and file kinds are told apart", "statement": "A file made of serialized non-empty tensors loads as exactly these tensors in order; a file is treated as compressed exactly when its first eight bytes are the magic number, so a float tensor file is misread only if its first tensor has that number of samples.", "quantifier": "all lists of tensors and all files", "why_tests_cant": "unbounded files", "anchors": ["src/util/FloatTensorStream.cpp:LoadFile", "src/util/TensorStream.cpp:FromFile"]}
{"id": "C14", "title": "Copying a sample out of a compressed stream equals copying it out of the uncompressed tensor", "statement": "For a valid target sample, both the fast path and the ordinary path of the compressed stream leave the target as if the stored tensor had been decompressed and copied with CopySample, and later requests are not affected by earlier ones.", "quantifier": "all stored tensors, targets and histories of requests", "why_tests_cant": "history dependence through the shared scratch tensor", "anchors": ["src/util/CompressedTensorStream.cpp:CopySample"]}
{"id": "C15", "title": "Statistics are only collected while recording", "statement": "For every sequence of calls, an update changes a statistic exactly when it happens while recording and the id is registered; starting, stopping, resetting and initializing take effect only in their allowed state, and every other call leaves the aggregator unchanged.", "quantifier": "all call sequences", "why_tests_cant": "unbounded histories", "anchors": ["src/util/StatAggregator.cpp:StatAggregator"]}
{"id": "C16", "title": "A snapshot reports everything recorded since the last reset and starts afresh", "statement": "Every sink receives, for each registered statistic, the output computed from exactly the updates made since the last reset; after a snapshot the statistics are back to their initial values while recording continues.", "quantifier": "all call sequences, sinks and statistics", "why_tests_cant": "unbounded histories", "anchors": ["src/util/StatAggregator.cpp:Snapshot", "src/util/StatAggregator.cpp:Generate", "src/util/StatAggregator.cpp:Reset"]}
{"id": "C17", "title": "A forward pass runs every node once, after all nodes it reads from", "statement": "For every acyclic network, FeedForward runs the layer of each node exactly once and never before the layers of all nodes it takes input from.", "quantifier": "all acyclic graphs and all orders in which the nodes were added", "why_tests_cant": "all graph shapes", "anchors": ["src/net/NetGraph.cpp:NetGraph::FeedForward"]}
{"id": "C18", "title": "A backward pass runs every node once, after all nodes it receives gradients from", "statement": "For every acyclic network, BackPropagate runs the layer of each node exactly once and never before the layers of the nodes it gets gradients from, and enables backpropagation for a layer exactly when one of its inputs wants a gradient.", "quantifier": "all acyclic graphs and all orders in which the nodes were added", "why_tests_cant": "all graph shapes", "anchors": ["src/net/NetGraph.cpp:NetGraph::BackPropagate"]}
{"id": "C19", "title": "Nodes used by several consumers get their gradients summed", "statement": "After Initialize, no node other than a gradient accumulation node has more than one backprop connection, every consumer of a formerly shared node reads a distinct output of its accumulation node, the accumulation node hands the data on unchanged and the producer's gradient is the sum of all consumers' gradients.", "quantifier": "all graphs", "why_tests_cant": "all graph shapes and consumer counts", "anchors": ["src/net/NetGraph.cpp:NetGraph::Initialize", "src/net/GradientAccumulationLayer.cpp"]}
{"id": "C20", "title": "Saved parameters are restored exactly", "statement": "Loading the parameters saved from a network into a network with the same layer structure restores every parameter bit for bit; loading a prefix restores exactly the layers covered.", "quantifier": "all networks and parameter contents", "why_tests_cant": "all networks", "anchors": ["src/net/NetGraph.cpp:NetGraph::SerializeParameters", "src/net/NetGraph.cpp:NetGraph::DeserializeParameters"]}
{"id": "C21", "title": "AddNode keeps registries and names consistent", "statement": "For any sequence of additions, the input, output, statistic, loss and training registries contain exactly the nodes of that kind in insertion order, automatically assigned names are pairwise different, and a backprop connection exists for exactly those input connections that want a gradient from a non-input node.", "quantifier": "all sequences of AddNode calls", "why_tests_cant": "unbounded histories", "anchors": ["src/net/NetGraph.cpp:NetGraph::AddNode"]}
{"id": "C22", "title": "The completeness check accepts only usable networks", "statement": "IsComplete returns true exactly when the network has at least one input and one output node, every node has a layer and a name and is not input and output at once, and every connection names an existing buffer of a non-null node. It does not detect connections to nodes outside the network.", "quantifier": "all graphs", "why_tests_cant": "all graph shapes", "anchors": ["src/net/NetGraph.cpp:NetGraph::IsComplete"]}
{"id": "C23", "title": "Gradient descent with momentum updates every weight by the documented rule", "statement": "For every parameter element the step taken is learning rate times the averaged, regularized and layer-scaled gradient plus momentum times the previous step of the same element; the weight decreases by the step, the step is remembered, and no element influences another.", "quantifier": "all parameter sets, gradients and histories of updates", "why_tests_cant": "unbounded training histories", "anchors": ["src/net/Trainer.cpp:Trainer::ApplyGradients"]}
{"id": "C24", "title": "The learning rate schedule is positive, starts at the configured rate and never increases", "statement": "With a positive base rate and non-negative gamma and exponent, the rate at iteration 0 is the base rate, it is positive and non-increasing in the iteration number.", "quantifier": "all settings and iterations", "why_tests_cant": "real-valued quantification", "anchors": ["src/net/Trainer.cpp:Trainer::CalculateLR"]}
{"id": "C25", "title": "An epoch performs exactly the configured work", "statement": "One epoch performs iterations x sequential-batch-size forward and backward passes, applies accumulated gradients once per iteration, with the learning rate of the global iteration number, and advances the epoch counter by one; gradients accumulated for an update are the sums over exactly that iteration's passes.", "quantifier": "all settings and numbers of epochs", "why_tests_cant": "unbounded histories", "anchors": ["src/net/Trainer.cpp:Trainer::Epoch", "src/net/Trainer.cpp:Trainer::Train"]}
{"id": "C26", "title": "Training resumed at an epoch uses the schedule of an uninterrupted run", "statement": "Setting the epoch and continuing uses the same learning rates as an uninterrupted run, and starts with cleared momentum history.", "quantifier": "all settings and epoch numbers", "why_tests_cant": "crash points", "anchors": ["src/net/Trainer.cpp:Trainer::SetEpoch", "src/net/Trainer.cpp:Trainer::Reset"]}
{"id": "C27", "title": "Training batches visit every training sample once per pass", "statement": "For every shuffling behaviour, every consecutive pass of n training draws (n = number of training samples, counted from the start) is a permutation of all training samples, regardless of batch size and of interleaved testing.", "quantifier": "all random generators, batch sizes, dataset sizes and call histories", "why_tests_cant": "all schedules of draws", "anchors": ["src/net/DatasetInputLayer.cpp:DatasetInputLayer::FeedForward", "src/net/DatasetInputLayer.cpp:DatasetInputLayer::SetTestingMode"]}
{"id": "C28", "title": "Testing visits every test sample once in order and ignores the filler", "statement": "After switching to testing mode, the draws yield test samples 0,1,2,... each exactly once with their dataset weights, and every further draw has all-zero weights, so it cannot influence statistics.", "quantifier": "all dataset sizes, batch sizes and call histories", "why_tests_cant": "all batch/dataset combinations", "anchors": ["src/net/DatasetInputLayer.cpp:DatasetInputLayer::FeedForward"]}
{"id": "C29", "title": "Loss sampling removes whole blocks and nothing else", "statement": "Loss sampling leaves each weight either unchanged or zero, decides one 12x12 block at a time with one random draw per block, and covers every pixel exactly once.", "quantifier": "all image sizes and random generators", "why_tests_cant": "image sizes not divisible by 12", "anchors": ["src/net/DatasetInputLayer.cpp:DatasetInputLayer::FeedForward"]}
{"id": "C30", "title": "Dataset dimensions fit all images and are multiples of 64", "statement": "The width and height reported by the dataset are the smallest multiples of 64 not below those of the images considered.", "quantifier": "all image sizes below 2^32-64", "why_tests_cant": "all sizes", "anchors": ["src/util/TensorStreamDataset.cpp:TensorStreamDataset::TensorStreamDataset"]}
{"id": "C31", "title": "A dataset sample is the stored image and label, zero-padded, with zero weight outside the image", "statement": "Requesting a sample within range fills exactly the requested batch slot with the stored image and label in the top-left corner and zero outside, position helpers inside the image and zero outside, and weights equal to the error function times the class weight of the labelled class inside and zero outside. Out-of-range requests fail.", "quantifier": "all datasets, samples and slots", "why_tests_cant": "frame conditions and all sizes", "anchors": ["src/util/TensorStreamDataset.cpp:GetTrainingSample", "src/util/TensorStreamDataset.cpp:GetTestingSample"]}
{"id": "C32", "title": "Patch numbers enumerate every patch of every image once", "statement": "Every training index below the reported count denotes one patch position of one image, all positions of all images are reached, each once, and the patch returned is the image window at that position with the label of its centre pixel.", "quantifier": "all image lists and patch sizes", "why_tests_cant": "all sizes", "anchors": ["src/util/TensorStreamPatchDataset.cpp:GetTrainingSample", "src/util/TensorStreamPatchDataset.cpp:GetTestingSample"]}
{"id": "C33", "title": "Colour-coded label images become one-hot labels or, with one class, a distance from the class colour", "statement": "For a list dataset with several classes, a label pixel is 1 in the map of every class whose colour it has and 0 in all others, so with distinct colours at most one map is set. For a list dataset with one class, the label of a pixel is 1 minus twice the distance (scaled to 0..1) of its colour from the colour of the class, so it is 1 exactly where an 8-bit pixel has that colour.", "quantifier": "all images and colour tables", "why_tests_cant": "all images", "anchors": ["src/util/ListTensorStream.cpp:CopySample"]}
{"id": "C34", "title": "GEMM computes the matrix product", "statement": "For all transposition flags, sizes and leading dimensions that describe matrices inside the buffers, the target becomes alpha times the product plus beta times its old value, and elements outside the target block are unchanged.", "quantifier": "all sizes, leading dimensions and contents", "why_tests_cant": "all index combinations", "anchors": ["src/math/TensorMath.cpp:TensorMath::GEMM", "src/math/TensorMath.cpp:TensorMath::GEMV"]}
{"id": "C35", "title": "Convolution forward equals cross-correlation with zero padding", "statement": "For all kernel, stride, padding and group settings for which the layer accepts the input, the output at each position is the bias plus the sum over the kernel window of weight times zero-padded input.", "quantifier": "all geometries and contents", "why_tests_cant": "all geometries", "anchors": ["src/net/ConvolutionLayer.cpp:FeedForward", "src/math/TensorMath.cpp:TensorMath::IM2COL", "src/math/TensorMath.cpp:TensorMath::SMS"]}
{"id": "C36", "title": "Column-to-image is the adjoint of image-to-column", "statement": "Propagating gradients back through the patch extraction distributes every patch element's gradient to exactly the pixel it was read from. This holds for all inputs that are at least as wide as high when there is no horizontal padding; the code violates it otherwise.", "quantifier": "all geometries and contents", "why_tests_cant": "all geometries", "anchors": ["src/math/TensorMath.cpp:TensorMath::COL2IM", "src/math/TensorMath.cpp:TensorMath::IM2COL"]}
{"id": "C37", "title": "Swapping sample and map is an involution", "statement": "SMS exchanges samples and maps without changing any map's pixels; applying it twice restores the tensor.", "quantifier": "all tensors", "why_tests_cant": "all shapes", "anchors": ["src/math/TensorMath.cpp:TensorMath::SMS"]}
{"id": "C38", "title": "Up- and downsampling match and are adjoint", "statement": "Upscaling replicates every pixel over its region, downsampling scales the sum over the region; averaging an upscaled tensor restores it and the two are adjoint linear maps.", "quantifier": "all tensors and region sizes", "why_tests_cant": "all sizes", "anchors": ["src/math/TensorMath.cpp:TensorMath::UP", "src/math/TensorMath.cpp:TensorMath::DOWN", "src/net/UpscaleLayer.cpp", "src/net/InputDownSamplingLayer.cpp"]}
{"id": "C39", "title": "Max pooling reports the maximum of each region and routes the gradient to where it came from", "statement": "Every output element is an element of its region and not smaller than any other; in the backward pass each input element receives the output gradient if it was selected and zero otherwise.", "quantifier": "all inputs and region sizes the layer accepts", "why_tests_cant": "all contents", "anchors": ["src/net/MaxPoolingLayer.cpp"]}
{"id": "C40", "title": "Overlapping max pooling reports window maxima and sums gradients over windows", "statement": "Every output is the first maximum of its window and each input's gradient is the sum of the gradients of the windows that selected it.", "quantifier": "all inputs, window sizes and strides with windows inside the input", "why_tests_cant": "overlapping windows in all positions", "anchors": ["src/net/AdvancedMaxPoolingLayer.cpp"]}
{"id": "C41", "title": "Concatenation, sum, border and spatial prior layers pass data and gradients through unchanged", "statement": "Forward, each of these layers places every input element at its documented output position (adding for the sum layer, zero for borders, coordinates for the prior maps); backward, every input receives exactly the gradient of the output positions its data went to.", "quantifier": "all shapes the layers accept", "why_tests_cant": "all shapes", "anchors": ["src/net/ConcatenationLayer.cpp", "src/net/SumLayer.cpp", "src/net/ResizeLayer.cpp", "src/net/SpatialPriorLayer.cpp"]}
{"id": "C42", "title": "Activation layers back-propagate the derivative of their forward function", "statement": "For tanh, sigmoid and rectifier layers the backward factor is the derivative of the forward function at the input (anywhere but 0 for the rectifier), outputs stay in (-1,1), (0,1) and [0,inf).", "quantifier": "all real inputs", "why_tests_cant": "real-valued quantification", "anchors": ["src/net/ActivationFunctions.cpp"]}
{"id": "C43", "title": "The loss layer's gradient is the derivative of its loss", "statement": "The delta written for each prediction element is the partial derivative of the reported loss with respect to that element; elements with zero weight contribute nothing; the loss is non-negative for non-negative weights and zero if prediction equals label.", "quantifier": "all predictions, labels, weights", "why_tests_cant": "real-valued quantification", "anchors": ["src/net/ErrorLayer.cpp"]}
{"id": "C44", "title": "Convolution output sizes", "statement": "A convolution layer accepts an input exactly when the kernel fits into the padded input and the groups divide the maps; the output size is the number of stride positions of the kernel inside the padded input, so every window read lies inside the padded input.", "quantifier": "all input and kernel sizes", "why_tests_cant": "integer corner cases", "anchors": ["src/net/ConvolutionLayer.cpp:CreateOutputs", "src/net/ConvolutionLayer.cpp:Connect"]}
{"id": "C45", "title": "Layer descriptors are validated and taken apart consistently", "statement": "A descriptor is valid exactly when it is a lower-case type, optionally followed by a parenthesized list of name=value pairs separated by single spaces; for a valid descriptor the extracted type and configuration put together give the descriptor again.", "quantifier": "all strings", "why_tests_cant": "all strings", "anchors": ["src/net/LayerFactory.cpp:IsValidDescriptor", "src/net/LayerFactory.cpp:ExtractConfiguration", "src/net/LayerFactory.cpp:ExtractLayerType"]}
{"id": "C46", "title": "Seed injection sets the seed and nothing else", "statement": "Injecting a seed into a valid descriptor yields a valid descriptor of the same type, and a later injection overrides an earlier one. If no other parameter's name ends in 'seed' and an existing seed is a number, the result carries the seed and leaves all other parameters unchanged and in order. An invalid descriptor is returned unchanged.", "quantifier": "all descriptors and seeds", "why_tests_cant": "all strings", "anchors": ["src/net/LayerFactory.cpp:InjectSeed"]}
{"id": "C47", "title": "Configuration lines are parsed predictably", "statement": "A parameter written as name=value at the start of the line or after a space, with no earlier occurrence of name=, is read as value up to the next space; a line without the name leaves the setting unchanged.", "quantifier": "all lines and names", "why_tests_cant": "all strings", "anchors": ["src/util/ConfigParsing.cpp"]}
{"id": "C48", "title": "The receptive field and scale factor match the configured layers", "statement": "For a configuration whose layers add no more padding than their kernels take away, the factor reported is the product of all strides. When training on patches, a patch of the reported size gives exactly one output pixel; otherwise an image enlarged by the reported border gives one output pixel per block of factor pixels, so that the upscaled output has the image's size. Without padding and with strides only in non-overlapping pooling, the patch is exactly the set of input pixels one output pixel depends on.", "quantifier": "all layer sequences", "why_tests_cant": "all layer sequences", "anchors": ["src/factory/ConfigurableFactory.cpp:ConfigurableFactory::ConfigurableFactory"]}
{"id": "C49", "title": "Confusion matrix statistics are consistent", "statement": "After any number of batches, the matrix entry (p,a) is the total weight of pixels labelled a and classified p, row/column sums match the per-class totals, the accuracy is the trace over the total and lies in [0,1]; reset clears everything; the result does not depend on the order of the pixels.", "quantifier": "all batches and histories", "why_tests_cant": "unbounded histories", "anchors": ["src/net/ConfusionMatrixLayer.cpp"]}
{"id": "C50", "title": "Binary classification statistics partition the weight", "statement": "After any number of batches, for every threshold true positives plus false negatives is the weight of the positive pixels, false positives plus true negatives that of the negative pixels, and raising the threshold never increases the positives.", "quantifier": "all batches and histories", "why_tests_cant": "unbounded histories", "anchors": ["src/net/BinaryStatLayer.cpp"]}
{"id": "C51", "title": "Colorize paints each pixel with the colour of its strongest class", "statement": "For several classes each target pixel is the colour of the first class with the largest output, provided that output is above the smallest positive normal float; otherwise the first class is used. For one class the colour is scaled by (output+1)/2. Nothing else in the target changes, and writing the picture gives back the bytes of the colours.", "quantifier": "all outputs and colour tables", "why_tests_cant": "all contents", "anchors": ["src/util/Colorize.cpp"]}
{"id": "C52", "title": "Eight bit images survive conversion to floats and back", "statement": "Every byte converted to a float channel and back on writing yields the same byte, for PNG and JPG.", "quantifier": "all byte values", "why_tests_cant": "float rounding of each value", "anchors": ["include/cn24/util/Config.h:DATUM_FROM_UCHAR", "src/util/PNGUtil.cpp", "src/util/JPGUtil.cpp"]}
{"id": "C53", "title": "Patches are extracted with mirrored borders", "statement": "For patches smaller than twice the image, the patch element at each offset is the image pixel at that offset from the centre, mirrored at the image border, and never lies outside the image; with mean subtraction the float mean of the patch is subtracted from each element. The helper tensor gives the vertical and horizontal position at which each patch begins (moved into the image), divided by the image size, up to rounding. The label of a patch is that of the pixel one to the right of and below its centre (not beyond the border), with weight 0 exactly for the ignored class.", "quantifier": "all image and patch sizes", "why_tests_cant": "all sizes", "anchors": ["src/util/Segmentation.cpp:ExtractPatches", "src/util/Segmentation.cpp:ExtractLabels"]}
{"id": "C54", "title": "Gradient checking leaves the network's parameters unchanged", "statement": "After a gradient check every parameter has its previous value. With skip_weights = s the tested weights are those with index 0, s+1, 2(s+1), ... of every tensor of every gradient safe layer; each of them is counted in exactly one of okay, tolerable and failed according to the ratio of numeric derivative and gradient (within 2%, within 20%, beyond), and the check is fatal exactly when requested and some tested weight failed. The test of a single tensor restores the tensor and succeeds exactly when all or more than 85% of its elements are okay. (Findings: a NaN ratio counts as okay; a stride that wraps to 0 never ends.)", "quantifier": "all networks (any effect of the passes on activations and random state), parameter values, strides; counts: all deterministic losses", "why_tests_cant": "holds for every network, parameter value and stride, including the order of the perturbed passes", "anchors": ["src/util/GradientTester.cpp"]}
{"id": "C55", "title": "The KITTI error weighting is positive and bounded", "statement": "For every pixel and image size for which the KITTI localized error is defined it is float(0.51*0.25) or lies between float(0.51) and float(0.51*49), in binary32/binary64 arithmetic with rounding; it is defined for all pixels of images up to 2^20 by 2^20, and it is the lowest value exactly above 190/370 of the height or outside the triangle in front of the car (for widths up to 4096 and heights up to 65536). (Finding: for very wide images the scaled coordinate exceeds int.)", "quantifier": "all coordinates and sizes", "why_tests_cant": "all pixels of all sizes; rounding of every intermediate float and double", "anchors": ["src/util/KITTIData.cpp:LocalizedError"]}
{"id": "C56", "title": "Parallel loops give the sequential result under every schedule", "statement": "For every layer and tensor operation whose loop over samples is declared parallel, the iterations write disjoint memory and read nothing written by other iterations, so every interleaving produces the sequential result.", "quantifier": "all schedules and shapes", "why_tests_cant": "all interleavings", "anchors": ["src/math/TensorMath.cpp", "src/net/MaxPoolingLayer.cpp", "src/net/ConcatenationLayer.cpp"]}
{"id": "C57", "title": "Local response normalization uses the documented neighbourhood", "statement": "Every output element is the input divided by a power of one plus alpha times the mean square of its neighbourhood, for every position of the map.", "quantifier": "all inputs and sizes", "why_tests_cant": "non-square inputs", "anchors": ["src/net/LocalResponseNormalizationLayer.cpp"]}
{"id": "C58", "title": "Network configuration files produce exactly the layers they describe", "statement": "Reading a network configuration whose lines are well-formed has defined behaviour exactly if its push and pop commands never take from an empty layer stack and never keep more than 64 entries on one; balanced commands leave both stacks empty and a balanced block leaves the most recent output unchanged. The network has exactly the layers the lines describe, in their order and with the given or default parameters. Each layer is connected to the most recently produced output (or, for concat and sum, to all entries of its stack), each output line adds exactly one output node and its loss layer, and the resulting network is acyclic with all connections leading to existing outputs.", "quantifier": "all configuration texts and all networks they are added to", "why_tests_cant": "all configurations", "anchors": ["src/factory/ConfigurableFactory.cpp:ConfigurableFactory::AddLayers"]}
{"id": "C59", "title": "File names select the file format", "statement": "LoadFromFile and WriteToFile choose the coder by the last three characters of the name: png or PNG selects PNG, jpg or JPG selects JPG, if the coder is built in; a written image is what the coder reads back under that name and other files keep their contents; every other name, including names shorter than three characters, is an error. (Names ending in Tensor or jpeg are therefore errors, although the code has branches for them; refused images and unopenable JPG files are not reported.)", "quantifier": "all file names, file system contents, tensors and build configurations", "why_tests_cant": "all strings", "anchors": ["src/util/Tensor.cpp:Tensor::LoadFromFile", "src/util/Tensor.cpp:Tensor::WriteToFile"]}
{"id": "C60", "title": "The sparse activation layer back-propagates its derivative", "statement": "The gradients the layer reports for its input and its two parameters are the derivatives of the downstream loss.", "quantifier": "all real inputs", "why_tests_cant": "real-valued quantification", "anchors": ["src/net/HMaxActivationFunction.cpp"]}
{"id": "C61", "title": "QuickProp moves every weight by its own bounded step", "statement": "With QuickProp every weight moves by a step computed from its own slope, last step and last slope, remembers both, and after the first iteration the step is at most mu times the last step plus learning rate times slope. The initial step should be taken by every weight of a fresh trainer.", "quantifier": "all parameter sets, gradients and histories", "why_tests_cant": "all histories of slopes and steps", "anchors": ["src/net/Trainer.cpp:Trainer::ApplyGradients"]}
{"id": "C62", "title": "Testing changes nothing and covers the test set", "statement": "A test run changes no weight, no momentum history and not the epoch, runs enough batches to visit every test sample, and returns the data layers to training mode.", "quantifier": "all networks, settings and test set sizes", "why_tests_cant": "all sizes and states", "anchors": ["src/net/Trainer.cpp:Trainer::Test"]}
{"id": "C63", "title": "List datasets keep images and labels paired", "statement": "Loading an image list and a label list adds, for each pair of corresponding lines up to the first pair with a line shorter than five characters and whose files have equal size, exactly one image entry followed by its label entry, in list order, and reports the number of entries added.", "quantifier": "all list files, directories and image sizes", "why_tests_cant": "all lists", "anchors": ["src/util/ListTensorStream.cpp:LoadFiles"]}
{"id": "C64", "title": "The convolution layer's backward pass computes the gradients of its forward pass", "statement": "After a forward pass, BackPropagate stores in each weight's gradient the sum over all samples and output positions of output gradient times the (zero-padded) input under that weight, in each bias's gradient the sum of the output gradients of its map, and, if the layer backpropagates, in each input pixel the sum over all windows covering it of output gradient times weight; these are the transposes of the forward pass as a linear map of the weights and of the image. For the input gradient this holds for inputs without horizontal padding that are at least as wide as high.", "quantifier": "all kernel sizes, strides, paddings and group counts the layer accepts, all inputs, weights, biases and output gradients", "why_tests_cant": "A gradient check samples a few sizes; the property quantifies over every geometry and every value, and the group, stride and padding index arithmetic can be wrong only for some of them.", "anchors": ["src/net/ConvolutionLayer.cpp: ConvolutionLayer::BackPropagate", "src/math/TensorMath.cpp: TensorMath::COL2IM, GEMM, GEMV"]}
{"id": "C65", "title": "Softmax outputs form a probability distribution", "statement": "For inputs of one row and one map, softmax writes exp(x_i) divided by the sum of exp(x_j) over the row of the same sample; the outputs are positive and sum to 1 for every sample.", "quantifier": "all real inputs, all widths and sample counts", "why_tests_cant": "real-valued quantification and unbounded widths", "anchors": ["src/net/ActivationFunctions.cpp:SoftmaxLayer"]}
{"id": "C66", "title": "Tensor sizes that fit in std::size_t are exact", "statement": "If the true number of elements of a requested shape is below 2^64, resizing and reshaping with wrapping 64-bit arithmetic give the same shape and amount of memory as exact arithmetic, and every position inside the shape has its exact offset, inside the memory. (Without the bound this fails: a file header can promise more samples than memory is allocated for.)", "quantifier": "all shapes, positions and previous states of the tensor", "why_tests_cant": "wrap-around needs sizes no test can allocate", "anchors": ["src/util/Tensor.cpp:Tensor::Resize", "src/util/Tensor.cpp:Tensor::Reshape", "src/util/Tensor.cpp:Tensor::Deserialize", "include/cn24/util/Tensor.h:Offset"]}
{"id": "C67", "title": "Training settings of a configuration file", "statement": "Reading a configuration file whose lines are comments, settings or unrelated text gives, for every setting, the value of its last line (or the previous value when it is not set), in whatever order and however often the settings appear, and no line changes a setting it does not name. The optimization method is the last known one that is named.", "quantifier": "all configuration files (any number of lines, any order, any repetition)", "why_tests_cant": "unbounded files; keys that are prefixes or suffixes of each other must never interfere", "anchors": ["src/factory/ConfigurableFactory.cpp:InitOptimalSettings", "src/util/ConfigParsing.cpp"]}
{"id": "C68", "title": "Dataset configuration files", "statement": "A dataset configuration that states the classes and their names, and then lists of colors and weights, training and testing files, an error function, nommap and other lines in any order is read back exactly: names are never interpreted as settings, colors and weights belong to the classes in their order, missing weights are 1, the last file named counts. Training and testing files are opened exactly when they are named and selected, and unreadable ones stop the program.", "quantifier": "all numbers of classes, names, color and weight texts, orders of the parts, and selections", "why_tests_cant": "unbounded files and names chosen by users", "anchors": ["src/util/TensorStreamDataset.cpp:TensorStreamDataset::CreateFromConfiguration", "src/util/TensorStreamPatchDataset.cpp:TensorStreamPatchDataset::CreateFromConfiguration"]}
{"id": "C69", "title": "Raw 8-bit export of a tensor", "statement": "Serializing a tensor whose values lie in [-1, 1] with conversion writes exactly one byte per element: pixel by pixel as r, g, b when the tensor has three maps, in memory order otherwise. Each byte lies between 0 and 254, grows with the value and is 127 + 127 v rounded down, up to float rounding.", "quantifier": "all tensors (shapes and float values in [-1, 1])", "why_tests_cant": "unbounded shapes and float values; the interleaving and the rounding must be right at every position", "anchors": ["src/util/Tensor.cpp:Tensor::Serialize", "include/cn24/util/Config.h:MCHAR_FROM_DATUM", "tools/tensorTool.cpp"]}
{"id": "C70", "title": "Classified images", "statement": "classifyImage shows the network the image padded with zeros to the least multiples of 8 together with the relative position of every pixel, and writes a picture of exactly the size of the image in which every pixel has the colour of the first strongest class (with one class: its colour scaled by half the value plus one).", "quantifier": "all images whose padded height does not exceed the padded width, all network outputs, all class colours", "why_tests_cant": "unbounded image sizes and network outputs; padding errors show only for particular sizes", "anchors": ["tools/classifyImage.cpp:main"]}
{"id": "C71", "title": "Tensor stream files made from lists", "statement": "makeTensorStream and makeCompressedTensorStream write exactly the image and the label of every used pair of lines of the lists whose sizes agree, in order. The file loads back as those tensors, compressed files up to the sign of zeros, and a dataset that reads the file gets the same samples as one that reads the lists.", "quantifier": "all lists, images, labels and class colours", "why_tests_cant": "unbounded lists and images; the file must agree with the list dataset for every one of them", "anchors": ["tools/makeTensorStream.cpp:main", "tools/makeCompressedTensorStream.cpp:main", "src/util/ListTensorStream.cpp"]}
{"id": "C72", "title": "Editing tensor files", "statement": "tensorStreamTool leaves the first n tensors in the file, unchanged when there are no more than n; interrupted while it writes it leaves a prefix of the new contents. A session of tensorTool leaves the file unchanged or holding exactly the tensor at the time of the last write command.", "quantifier": "all files, all n, all points of interruption, all command histories", "why_tests_cant": "crash points and command histories are unbounded", "anchors": ["tools/tensorStreamTool.cpp:main", "tools/tensorTool.cpp:main"]}
{"id": "C73", "title": "Statistics files are tables", "statement": "After an experiment is started, its statistics file has a header line and one line for every processed set of statistics, in order. All lines have the same number of fields, and the field under the name of a statistic holds its value, or nothing if the value is null. An earlier file of the same experiment is replaced, and files of other experiments do not change.", "quantifier": "all earlier states of the sink, descriptions, experiments and sequences of statistics", "why_tests_cant": "unbounded sequences of experiments and rows; columns must stay aligned for every set of statistics", "anchors": ["src/util/CSVStatSink.cpp:CSVStatSink::SetCurrentExperiment", "src/util/CSVStatSink.cpp:CSVStatSink::Process"]}
{"id": "C74", "title": "Sessions of trainNetwork", "statement": "A session of trainNetwork executes its lines in order until q or quit. In hybrid mode the network used for testing has, after every sequence of commands, exactly the parameters of the training network. Every epoch trained and every test reports one set of statistics to every sink, in order, with the right number of iterations and weights. Testing, saving, drawing graphs and switching statistics do not change training; training in pieces gives the same network as training at once. Save followed by load restores the parameters, reset and set epoch forget the history, and no command touches a file it does not name. If the files to load hold parameters for this network, no sequence of commands runs into undefined behaviour.", "quantifier": "all sequences of commands and all texts of scripts, both modes, all networks, learning rates, passes, clocks and file contents", "why_tests_cant": "the claims are about unbounded histories of commands; shared parameter memory and leftover history show only in particular orders", "anchors": ["tools/trainNetwork.cpp:main", "tools/trainNetwork.cpp:parseCommand", "tools/trainNetwork.cpp:help"]}
{"id": "C75", "title": "Back-propagation through a whole network", "statement": "A forward pass, the loss and a backward pass through a network leave in the parameter gradients exactly the gradient of the loss with respect to the parameters: if every layer does its own part of the chain rule, each number in a parameter's gradient is the derivative of the aggregated loss with respect to that number. This holds for every network of layers a program can build in which each output is used, also when outputs are shared by several layers, and does not depend on the gradients, data and flags left in memory by earlier passes. Logistic, hyperbolic tangent and rectifier activations (away from 0), sums, concatenations, convolutions, borders, spatial priors, upscaling, max-pooling (away from ties), local response normalization of square images and the weighted squared loss do their part, so for networks of these the claim holds without further assumptions on the layers.", "quantifier": "all acyclic networks, all layers (activations, losses, convolutions among them) obeying the chain rule at the point, all parameters, inputs and memory contents", "why_tests_cant": "gradient checks sample single networks and points; the claim is about every graph shape and sharing pattern and every real parameter vector", "anchors": ["src/net/NetGraph.cpp:FeedForward", "src/net/NetGraph.cpp:BackPropagate", "src/net/NetGraph.cpp:AggregateLoss", "src/net/NetGraph.cpp:Initialize", "src/net/GradientAccumulationLayer.cpp:BackPropagate", "src/net/ErrorLayer.cpp:FeedForward", "src/net/ActivationFunctions.cpp:BackPropagate", "src/net/SumLayer.cpp:BackPropagate", "src/net/ConcatenationLayer.cpp:BackPropagate", "src/net/ConvolutionLayer.cpp:BackPropagate", "src/net/ResizeLayer.cpp:BackPropagate", "src/net/SpatialPriorLayer.cpp:BackPropagate", "src/net/UpscaleLayer.cpp:BackPropagate", "src/net/MaxPoolingLayer.cpp:BackPropagate", "src/net/AdvancedMaxPoolingLayer.cpp:BackPropagate", "src/net/LocalResponseNormalizationLayer.cpp:BackPropagate"]}
{"id": "C76", "title": "Training steps of a network follow the gradient of its loss", "statement": "When a trainer with plain gradient descent runs one iteration on a network of the modelled layers, nothing fails, and every parameter of every layer moves by exactly the update rule applied to the true derivative of the loss the network reports, summed over the batches of the iteration: minus learning rate times the layer's local rate times (average derivative plus regularization), minus momentum times the last step. The reported loss is the average of the losses of these batches. Without regularization, and with no momentum or no earlier step, a sufficiently small learning rate makes the summed loss of these batches strictly smaller unless all derivatives are already 0. None of this depends on what earlier passes left in memory.", "quantifier": "all acyclic networks of the modelled layers, all parameters away from kinks, all batches, learning rates, momenta and regularization weights, all memory contents", "why_tests_cant": "a test trains one network on one data set; that each step is the derivative of the reported loss, for every network and every real parameter vector, is a statement about limits", "anchors": ["src/net/Trainer.cpp:Epoch", "src/net/Trainer.cpp:ApplyGradients", "src/net/NetGraph.cpp:FeedForward", "src/net/NetGraph.cpp:BackPropagate", "src/net/NetGraph.cpp:AggregateLoss", "src/net/NetGraph.cpp:Initialize"]}
{"id": "C77", "title": "Class statistics of a data set", "statement": "tensorStreamStats reports, for every class, the sum over all training samples of the weights of the pixels of that class (the class of a pixel is the first label map with the largest value; what lies outside an image counts nothing), the share of each class in the total, and a correction ratio. The shares add up to one; the corrected counts of the classes that occur are all equal and add up to the total; multiplying the class weights by the correction ratios balances the data set. The table that ignores weights does not depend on the class weights, and the other table contains each class weight once. With no counted class there is no ratio to report.", "quantifier": "all data sets of proper samples, all image sizes, labels, class weights and error functions", "why_tests_cant": "a test looks at the figures for one data set; that they balance every data set is an identity over all inputs", "anchors": ["tools/tensorStreamStats.cpp:main", "src/util/TensorStreamDataset.cpp:GetTrainingSample", "src/util/Tensor.cpp:PixelMaximum"]}
{"id": "C78", "title": "Training on patches and testing on whole images", "statement": "When a configuration asks for training on patches, the session builds two networks from the same configuration text: one is trained on patches, the other is tested on whole images with the parameters of the first. Either both are accepted or both are rejected, and one is complete exactly if the other is. The network for testing consists of the same layers in the same order, made with the same random seeds and connected in the same way, and differs only by borders of the size of the receptive field and by magnification to the size of the image. Whatever the sizes of patches and images, both have the same parameters in the same order and of the same sizes, so every parameter of the tested network finds the trained one at its position.", "quantifier": "all configuration texts, class counts, random numbers, data sets (sizes of patches and images)", "why_tests_cant": "a test builds the networks of one configuration; that two different runs of the parser agree for every text, branch structure and size is an induction over texts", "anchors": ["tools/trainNetwork.cpp:main", "src/factory/ConfigurableFactory.cpp:AddLayers", "src/factory/ConfigurableFactory.cpp:ConfigurableFactory", "src/net/NetGraph.cpp:GetParameters", "src/net/ConvolutionLayer.cpp:CreateOutputs", "src/net/ConvolutionLayer.cpp:Connect"]}
{"id": "C79", "title": "Networks fit their images", "statement": "A network built from a configuration without branches fits its data. For whole images whose sides are multiples of the reported factors, and for patches of the reported receptive field, every layer accepts the inputs it is connected to, down to the loss layer that compares with the labels, and the network is complete. The output has exactly one pixel for every pixel of the image (one pixel for a patch), and the number of channels that the last layers give, whatever convolutions, poolings, priors and activations are in between. Exception: kernels that extend in one direction only.", "quantifier": "all configuration texts without branches with one output line, all image sizes that are multiples of the factors, batch sizes, channel and class counts", "why_tests_cant": "a test builds one network for one image size; that the reported border and factor cancel what an arbitrary sequence of layers does to every size needs induction over the layers", "anchors": ["src/factory/ConfigurableFactory.cpp:ConfigurableFactory", "src/factory/ConfigurableFactory.cpp:AddLayers", "src/net/ErrorLayer.cpp:CreateOutputs", "src/net/UpscaleLayer.cpp:CreateOutputs", "src/net/ResizeLayer.cpp:CreateOutputs", "src/net/ConvolutionLayer.cpp:CreateOutputs"]}
{"id": "C80", "title": "Initial weights", "statement": "Initialising the weights of a network gives every convolution new weights, drawn from its own random numbers between -r and r, where r = sqrt(6 / (inputs of one of its units + inputs of the units that consume its output)); pooling layers in between share the inputs behind them among the pixels of their region. Whatever the network was trained to and however often it was initialised before leaves no trace in the new weights. Layers outside the network and all other parameters stay as they are. Exceptions: biases are not reset, and the seed in a layer descriptor is ignored.", "quantifier": "all acyclic networks, layer sizes, earlier weights and gains, random number engines", "why_tests_cant": "a test sees one network and one draw; that the range is right behind every chain and fork of layers, and that nothing of the old weights remains, needs induction over the order in which the layers are visited", "anchors": ["src/net/NetGraph.cpp:InitializeWeights", "src/net/ConvolutionLayer.cpp:OnLayerConnect", "include/cn24/net/Layer.h:OnLayerConnect", "include/cn24/net/MaxPoolingLayer.h:Gain", "tools/trainNetwork.cpp:reset"]}
{"id": "C81", "title": "Reported accuracy is that of the whole test set", "statement": "When a test finishes, its confusion matrix holds every pixel of every test sample exactly once, with the class the network gives it, the class of its label and its weight, and nothing else with any weight, however the test set is divided into batches; the recognition rates and the average intersection over union that are reported are those of all these pixels, and the network and the trainer are ready for the next test. Samples from a dataset show their image and label, and pixels outside the image have no weight. Exception: the reported test loss is also averaged over the fillers of the last batch.", "quantifier": "all networks that treat the samples of a batch independently, all test sets, batch sizes, class numbers, earlier contents of the outputs and states of the input layer", "why_tests_cant": "a test sees a few sizes of test sets and batches; that no sample is lost or counted twice at the border of batches needs induction over slots and batches", "anchors": ["src/net/Trainer.cpp:Test", "src/net/DatasetInputLayer.cpp:FeedForward", "src/net/ConfusionMatrixLayer.cpp:FeedForward", "src/net/ConfusionMatrixLayer.cpp:UpdateAll", "tools/trainNetwork.cpp:parseCommand", "tools/trainNetwork.cpp:addStatLayers", "src/util/TensorStreamDataset.cpp:GetTestingSample"]}
{"id": "C82", "title": "The output for a sample depends on this sample only", "statement": "What a network puts out for a sample is, bit for bit, the same whatever the other samples of the batch are, whatever the batch size and the slot of the sample are and whatever was in memory before; in particular it is what the network puts out for the sample alone in a batch of one. This holds at every node of every network made of input layers, activation functions, sums, concatenations, borders, spatial priors, up-scaling, both poolings, normalization of square images, accumulation nodes and convolutions (in testing mode, or without dropout), and therefore the network computes a function of image and helper maps.", "quantifier": "all acyclic networks of such layers, all parameters, batch sizes, slots, batches, number systems (floats included) and earlier memory contents", "why_tests_cant": "a test compares a few batches on one network; independence must hold for every graph, batch and layer configuration, and rounding could hide or show only for particular values", "anchors": ["src/net/NetGraph.cpp:FeedForward", "src/net/ConvolutionLayer.cpp:FeedForward", "src/net/ActivationFunctions.cpp", "src/net/SumLayer.cpp:FeedForward", "src/net/ConcatenationLayer.cpp:FeedForward", "src/net/ResizeLayer.cpp:FeedForward", "src/net/SpatialPriorLayer.cpp:FeedForward", "src/net/UpscaleLayer.cpp:FeedForward", "src/net/MaxPoolingLayer.cpp:FeedForward", "src/net/AdvancedMaxPoolingLayer.cpp:FeedForward", "src/net/LocalResponseNormalizationLayer.cpp:FeedForward", "src/math/TensorMath.cpp:GEMM"]}
{"id": "C83", "title": "A batch trains with the sum of the gradients of its samples", "statement": "The loss a network reports for a batch is the sum of the losses it reports for the samples of the batch, and a training pass over the batch leaves, as the gradient of each parameter, the sum of the gradients that passes over the single samples leave, whatever earlier passes left in memory. Hence a training iteration changes the parameters, and reports a loss, by the set of samples it is shown only: how these are ordered, and how they are divided into parallel batches and sequential passes, does not matter.", "quantifier": "all trainable acyclic networks of the layers of C75, all parameters at which no kink is met, batch sizes, passes per iteration, orders of samples, learning rates, optimization methods and earlier memory contents; real numbers instead of floats", "why_tests_cant": "a test compares few divisions of few samples on one network, and rounding blurs the comparison; the equality must hold for every network, batch size and order", "anchors": ["src/net/Trainer.cpp:Epoch", "src/net/Trainer.cpp:ApplyGradients", "src/net/NetGraph.cpp:BackPropagate", "src/net/ConvolutionLayer.cpp:BackPropagate", "src/net/ErrorLayer.cpp:CalculateLossFunction"]}
{"id": "C84", "title": "The files of the experiments record what was trained and tested", "statement": "After any session the file csv/NAME.csv of every experiment is a table with a header and exactly one line for each report made while that experiment was the current one, since it was last set: one for each epoch of training (or each train command without snapshots) and one for each test. A line shows whether it was training, the epoch, the iterations, the time and the value of every statistic at that report, in the order of the header, with an empty field for a value that is null. No other file changes. Exceptions: going back to an experiment, or starting the program, erases the file; a sink that is registered late gets no statistics.", "quantifier": "all sequences of calls to the statistics after registration and initialization, all sessions of commands, experiment names, statistics, number formats without commas and line ends, and earlier contents of the files", "why_tests_cant": "a test looks at the file of one short session; that no line is lost, doubled or put into the file of another experiment needs induction over commands and calls", "anchors": ["src/util/CSVStatSink.cpp:Initialize", "src/util/CSVStatSink.cpp:Process", "src/util/CSVStatSink.cpp:SetCurrentExperiment", "src/util/StatAggregator.cpp:Generate", "src/util/StatAggregator.cpp:SetCurrentExperiment", "tools/trainNetwork.cpp:parseCommand"]}
{"id": "C85", "title": "Computed products and convolutions are close to the exact ones", "statement": "Every element of a matrix product, and every pixel a convolution layer puts out, is a finite number that differs from what exact arithmetic gives on the same inputs, weights and biases by at most (n + 4) / 2^23 times the sum of the absolute values of the terms, plus a term of the size of the smallest floats, where n is the number of terms of the sum. This holds wherever the terms do not add up to more than 2^124. It is not a bound relative to the result: terms that cancel may leave no correct digit, and outside the range the result may be no number at all.", "quantifier": "all matrices, leading dimensions, transpositions, factors, kernels, strides, paddings, groups, images, weights and batch sizes, sums of at most 2^20 terms, all finite floats within the range", "why_tests_cant": "a test compares a few results with a tolerance it picks; a bound must hold for every choice of floats and grows with the number of terms", "anchors": ["src/math/TensorMath.cpp:GEMM", "src/net/ConvolutionLayer.cpp:FeedForward", "src/math/TensorMath.cpp:IM2COL"]}
{"id": "C86", "title": "A network computed in floats stays close to the exact network", "statement": "A forward pass through a network of convolutions (without dropout or in testing mode), rectifiers, logistic functions, hyperbolic tangents, sums, concatenations, borders, spatial priors, upscaling and maximum pooling layers puts out finite numbers only, and every output of every layer differs from what exact arithmetic gives by at most a bound that follows from the shapes, the weights and the size of the inputs, layer by layer: rectifiers, pooling, upscaling, borders and concatenations add no error; a sum adds one rounding; a convolution multiplies the error of its input by at most the sum of the absolute weights of an output map and adds (n + 4) / 2^23 of its size; the logistic function divides the error by four and the hyperbolic tangent keeps it, each adding the error of the exponential function and of the roundings.", "quantifier": "all graphs without cycles, all shapes, parameters, images, batch sizes, contents of memory before, and all error bounds of the inputs, within the range of floats; all exponential functions that are accurate in a range", "why_tests_cant": "errors depend on every intermediate value and grow along the layers; tests compare a few outputs with a tolerance and have no exact network to compare with", "anchors": ["src/net/NetGraph.cpp:FeedForward", "src/net/ConvolutionLayer.cpp:FeedForward", "src/net/ActivationFunctions.cpp:FeedForward", "src/net/AdvancedMaxPoolingLayer.cpp:FeedForward", "src/net/MaxPoolingLayer.cpp:FeedForward", "src/net/SumLayer.cpp:FeedForward", "src/net/SpatialPriorLayer.cpp:FeedForward"]}
{"id": "C87", "title": "A network described by a configuration predicts every image on its own", "statement": "Take a network read from any configuration text on top of a dataset input, and initialized. No layer but the loss functions reads labels or weights of the batch, so predictions depend on images and helper maps only. Every output of the network for a sample is the one the network computes for this sample alone: it does not depend on the size of the batch, the slot of the sample, the other samples, the labels and weights, or on what was in memory before, although readers of one layer are given accumulation nodes in between.", "quantifier": "all configuration texts whose lines are accepted, with any use of the two stacks, all layers they can name (normalization for square images), all shapes, parameters, batch sizes, slots, images and contents of memory", "why_tests_cant": "every text gives another graph; tests run a few fixed networks with one batch size and cannot show that no connection leaks a label or another sample", "anchors": ["src/factory/ConfigurableFactory.cpp:AddLayers", "src/net/NetGraph.cpp:Initialize", "src/net/NetGraph.cpp:FeedForward", "src/net/DatasetInputLayer.cpp", "src/net/InputDownSamplingLayer.cpp:FeedForward", "src/net/HMaxActivationFunction.cpp:FeedForward"]}
{"id": "C88", "title": "Files that are cut short or damaged", "statement": "Reading a tensor file, a compressed tensor file or a parameter file ends whatever bytes it holds; the tensors that come out are consistent, and no layer gains or loses a parameter. tensorStreamTool ends on every existing file. If a tensor file is cut at any byte, the tensors before the cut are loaded unchanged. (False of the code: that the incomplete tensor is refused. It is handed out in full size with uninitialized values, a mapped file faults on access, and a parameter is left half restored.)", "quantifier": "all byte sequences, all tensors, all positions of the cut, all networks", "why_tests_cant": "a file can be cut or damaged at every byte; tests try a few", "anchors": ["src/util/Tensor.cpp:Deserialize", "src/util/FloatTensorStream.cpp:LoadFile", "src/util/CompressedTensorStream.cpp:LoadFile", "src/util/CompressedTensor.cpp:Deserialize", "src/net/NetGraph.cpp:DeserializeParameters", "tools/tensorStreamTool.cpp:main"]}
{"id": "C89", "title": "The drawing of a network tells its nodes and connections", "statement": "The file the training tool writes for the command graph declares exactly the nodes of the network in order, inputs in red and outputs in blue, each labelled with name, layer and one port for each of its outputs with its sizes, and draws exactly the connections: from the port of the output that is read to the reader, dotted if and only if no gradient is handed back. A network IsComplete accepts can be drawn, and every edge starts at a port that exists.", "quantifier": "all networks with names without spaces, colons and line breaks (the automatic ones are), all layer descriptions and sizes", "why_tests_cant": "networks, names and sizes are unbounded; a test compares a few drawings", "anchors": ["src/net/NetGraph.cpp:PrintGraph", "tools/trainNetwork.cpp:parseCommand", "src/util/Tensor.cpp:operator<<", "src/net/NetGraph.cpp:IsComplete"]}
{"id": "C90", "title": "A saved network predicts the same after loading it elsewhere", "statement": "Save the parameters of a network to a file and load the file in another process, into a network made of the same configuration with any other parameters: from then on every image gets, bit for bit, the same prediction in both. The size of the batches, the place of the image in its batch, the other images, the labels, the weights and what was in memory may all differ. A network that runs for batches of one size can be set up for batches of every size.", "quantifier": "all configurations the factory accepts (lines without stray characters), all parameters and images, all batch sizes and slots, all earlier contents of memory", "why_tests_cant": "configurations, parameters, images and batches are unbounded; a test compares a few predictions of one network", "anchors": ["src/net/NetGraph.cpp:SerializeParameters", "src/net/NetGraph.cpp:DeserializeParameters", "src/net/NetGraph.cpp:FeedForward", "src/factory/ConfigurableFactory.cpp:AddLayers", "tools/classifyImage.cpp:main", "tools/trainNetwork.cpp:parseCommand"]}
{"id": "C91", "title": "What a test reports depends only on configuration, parameters and test set", "statement": "A network made of a configuration is, with given parameters, one function from image and helper maps to its output, whatever the size of the batches, the other images, and the contents of memory. So two tests of the same test set, with different batch sizes, in different processes, with the samples loaded into any slots, report the same recognition rates and the same average intersection over union: those of all pixels of the test set, each classified as the network classifies its image on its own.", "quantifier": "all configurations the factory accepts (lines without stray characters), all parameters, test sets, batch sizes, states of the input layer, earlier contents of memory; sums of weights in exact arithmetic", "why_tests_cant": "configurations, test sets and batch sizes are unbounded; a test compares a few runs", "anchors": ["src/net/Trainer.cpp:Test", "src/net/ConfusionMatrixLayer.cpp:FeedForward", "src/net/NetGraph.cpp:FeedForward", "src/factory/ConfigurableFactory.cpp:AddLayers", "src/net/DatasetInputLayer.cpp:FeedForward", "tools/trainNetwork.cpp:parseCommand"]}
{"id": "C92", "title": "A whole training run does not depend on the division into batches", "statement": "Two trainings that start with the same parameters, momentum and epoch and have the same settings, except that one runs several small batches per iteration where the other runs fewer larger ones, end with the same parameters, momentum and epoch after any number of epochs, and report the same loss in every iteration, if each iteration shows both the same samples in any order. The dataset input layer does show them the same samples: with the same seed, the order of the training samples does not depend on the batch size, nor on tests between the batches.", "quantifier": "all networks the graph accepts, parameters, learning rates, numbers of epochs and iterations, batch sizes, samples and their order within an iteration, with and without snapshots; gradient descent, real arithmetic, and no state of the run exactly at a kink", "why_tests_cant": "the numbers of epochs and iterations are unbounded, and a difference could appear only in the momentum and show many iterations later; a test compares a few short runs up to a tolerance", "anchors": ["src/net/Trainer.cpp:Train", "src/net/Trainer.cpp:Epoch", "src/net/Trainer.cpp:ApplyGradients", "src/net/NetGraph.cpp:BackPropagate", "src/net/DatasetInputLayer.cpp:SelectAndLoadSamples"]}
{"id": "C93", "title": "An input layer shows the network the user's own tensors", "statement": "An input layer made from the user's data and helper tensors (or data, label, helper and weight) takes tensors with equally many samples and refuses others; its outputs have the shapes of these tensors and share their memory, their gradients are new memory, and no tensor or memory that existed is changed. Afterwards the network always finds the values the user's tensors hold, and a value the user writes is seen at once, as long as neither tensor is moved, destroyed, resized, redirected or remapped. The layer gives the network data, label, helper and weight in this order, and makes up what the user did not pass in new memory of the documented shape.", "quantifier": "all histories of tensor operations before and after the constructor, all shapes and values, all tensors with memory (also shadows and mapped files, also the same tensor twice), all junk contents of new memory", "why_tests_cant": "the sharing must survive every sequence of later operations on any tensor; a test tries a few sequences", "anchors": ["src/net/InputLayer.cpp:InputLayer", "src/net/InputLayer.cpp:CreateOutputs", "src/util/Tensor.cpp:Shadow", "include/cn24/util/CombinedTensor.h:CombinedTensor"]}
{"id": "C94", "title": "Reported detection statistics are those of the whole test set", "statement": "For a network with one class, a test reports precision, recall, false positive and false negative rate, accuracy and F1 of the first threshold with the largest F1, counted over every pixel of every test sample exactly once with its weight; what fills up the last batch does not change the float counters at all. The report therefore depends only on the test set and on what the network computes: it is the same for all batch sizes and whatever memory and random numbers hold. Afterwards counters, input layer and parameters are ready for the next test. Exception: when the F1 value of no threshold is a number, the program reads outside of its arrays.", "quantifier": "all test sets, batch sizes, thresholds, networks that treat each sample on its own, non-negative weights (in float arithmetic with rounding), initial contents and histories of the input layer", "why_tests_cant": "test sets and batch sizes are unbounded, and a filler that counts, or one that changes the rounding, shows only for particular sizes", "anchors": ["src/net/Trainer.cpp:Test", "src/net/BinaryStatLayer.cpp:FeedForward", "src/net/BinaryStatLayer.cpp:UpdateAll", "src/net/DatasetInputLayer.cpp:SelectAndLoadSamples", "tools/trainNetwork.cpp:addStatLayers"]}
{"id": "C95", "title": "The OpenCL device in use is the one the configuration file names", "statement": "System::Init looks for the file config in the directory of the program and, only if there is none, in the directory above; no other file matters. The platform and device numbers are those of the last line of that file that sets them, 0 where no line does and without a file, and the device used is the one with these numbers. The log level is the requested one, or the default of the build for -1. Exceptions: numbers for which there is no platform or device are not detected (an array is read behind its end), a key without a value ends the program, and a line that only begins like a setting resets the number to 0.", "quantifier": "all paths of the program, file systems, configuration texts, sets of platforms and devices, log levels", "why_tests_cant": "paths, texts and machines are unbounded, and no test machine has all combinations of platforms and devices", "anchors": ["src/util/Init.cpp:System::Init", "src/util/Init.cpp:System::GetExecutablePath", "src/util/Init.cpp:CLHelper::Init", "src/util/ConfigParsing.cpp:ParseUIntIfPossible"]}
