-Q theories Verif
theories/Base.v
theories/BaseFacts.v
theories/Float32.v
theories/Float32_Flocq.v
theories/Tensor_Model.v
theories/Tensor_Spec.v
theories/Tensor_Proofs.v
theories/Tensor_Props.v
theories/Bytes_Model.v
theories/Codec_Model.v
theories/Codec_Spec.v
theories/Stream_Spec.v
theories/Codec_Proofs.v
theories/Codec_Props.v
theories/Stream_Model.v
theories/StreamFiles_Spec.v
theories/Stream_Proofs.v
theories/Stream_Props.v
theories/Stat_Model.v
theories/Stat_Spec.v
theories/Stat_Proofs.v
theories/Stat_Props.v
theories/Graph_Model.v
theories/Graph_Spec.v
theories/Dfs_Proofs.v
theories/Graph_Proofs.v
theories/GraphAdd_Proofs.v
theories/GraphAccum_Proofs.v
theories/LoopFacts.v
theories/Accumulate_Model.v
theories/Accumulate_Proofs.v
theories/Graph_Props.v
theories/NetParams_Model.v
theories/NetParams_Proofs.v
theories/NetParams_Props.v
theories/Trainer_Model.v
theories/Trainer_Spec.v
theories/Trainer_Proofs.v
theories/TrainerLoop_Proofs.v
theories/Schedule_Model.v
theories/Schedule_Proofs.v
theories/Trainer_Props.v
theories/DatasetInput_Model.v
theories/DatasetInput_Spec.v
theories/DatasetInput_Proofs.v
theories/DatasetInput_Props.v
theories/Dataset_Model.v
theories/Dataset_Spec.v
theories/Dataset_Proofs.v
theories/Dataset_Props.v
theories/Patch_Model.v
theories/Patch_Spec.v
theories/Patch_Proofs.v
theories/Patch_Props.v
theories/FloatOps.v
theories/Pixel_Model.v
theories/Pixel_Proofs.v
theories/Pixel_Props.v
theories/List_Model.v
theories/List_Props.v
theories/Num.v
theories/Math_Model.v
theories/Math_Spec.v
theories/Math_Proofs.v
theories/Conv_Proofs.v
theories/Conv2_Proofs.v
theories/ConvLayer_Model.v
theories/ConvLayer_Spec.v
theories/ConvLayer_Proofs.v
theories/ConvExact_Proofs.v
theories/ConvReady_Proofs.v
theories/Conv_Props.v
theories/FloatInt_Proofs.v
theories/Pool_Model.v
theories/Pool_Spec.v
theories/Pool_Proofs.v
theories/Pool_Props.v
theories/RealNum.v
theories/Layers_Model.v
theories/Layers_Proofs.v
theories/Layers_Props.v
theories/LRN_Model.v
theories/LRN_Spec.v
theories/LRN_Proofs.v
theories/LRN_Grad.v
theories/LRN_Props.v
theories/Act_Model.v
theories/Act_Spec.v
theories/Act_Proofs.v
theories/Act_Props.v
theories/Par_Model.v
theories/Par_Proofs.v
theories/Par_Props.v
theories/FloatOps_Flocq.v
theories/StatLayers_Model.v
theories/StatLayers_Spec.v
theories/StatLayers_Proofs.v
theories/StatLayers2_Proofs.v
theories/StatLayers3_Proofs.v
theories/StatLayers_Props.v
theories/Str_Model.v
theories/Str_Proofs.v
theories/Regex_Model.v
theories/Regex_Proofs.v
theories/LayerFactory_Model.v
theories/LayerFactory_Spec.v
theories/LayerFactory_Proofs.v
theories/Config_Model.v
theories/Config_Spec.v
theories/Config_Proofs.v
theories/Seed_Proofs.v
theories/LayerFactory_Props.v
theories/Config_Props.v
theories/Receptive_Model.v
theories/Receptive_Spec.v
theories/Receptive_Proofs.v
theories/Receptive_Props.v
theories/Factory_Model.v
theories/Factory_Spec.v
theories/Factory_Proofs.v
theories/FactoryRun_Proofs.v
theories/FactoryLines_Proofs.v
theories/Factory_Props.v
theories/FactoryLayers_Spec.v
theories/FactoryLayers_Props.v
theories/Colorize_Model.v
theories/Colorize_Props.v
theories/Segmentation_Model.v
theories/Segmentation_Props.v
theories/SegmentationHelper_Props.v
theories/Float64.v
theories/Float64_Flocq.v
theories/Kitti_Model.v
theories/Kitti_Props.v
theories/Gradient_Model.v
theories/Gradient_Props.v
theories/Heap_Model.v
theories/Heap_Spec.v
theories/Heap_Proofs.v
theories/Heap_Props.v
theories/Files_Model.v
theories/Files_Props.v
theories/SizeWrap_Model.v
theories/SizeWrap_Props.v
theories/Settings_Model.v
theories/Settings_Props.v
theories/DatasetConfig_Model.v
theories/DatasetConfig_Props.v
theories/FloatNonneg.v
theories/StatReport_Props.v
theories/Raw_Model.v
theories/Raw_Props.v
theories/Single_Model.v
theories/Single_Props.v
theories/UBFacts.v
theories/Classify_Model.v
theories/Classify_Props.v
theories/MakeStream_Model.v
theories/MakeStream_Props.v
theories/ToolStream_Model.v
theories/ToolStream_Props.v
theories/Csv_Model.v
theories/Csv_Props.v
theories/Session_Model.v
theories/Session_Spec.v
theories/Session_Proofs.v
theories/SessionSteps_Proofs.v
theories/Session_Props.v
theories/StatFiles_Model.v
theories/StatFiles_Spec.v
theories/StatFiles_Props.v
theories/Backprop_Model.v
theories/Backprop_Spec.v
theories/Backprop_Proofs.v
theories/BackpropForward_Proofs.v
theories/BackpropBackward_Proofs.v
theories/BackpropBuilt_Proofs.v
theories/Backprop_Props.v
theories/BackpropLayers_Model.v
theories/BackpropLayers_Spec.v
theories/BackpropLayers_Proofs.v
theories/BackpropLayers_Props.v
theories/BackpropMap_Proofs.v
theories/BackpropNorm_Proofs.v
theories/BackpropMap_Props.v
theories/BackpropNet_Spec.v
theories/BackpropNet_Proofs.v
theories/BackpropReady_Proofs.v
theories/BackpropNet_Props.v
theories/TrainNet_Model.v
theories/TrainNet_Spec.v
theories/TrainNet_Proofs.v
theories/TrainNet_Props.v
theories/StreamStats_Model.v
theories/StreamStats_Spec.v
theories/StreamStats_Proofs.v
theories/StreamStats_Props.v
theories/Hybrid_Model.v
theories/Hybrid_Spec.v
theories/Hybrid_Proofs.v
theories/HybridRun_Proofs.v
theories/HybridShape_Proofs.v
theories/Hybrid_Props.v
theories/HybridSizes_Model.v
theories/HybridSizes_Props.v
theories/Sizes_Spec.v
theories/Sizes_Proofs.v
theories/Sizes_Props.v
theories/Init_Model.v
theories/Init_Spec.v
theories/Init_Proofs.v
theories/Init_Props.v
theories/Evaluate_Model.v
theories/Evaluate_Spec.v
theories/Evaluate_Proofs.v
theories/Evaluate_Props.v
theories/Batch_Model.v
theories/Batch_Spec.v
theories/Batch_Proofs.v
theories/Batch_Props.v
theories/BatchGrad_Spec.v
theories/BatchGrad_Proofs.v
theories/BatchGrad_Props.v
theories/Rounding_Spec.v
theories/Rounding_Proofs.v
theories/Rounding_Props.v
theories/NetError_Proofs.v
theories/NetExp_Proofs.v
theories/NetError_Props.v
theories/ConfigNet_Model.v
theories/ConfigNet_Spec.v
theories/ConfigNet_Proofs.v
theories/ConfigNet_Props.v
theories/CutFiles_Proofs.v
theories/CutFiles_Props.v
theories/Draw_Model.v
theories/Draw_Spec.v
theories/Draw_Proofs.v
theories/Draw_Props.v
theories/Reload_Spec.v
theories/Reload_Proofs.v
theories/Reload_Props.v
theories/Report_Props.v
theories/TrainRun_Spec.v
theories/TrainRun_Props.v
theories/SampleOrder_Spec.v
theories/SampleOrder_Proofs.v
theories/SampleOrder_Props.v
theories/InputLayer_Model.v
theories/InputLayer_Spec.v
theories/InputLayer_Proofs.v
theories/InputLayer_Props.v
theories/EvaluateBinary_Model.v
theories/EvaluateBinary_Spec.v
theories/EvaluateBinary_Proofs.v
theories/EvaluateBinary_Props.v
theories/DetectReport_Props.v
theories/EvaluateFail_Props.v
theories/System_Model.v
theories/System_Spec.v
theories/System_Props.v
