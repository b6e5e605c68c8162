-Q theories Verif

theories/BallVolume_Model.v
theories/BallVolume_Proofs.v
theories/BallVolume_Props.v
theories/BallVolume_Spec.v
theories/Batches2_Proofs.v
theories/Batches_Examples.v
theories/Batches_Model.v
theories/Batches_Proofs.v
theories/Batches_Props.v
theories/Batches_Spec.v
theories/Bounds_Examples.v
theories/Bounds_Model.v
theories/Bounds_Proofs.v
theories/Bounds_Props.v
theories/Bounds_Spec.v
theories/BoxVolume_Proofs.v
theories/ChooseAvg_Proofs.v
theories/ChooseQoIs_Examples.v
theories/ChooseQoIs_Model.v
theories/ChooseQoIs_Proofs.v
theories/ChooseQoIs_Props.v
theories/ChooseQoIs_Spec.v
theories/Chosen_Examples.v
theories/Chosen_Model.v
theories/Chosen_Proofs.v
theories/Chosen_Props.v
theories/Chosen_Spec.v
theories/Clipped_Model.v
theories/Clipped_Proofs.v
theories/Clipped_Props.v
theories/Clipped_Spec.v
theories/Comm_Model.v
theories/Comm_Proofs.v
theories/Comm_Props.v
theories/Comm_Spec.v
theories/CompareInit_Examples.v
theories/CompareInit_Model.v
theories/CompareInit_Proofs.v
theories/CompareInit_Props.v
theories/CompareInit_Spec.v
theories/CompareR_Model.v
theories/CompareR_Proofs.v
theories/CompareR_Props.v
theories/Compare_Examples.v
theories/Compare_Model.v
theories/Compare_Proofs.v
theories/Compare_Props.v
theories/Compare_Spec.v
theories/DataUnif2_Proofs.v
theories/DataUnif_Examples.v
theories/DataUnif_Model.v
theories/DataUnif_Proofs.v
theories/DataUnif_Props.v
theories/DataUnif_Spec.v
theories/Density_Examples.v
theories/Density_Model.v
theories/Density_Proofs.v
theories/Density_Props.v
theories/Density_Spec.v
theories/DiscChoose_Proofs.v
theories/DiscEq_Examples.v
theories/DiscEq_Model.v
theories/DiscEq_Proofs.v
theories/DiscEq_Props.v
theories/DiscEq_Spec.v
theories/DiscProb_Proofs.v
theories/DiscPtr_Proofs.v
theories/DiscStale_Proofs.v
theories/Disc_Examples.v
theories/Disc_Model.v
theories/Disc_Proofs.v
theories/Disc_Props.v
theories/Disc_Spec.v
theories/EmVolume_Model.v
theories/EmVolume_Proofs.v
theories/EmVolume_Props.v
theories/EmVolume_Spec.v
theories/Emulated_Model.v
theories/Emulated_Proofs.v
theories/Emulated_Props.v
theories/Emulated_Spec.v
theories/Equality_Model.v
theories/Equality_Proofs.v
theories/Equality_Props.v
theories/Equality_Spec.v
theories/Err.v
theories/ErrTrue2_Proofs.v
theories/ErrTrue3_Proofs.v
theories/ErrTrue_Examples.v
theories/ErrTrue_Proofs.v
theories/ErrTrue_Props.v
theories/ErrTrue_Spec.v
theories/ErrorDisc2_Proofs.v
theories/ErrorDisc3_Proofs.v
theories/ErrorDisc4_Proofs.v
theories/ErrorDisc_Examples.v
theories/ErrorDisc_Model.v
theories/ErrorDisc_Proofs.v
theories/ErrorDisc_Props.v
theories/ErrorDisc_Spec.v
theories/Error_Examples.v
theories/Error_Model.v
theories/Error_Proofs.v
theories/Error_Props.v
theories/Error_Spec.v
theories/Ext.v
theories/Extend_Model.v
theories/Extend_Proofs.v
theories/Extend_Props.v
theories/Extend_Spec.v
theories/Fields_Model.v
theories/Fields_Proofs.v
theories/Fields_Props.v
theories/Fields_Spec.v
theories/Fits2_Proofs.v
theories/Fits3_Proofs.v
theories/Fits4_Proofs.v
theories/Fits5_Proofs.v
theories/Fits_Examples.v
theories/Fits_Model.v
theories/Fits_Proofs.v
theories/Fits_Props.v
theories/Fits_Spec.v
theories/Given_Model.v
theories/Given_Proofs.v
theories/Given_Props.v
theories/Given_Spec.v
theories/GradientR_Model.v
theories/GradientR_Proofs.v
theories/GradientR_Props.v
theories/GradientR_Spec.v
theories/Gradient_Examples.v
theories/Gradient_Model.v
theories/Gradient_Proofs.v
theories/Gradient_Props.v
theories/Gradient_Spec.v
theories/Inverse2_Proofs.v
theories/Inverse3_Proofs.v
theories/Inverse_Examples.v
theories/Inverse_Model.v
theories/Inverse_Proofs.v
theories/Inverse_Props.v
theories/Inverse_Spec.v
theories/Layout_Model.v
theories/Layout_Proofs.v
theories/Layout_Props.v
theories/Learned_Examples.v
theories/Learned_Proofs.v
theories/Learned_Props.v
theories/Learned_Spec.v
theories/Lists.v
theories/LocalVolume_Examples.v
theories/LocalVolume_Model.v
theories/LocalVolume_Proofs.v
theories/LocalVolume_Props.v
theories/LocalVolume_Spec.v
theories/LpSamples_Model.v
theories/LpSamples_Proofs.v
theories/LpSamples_Props.v
theories/LpSamples_Spec.v
theories/LuqObj_Examples.v
theories/LuqObj_Model.v
theories/LuqObj_Proofs.v
theories/LuqObj_Props.v
theories/LuqObj_Spec.v
theories/Luq_Model.v
theories/Luq_Proofs.v
theories/Luq_Props.v
theories/Luq_Spec.v
theories/MarginalDist_Examples.v
theories/MarginalDist_Model.v
theories/MarginalDist_Proofs.v
theories/MarginalDist_Props.v
theories/MarginalDist_Spec.v
theories/Measure2_Proofs.v
theories/Measure_Examples.v
theories/Measure_Model.v
theories/Measure_Proofs.v
theories/Measure_Props.v
theories/Measure_Spec.v
theories/ModelError_Proofs.v
theories/Moved2_Proofs.v
theories/MovedVol_Model.v
theories/MovedVol_Proofs.v
theories/MovedVol_Props.v
theories/MovedVol_Spec.v
theories/Moved_Model.v
theories/Moved_Proofs.v
theories/Moved_Props.v
theories/Moved_Spec.v
theories/Normalize_Model.v
theories/Normalize_Proofs.v
theories/Normalize_Props.v
theories/Normalize_Spec.v
theories/Num.v
theories/NumPy.v
theories/OutCells_Examples.v
theories/OutCells_Proofs.v
theories/OutCells_Props.v
theories/OutCells_Spec.v
theories/OutGrid_Examples.v
theories/OutGrid_Proofs.v
theories/OutGrid_Props.v
theories/OutGrid_Spec.v
theories/PlotD_Proofs.v
theories/PlotDomains_Examples.v
theories/PlotDomains_Model.v
theories/PlotDomains_Proofs.v
theories/PlotDomains_Props.v
theories/PlotDomains_Spec.v
theories/PlotP_Examples.v
theories/PlotP_Model.v
theories/PlotP_Proofs.v
theories/PlotP_Props.v
theories/PlotP_Spec.v
theories/PlotVoronoi2_Examples.v
theories/PlotVoronoi2_Model.v
theories/PlotVoronoi2_Proofs.v
theories/PlotVoronoi2_Props.v
theories/PlotVoronoi2_Spec.v
theories/PlotVoronoi_Examples.v
theories/PlotVoronoi_Model.v
theories/PlotVoronoi_Proofs.v
theories/PlotVoronoi_Props.v
theories/PlotVoronoi_Spec.v
theories/Polygons_Examples.v
theories/Polygons_Model.v
theories/Polygons_Proofs.v
theories/Polygons_Props.v
theories/Polygons_Spec.v
theories/PostObj_Examples.v
theories/PostObj_Model.v
theories/PostObj_Proofs.v
theories/PostObj_Props.v
theories/PostObj_Spec.v
theories/Post_Examples.v
theories/Post_Model.v
theories/Post_Proofs.v
theories/Post_Props.v
theories/Post_Spec.v
theories/Prob_Model.v
theories/Prob_Proofs.v
theories/Prob_Props.v
theories/Prob_Spec.v
theories/QueryR_Proofs.v
theories/QueryR_Props.v
theories/QueryR_Spec.v
theories/Query_Examples.v
theories/Query_Model.v
theories/Query_Proofs.v
theories/Query_Props.v
theories/Query_Spec.v
theories/Reference_Examples.v
theories/Reference_Model.v
theories/Reference_Proofs.v
theories/Reference_Props.v
theories/Reference_Spec.v
theories/Refined_Model.v
theories/Refined_Proofs.v
theories/Refined_Props.v
theories/Refined_Spec.v
theories/RefsNew_Proofs.v
theories/RefsShare_Proofs.v
theories/RefsView_Proofs.v
theories/Refs_Examples.v
theories/Refs_Model.v
theories/Refs_Proofs.v
theories/Refs_Props.v
theories/Refs_Spec.v
theories/Regular_Proofs.v
theories/Regular_Props.v
theories/Regular_Spec.v
theories/Restart_Model.v
theories/Restart_Proofs.v
theories/Restart_Props.v
theories/Restart_Spec.v
theories/RoundingEnd_Examples.v
theories/RoundingEnd_Model.v
theories/RoundingEnd_Proofs.v
theories/RoundingEnd_Props.v
theories/RoundingEnd_Spec.v
theories/Rounding_Examples.v
theories/Rounding_Model.v
theories/Rounding_Proofs.v
theories/Rounding_Props.v
theories/Rounding_Spec.v
theories/RvSet_Examples.v
theories/RvSet_Model.v
theories/RvSet_Proofs.v
theories/RvSet_Props.v
theories/RvSet_Spec.v
theories/SampErr2_Proofs.v
theories/SampErr3_Proofs.v
theories/SampErr_Examples.v
theories/SampErr_Model.v
theories/SampErr_Proofs.v
theories/SampErr_Props.v
theories/SampErr_Spec.v
theories/SampleSet_Examples.v
theories/SampleSet_Model.v
theories/SampleSet_Proofs.v
theories/SampleSet_Props.v
theories/SampleSet_Spec.v
theories/SamplerAgain_Proofs.v
theories/SamplerDisc_Proofs.v
theories/SamplerFill_Proofs.v
theories/SamplerNew_Proofs.v
theories/SamplerRun_Proofs.v
theories/Sampler_Examples.v
theories/Sampler_Model.v
theories/Sampler_Proofs.v
theories/Sampler_Props.v
theories/Sampler_Spec.v
theories/Sampling_Examples.v
theories/Sampling_Model.v
theories/Sampling_Proofs.v
theories/Sampling_Props.v
theories/Sampling_Spec.v
theories/SelfQuery_Proofs.v
theories/SelfQuery_Props.v
theories/SelfQuery_Spec.v
theories/Sensitivity_Examples.v
theories/Sensitivity_Model.v
theories/Sensitivity_Proofs.v
theories/Sensitivity_Props.v
theories/Sensitivity_Spec.v
theories/Show.v
theories/SimpleFun_Model.v
theories/SimpleFun_Proofs.v
theories/SimpleFun_Props.v
theories/SimpleFun_Spec.v
theories/SimpleInputs_Examples.v
theories/SimpleInputs_Model.v
theories/SimpleInputs_Proofs.v
theories/SimpleInputs_Props.v
theories/SimpleInputs_Spec.v
theories/Smooth2_Examples.v
theories/Smooth2_Model.v
theories/Smooth2_Proofs.v
theories/Smooth2_Props.v
theories/Smooth2_Spec.v
theories/Smooth_Model.v
theories/Smooth_Proofs.v
theories/Smooth_Props.v
theories/Smooth_Spec.v
theories/Spmd_Examples.v
theories/Spmd_Model.v
theories/Spmd_Proofs.v
theories/Spmd_Props.v
theories/Spmd_Spec.v
theories/Stable2_Proofs.v
theories/Stable_Examples.v
theories/Stable_Proofs.v
theories/Stable_Props.v
theories/Stable_Spec.v
theories/Store_Model.v
theories/Store_Proofs.v
theories/Store_Props.v
theories/Store_Spec.v
theories/Strings.v
theories/Surrogate2_Proofs.v
theories/Surrogate3_Proofs.v
theories/Surrogate4_Proofs.v
theories/Surrogate5_Proofs.v
theories/Surrogate_Examples.v
theories/Surrogate_Model.v
theories/Surrogate_Proofs.v
theories/Surrogate_Props.v
theories/Surrogate_Spec.v
theories/UniqueVecs_Examples.v
theories/UniqueVecs_Model.v
theories/UniqueVecs_Proofs.v
theories/UniqueVecs_Props.v
theories/UniqueVecs_Spec.v
theories/Units2_Examples.v
theories/Units2_Proofs.v
theories/Units2_Props.v
theories/Units2_Spec.v
theories/Units3_Examples.v
theories/Units3_Proofs.v
theories/Units3_Props.v
theories/Units3_Spec.v
theories/Units_Examples.v
theories/Units_Proofs.v
theories/Units_Props.v
theories/Units_Spec.v
theories/Updated_Model.v
theories/Updated_Proofs.v
theories/Updated_Props.v
theories/Updated_Spec.v
theories/Util_Model.v
theories/Util_Proofs.v
theories/Util_Props.v
theories/Util_Spec.v
theories/VolHist_Model.v
theories/VolHist_Proofs.v
theories/VolHist_Props.v
theories/VolHist_Spec.v
theories/Volume_Examples.v
theories/Volume_Model.v
theories/Volume_Proofs.v
theories/Volume_Props.v
theories/Volume_Spec.v
theories/Voronoi2_Examples.v
theories/Voronoi2_Model.v
theories/Voronoi2_Proofs.v
theories/Voronoi2_Props.v
theories/Voronoi2_Spec.v
theories/Workflow_Examples.v
theories/Workflow_Model.v
theories/Workflow_Proofs.v
theories/Workflow_Props.v
theories/Workflow_Spec.v
