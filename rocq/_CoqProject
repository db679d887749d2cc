-Q theories Verif
theories/Num.v
theories/Np.v
theories/NumFacts.v
theories/NpFacts.v
theories/Utilities.v
theories/Spec_Utilities.v
theories/Proofs_Utilities.v
theories/Proofs_Utilities2.v
theories/Proofs_Utilities3.v
theories/Proofs_Utilities4.v
theories/Properties_Utilities.v
theories/Finders.v
theories/Spec_Finders.v
theories/Proofs_Finders.v
theories/Proofs_Besthist.v
theories/Proofs_Besthist2.v
theories/Proofs_Boxes.v
theories/Proofs_Thetas.v
theories/Proofs_Thetas2.v
theories/Proofs_Thetas3.v
theories/Proofs_FindersEx.v
theories/Properties_Finders.v
theories/LinR.v
theories/Kernels.v
theories/Stats.v
theories/FitCond.v
theories/LeastSq.v
theories/Spec_Stats.v
theories/Proofs_Stats1.v
theories/Proofs_Stats2.v
theories/Proofs_Stats3.v
theories/Proofs_StatsEx.v
theories/Properties_Stats.v
theories/Proofs_Fit.v
theories/Proofs_Curve.v
theories/Spec_FitCond.v
theories/Proofs_FC1.v
theories/Proofs_FC2.v
theories/Proofs_FC3.v
theories/Proofs_FC4.v
theories/Proofs_FC5.v
theories/Proofs_FC6.v
theories/Proofs_FC7.v
theories/Proofs_FC8.v
theories/Proofs_FC9.v
theories/Proofs_FC10.v
theories/Proofs_FC11.v
theories/Proofs_FC12.v
theories/Proofs_Witness.v
theories/Properties_Fit.v
theories/Wrangling.v
theories/Spec_Map.v
theories/Proofs_Map.v
theories/Proofs_Map2.v
theories/Spec_Interp.v
theories/Proofs_Interp.v
theories/Proofs_Interp2.v
theories/Proofs_Witness2.v
theories/Properties_Wrangling.v
theories/Topo.v
theories/Fetchers.v
theories/Saf.v
theories/Spec_Topo.v
theories/Proofs_Topo.v
theories/Spec_Fetchers.v
theories/Proofs_Fetchers.v
theories/Proofs_Region.v
theories/DemoNum.v
theories/Proofs_FetchersEx.v
theories/Spec_Saf.v
theories/Proofs_Saf.v
theories/Spec_Cache.v
theories/Proofs_Cache.v
theories/Properties_Fetchers.v
theories/Helper.v
theories/Spec_Helper.v
theories/Proofs_Helper.v
theories/Proofs_Records.v
theories/Properties_Helper.v
theories/MapProfile.v
theories/Mapping.v
theories/Spec_Mapping.v
theories/Proofs_Mapping.v
theories/Proofs_Mapping2.v
theories/Proofs_Mapping3.v
theories/Proofs_Mapping4.v
theories/Spec_MapLevel.v
theories/Proofs_MapLevel.v
theories/Proofs_MapProfile.v
theories/Proofs_MappingEx.v
theories/Properties_Mapping.v
theories/Config.v
theories/Spec_Config.v
theories/Proofs_Config.v
theories/Proofs_Calseries.v
theories/Properties_Config.v
theories/Calib.v
theories/Spec_Calib.v
theories/Proofs_Calib.v
theories/Proofs_Calib2.v
theories/Proofs_Calib3.v
theories/Proofs_Calib4.v
theories/Proofs_Calib5.v
theories/Proofs_Calib6.v
theories/Proofs_Calib7.v
theories/Proofs_Calib8.v
theories/Proofs_Calib9.v
theories/Proofs_CalibEx.v
theories/Properties_Calib.v
theories/Pyplot.v
theories/Plots.v
theories/Spec_Plots.v
theories/Spec_Plots2.v
theories/Spec_Plots3.v
theories/Proofs_Plots1.v
theories/Proofs_Plots2.v
theories/Proofs_Plots3.v
theories/Proofs_Plots4.v
theories/Proofs_Plots5.v
theories/Proofs_Plots6.v
theories/Proofs_Plots7.v
theories/Proofs_Plots8.v
theories/Proofs_Plots9.v
theories/Dashboard.v
theories/Proofs_Plots10.v
theories/Proofs_Plots11.v
theories/Proofs_PlotsEx.v
theories/Spec_Plots4.v
theories/Proofs_Plots12.v
theories/Properties_Plots.v
theories/Spec_Saf2.v
theories/Proofs_Saf2.v
theories/Proofs_SafEx.v
theories/Proofs_Saf3.v
theories/Properties_Saf.v
theories/Spec_FitErr.v
theories/Proofs_FC13.v
theories/Proofs_FC14.v
theories/Proofs_FC15.v
theories/Properties_FitErr.v
theories/Pipeline.v
theories/Spec_Pipeline.v
theories/Proofs_Pipeline.v
theories/Proofs_Pipeline2.v
theories/Proofs_Pipeline3.v
theories/Proofs_Pipeline4.v
theories/Spec_Pipeline2.v
theories/Proofs_Pipeline5.v
theories/Proofs_Pipeline6.v
theories/Proofs_PipelineEx.v
theories/Properties_Pipeline.v
theories/Spec_Depth.v
theories/Proofs_Depth.v
theories/Proofs_Depth2.v
theories/Proofs_Depth3.v
theories/Proofs_Depth4.v
theories/Properties_Depth.v
theories/Proofs_Drift1.v
theories/Spec_Drift.v
theories/Proofs_Drift2.v
theories/Proofs_Drift3.v
theories/Proofs_Drift4.v
theories/Proofs_Drift5.v
theories/Proofs_Drift6.v
theories/Properties_Drift.v
theories/Float.v
theories/Spec_Float.v
theories/Proofs_Float1.v
theories/Proofs_Float2.v
theories/Proofs_Float3.v
theories/Proofs_Float4.v
theories/Proofs_Float5.v
theories/Proofs_Float6.v
theories/Proofs_Float7.v
theories/Proofs_Float8.v
theories/Proofs_Float9.v
theories/Proofs_Float10.v
theories/Proofs_Float11.v
theories/Proofs_Float12.v
theories/Properties_Float.v
theories/Spec_Bias.v
theories/Proofs_Bias.v
theories/Proofs_Bias2.v
theories/Proofs_Bias3.v
theories/Proofs_Bias4.v
theories/Proofs_BiasEx.v
theories/Properties_Bias.v
theories/Spec_Own.v
theories/Proofs_Own.v
theories/Proofs_Own2.v
theories/Proofs_Own3.v
theories/Proofs_OwnEx.v
theories/Properties_Own.v
theories/Spec_Seam.v
theories/Proofs_Seam.v
theories/Proofs_Seam2.v
theories/Proofs_Seam3.v
theories/Proofs_Seam4.v
theories/Proofs_SeamEx.v
theories/Properties_Seam.v
theories/Spec_Whole.v
theories/Proofs_Whole.v
theories/Proofs_Whole2.v
theories/Proofs_Whole3.v
theories/Proofs_WholeEx.v
theories/Properties_Whole.v
theories/Spec_Completes.v
theories/Proofs_Completes.v
theories/Proofs_Completes2.v
theories/Proofs_Completes3.v
theories/Proofs_Completes4.v
theories/Proofs_CompletesEx.v
theories/Properties_Completes.v
theories/Spec_Settings.v
theories/Proofs_Settings.v
theories/Properties_Settings.v
theories/Spec_Quota.v
theories/Proofs_Quota.v
theories/Proofs_QuotaEx.v
theories/Properties_Quota.v
theories/Spec_FloatInterp.v
theories/Proofs_FloatInterp.v
theories/Proofs_FloatInterp2.v
theories/Proofs_FloatInterp3.v
theories/Proofs_FloatInterpEx.v
theories/Properties_FloatInterp.v
theories/Spec_Symm.v
theories/Proofs_Symm.v
theories/Proofs_Symm2.v
theories/Proofs_SymmEx.v
theories/Properties_Symm.v
theories/Spec_LineErr.v
theories/Proofs_LineErr.v
theories/Proofs_LineErr2.v
theories/Proofs_LineErr3.v
theories/Proofs_LineErrEx.v
theories/Properties_LineErr.v
theories/Spec_Local.v
theories/Proofs_Local.v
theories/Proofs_Local2.v
theories/Proofs_LocalEx.v
theories/Properties_Local.v
theories/Proofs_Bounds.v
theories/Proofs_BoundsEx.v
theories/Properties_Bounds.v
theories/Spec_Breaks.v
theories/Proofs_Breaks.v
theories/Properties_Breaks.v
theories/Spec_Input.v
theories/Proofs_Input.v
theories/Properties_Input.v
