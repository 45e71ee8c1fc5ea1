-Q theories Verif
theories/Base.v
theories/Interp.v
theories/Model_Accumulation.v
theories/Model_Attributes.v
theories/Model_Bias.v
theories/Model_BlendCli.v
theories/Model_BlendMeta.v
theories/Model_Blending.v
theories/Model_Check.v
theories/Model_Clearsky.v
theories/Model_Cli.v
theories/Model_Cloudtop.v
theories/Model_Combine.v
theories/Model_Commands.v
theories/Model_Compare.v
theories/Model_ConstraintText.v
theories/Model_CopyAttributes.v
theories/Model_CycleBlend.v
theories/Model_Dist.v
theories/Model_Downscale.v
theories/Model_Dz.v
theories/Model_Emos.v
theories/Model_EmosCommand.v
theories/Model_EmosTable.v
theories/Model_EmosTrain.v
theories/Model_EnforceCli.v
theories/Model_Extract.v
theories/Model_Feels.v
theories/Model_Fill.v
theories/Model_Flow.v
theories/Model_Frames.v
theories/Model_Generate.v
theories/Model_Gust.v
theories/Model_Hail.v
theories/Model_Integration.v
theories/Model_InterpolateCli.v
theories/Model_Interpret.v
theories/Model_Lagged.v
theories/Model_LandSeaNbhood.v
theories/Model_Lapse.v
theories/Model_Latitude.v
theories/Model_Lightning.v
theories/Model_Lightprob.v
theories/Model_Load.v
theories/Model_Manip.v
theories/Model_Modal.v
theories/Model_Nbhood.v
theories/Model_NbhoodCube.v
theories/Model_NbhoodPercentiles.v
theories/Model_NeighbourCli.v
theories/Model_NightMask.v
theories/Model_Nowcast.v
theories/Model_NowcastAcc.v
theories/Model_Orogenh.v
theories/Model_Orosmooth.v
theories/Model_PercConv.v
theories/Model_Percentiles.v
theories/Model_Phase.v
theories/Model_PhaseLevel.v
theories/Model_Probability.v
theories/Model_Psychro.v
theories/Model_Pysteps.v
theories/Model_Rainforests.v
theories/Model_Records.v
theories/Model_Recursive.v
theories/Model_Reference.v
theories/Model_Regrid.v
theories/Model_Reliability.v
theories/Model_Reordering.v
theories/Model_Rescale.v
theories/Model_Save.v
theories/Model_Shower.v
theories/Model_Solar.v
theories/Model_Spatial.v
theories/Model_Spot.v
theories/Model_SpotCube.v
theories/Model_SpotManip.v
theories/Model_Standardise.v
theories/Model_State.v
theories/Model_Synthetic.v
theories/Model_Table.v
theories/Model_Temporal.v
theories/Model_Texture.v
theories/Model_Threshold.v
theories/Model_Times.v
theories/Model_Topography.v
theories/Model_Tree.v
theories/Model_Vicinity.v
theories/Model_Visibility.v
theories/Model_WeightBlend.v
theories/Model_WetBulb.v
theories/Model_Wind.v
theories/Proofs_Accumulation.v
theories/Proofs_Bias.v
theories/Proofs_Blending.v
theories/Proofs_Combine.v
theories/Proofs_Emos.v
theories/Proofs_Expected.v
theories/Proofs_Extract.v
theories/Proofs_ExtractMore.v
theories/Proofs_Fill.v
theories/Proofs_Frames.v
theories/Proofs_FramesCube.v
theories/Proofs_FramesStatic.v
theories/Proofs_Integration.v
theories/Proofs_Interp.v
theories/Proofs_Interpret.v
theories/Proofs_InterpretRest.v
theories/Proofs_Lapse.v
theories/Proofs_Lightning.v
theories/Proofs_Modal.v
theories/Proofs_Names.v
theories/Proofs_Nbhood.v
theories/Proofs_NbhoodCube.v
theories/Proofs_Nowcast.v
theories/Proofs_PercBlend.v
theories/Proofs_Percentiles.v
theories/Proofs_Phase.v
theories/Proofs_ProbPerc.v
theories/Proofs_Probability.v
theories/Proofs_Recursive.v
theories/Proofs_Reference.v
theories/Proofs_Regrid.v
theories/Proofs_Reliability.v
theories/Proofs_ReliabilityApply.v
theories/Proofs_ReliabilityBuild.v
theories/Proofs_ReliabilityMore.v
theories/Proofs_Reordering.v
theories/Proofs_Resample.v
theories/Proofs_Rescale.v
theories/Proofs_Spatial.v
theories/Proofs_SpatialWeights.v
theories/Proofs_Spot.v
theories/Proofs_State.v
theories/Proofs_Table.v
theories/Proofs_Temporal.v
theories/Proofs_TemporalProcess.v
theories/Proofs_Threshold.v
theories/Proofs_Topography.v
theories/Proofs_Tree.v
theories/Proofs_TreeMissing.v
theories/Proofs_TreeMore.v
theories/Proofs_TreeRoutes.v
theories/Proofs_Vicinity.v
theories/Proofs_Weights.v
theories/Props_Attributes.v
theories/Props_Bias.v
theories/Props_BlendCli.v
theories/Props_BlendMeta.v
theories/Props_Blending.v
theories/Props_Check.v
theories/Props_Clearsky.v
theories/Props_Cli.v
theories/Props_Cloudtop.v
theories/Props_Combine.v
theories/Props_Commands.v
theories/Props_Compare.v
theories/Props_ConstraintText.v
theories/Props_CopyAttributes.v
theories/Props_CycleBlend.v
theories/Props_Dist.v
theories/Props_Downscale.v
theories/Props_Dz.v
theories/Props_Emos.v
theories/Props_EmosApply.v
theories/Props_EmosCommand.v
theories/Props_EmosTable.v
theories/Props_EmosTrain.v
theories/Props_EmosTrainMore.v
theories/Props_EmosWhole.v
theories/Props_EnforceCli.v
theories/Props_Extract.v
theories/Props_Feels.v
theories/Props_Fill.v
theories/Props_Flow.v
theories/Props_Frames.v
theories/Props_Generate.v
theories/Props_Gust.v
theories/Props_Hail.v
theories/Props_Integration.v
theories/Props_Interp.v
theories/Props_InterpolateCli.v
theories/Props_Interpret.v
theories/Props_Lagged.v
theories/Props_LandSea.v
theories/Props_LandSeaNbhood.v
theories/Props_Lapse.v
theories/Props_Latitude.v
theories/Props_Lightning.v
theories/Props_Lightprob.v
theories/Props_Load.v
theories/Props_Manip.v
theories/Props_Merge.v
theories/Props_ModelIds.v
theories/Props_Naming.v
theories/Props_Nbhood.v
theories/Props_NbhoodCube.v
theories/Props_NbhoodPercentiles.v
theories/Props_NeighbourCli.v
theories/Props_NightMask.v
theories/Props_Nowcast.v
theories/Props_NowcastAcc.v
theories/Props_Orogenh.v
theories/Props_Orosmooth.v
theories/Props_PercConv.v
theories/Props_Percentiles.v
theories/Props_Phase.v
theories/Props_PhaseLevel.v
theories/Props_Probability.v
theories/Props_Psychro.v
theories/Props_Pysteps.v
theories/Props_Rainforests.v
theories/Props_Records.v
theories/Props_Recursive.v
theories/Props_Reference.v
theories/Props_Regrid.v
theories/Props_RegridMask.v
theories/Props_Reliability.v
theories/Props_Reordering.v
theories/Props_Rescale.v
theories/Props_Save.v
theories/Props_Shower.v
theories/Props_Solar.v
theories/Props_Spatial.v
theories/Props_SplitTruth.v
theories/Props_Spot.v
theories/Props_SpotCube.v
theories/Props_SpotManip.v
theories/Props_Standardise.v
theories/Props_State.v
theories/Props_Synthetic.v
theories/Props_Table.v
theories/Props_Temporal.v
theories/Props_Texture.v
theories/Props_Threshold.v
theories/Props_Times.v
theories/Props_Topography.v
theories/Props_Tree.v
theories/Props_Vicinity.v
theories/Props_Visibility.v
theories/Props_WeightBlend.v
theories/Props_WetBulb.v
theories/Props_Wind.v
theories/Spec_Accumulation.v
theories/Spec_Bias.v
theories/Spec_Combine.v
theories/Spec_Compare.v
theories/Spec_Dist.v
theories/Spec_DistCase.v
theories/Spec_Emos.v
theories/Spec_EmosTrain.v
theories/Spec_Extract.v
theories/Spec_Fill.v
theories/Spec_Frames.v
theories/Spec_Integration.v
theories/Spec_Interpret.v
theories/Spec_Lapse.v
theories/Spec_Lightning.v
theories/Spec_Modal.v
theories/Spec_ModalTree.v
theories/Spec_Nbhood.v
theories/Spec_NbhoodCube.v
theories/Spec_Nowcast.v
theories/Spec_PercConv.v
theories/Spec_Phase.v
theories/Spec_Probability.v
theories/Spec_Reference.v
theories/Spec_Regrid.v
theories/Spec_Reliability.v
theories/Spec_Solar.v
theories/Spec_Spot.v
theories/Spec_State.v
theories/Spec_Table.v
theories/Spec_Temporal.v
theories/Spec_Threshold.v
theories/Spec_Topography.v
theories/Spec_Tree.v
theories/Spec_TreeWalk.v
theories/Spec_Vicinity.v
