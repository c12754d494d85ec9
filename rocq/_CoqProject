-Q theories Verif
theories/Prelude.v
theories/Values.v
theories/Model_XArray.v
theories/Spec_XArray.v
theories/Proofs_XArray.v
theories/Model_TimeChunks.v
theories/Spec_TimeChunks.v
theories/Proofs_TimeChunks.v
theories/Props_TimeChunks.v
theories/Model_Tree.v
theories/Spec_Tree.v
theories/Proofs_Tree.v
theories/Props_Tree.v
theories/Model_MetricsBase.v
theories/Model_Aggregation.v
theories/Spec_Aggregation.v
theories/Proofs_AggState.v
theories/Props_AggState.v
theories/Spec_Aggregator.v
theories/Proofs_Aggregator.v
theories/Proofs_Aggregator2.v
theories/Props_Aggregator.v
theories/Spec_RoundTrip.v
theories/Proofs_RoundTrip.v
theories/Props_RoundTrip.v
theories/Model_Beam.v
theories/Spec_Beam.v
theories/Proofs_Beam.v
theories/Proofs_Beam2.v
theories/Proofs_Beam3.v
theories/Proofs_Beam4.v
theories/Proofs_Beam5.v
theories/Proofs_Beam6.v
theories/Proofs_Beam7.v
theories/Proofs_Beam8.v
theories/Proofs_Beam9.v
theories/Proofs_Beam10.v
theories/Props_Beam.v
theories/Model_AtomicWrite.v
theories/Props_AtomicWrite.v
theories/Spec_Metrics.v
theories/Proofs_Metrics.v
theories/Proofs_MetricValues.v
theories/Props_Metrics.v
theories/Spec_Means.v
theories/Proofs_Means.v
theories/Model_Calendar.v
theories/Proofs_Calendar.v
theories/Model_Deterministic.v
theories/Proofs_Deterministic.v
theories/Props_Deterministic.v
theories/Model_Categorical.v
theories/Spec_Reduce.v
theories/Proofs_Reduce.v
theories/Spec_Categorical.v
theories/Proofs_Categorical.v
theories/Proofs_Seeps.v
theories/Proofs_Seeps2.v
theories/Props_Categorical.v
theories/Proofs_Det2.v
theories/Spec_Statistic.v
theories/Props_Det2.v
theories/Spec_Ensemble.v
theories/Model_Ensemble.v
theories/Proofs_Ensemble.v
theories/Proofs_Ensemble2.v
theories/Proofs_Ensemble3.v
theories/Proofs_Ensemble4.v
theories/Props_Ensemble.v
theories/Props_CRPS.v
theories/Props_EnsMean.v
theories/Model_Wrappers.v
theories/Spec_Wrappers.v
theories/Proofs_Wrappers.v
theories/Proofs_Transforms.v
theories/Proofs_Transforms2.v
theories/Props_Wrappers.v
theories/Props_Transforms.v
theories/Model_Binning.v
theories/Spec_Binning.v
theories/Proofs_Binning.v
theories/Proofs_Binning2.v
theories/Proofs_Binning3.v
theories/Proofs_Binning4.v
theories/Props_Regions.v
theories/Props_Binning.v
theories/Spec_Calendar.v
theories/Proofs_Calendar2.v
theories/Props_TimeBins.v
theories/Model_Weighting.v
theories/Spec_Weighting.v
theories/Proofs_Weighting.v
theories/Proofs_Weighting2.v
theories/Props_Weighting.v
theories/Proofs_Local.v
theories/Proofs_Local2.v
theories/Proofs_Local3.v
theories/Proofs_Local4.v
theories/Spec_BeamComponents.v
theories/Props_BeamComponents.v
theories/Model_Loaders.v
theories/Model_Latency.v
theories/Spec_Loaders.v
theories/Proofs_Loaders.v
theories/Proofs_Loaders2.v
theories/Proofs_Latency.v
theories/Props_Loaders.v
theories/Props_LoadChunk.v
theories/Props_Latency.v
theories/Props_Multi.v
theories/Model_REV.v
theories/Spec_REV.v
theories/Proofs_REV.v
theories/Proofs_REV2.v
theories/Proofs_REV3.v
theories/Props_REV.v
theories/Model_Baseline.v
theories/Spec_Baseline.v
theories/Proofs_Baseline.v
theories/Props_Baseline.v
theories/Model_Bootstrap.v
theories/Spec_Bootstrap.v
theories/Proofs_Bootstrap.v
theories/Props_Bootstrap.v
theories/Model_TTest.v
theories/Spec_TTest.v
theories/Proofs_TTest.v
theories/Props_TTest.v
theories/Props_TTest2.v
theories/Model_Resample.v
theories/Spec_Resample.v
theories/Proofs_Resample.v
theories/Props_Resample.v
theories/Props_Slices.v
theories/Model_Autodiff.v
theories/Spec_Autodiff.v
theories/Proofs_Autodiff.v
theories/Props_Autodiff.v
theories/Model_Interp.v
theories/Spec_Interp.v
theories/Proofs_Interp.v
theories/Props_Interp.v
theories/Props_Interp2.v
theories/Props_Interp3.v
theories/Props_Altitude.v
theories/Props_InterpEx.v
theories/Model_Spatial.v
theories/Spec_Spatial.v
theories/Proofs_Spatial.v
theories/Props_Spatial.v
theories/Props_FSS.v
theories/Props_FSS2.v
theories/Props_FSS3.v
theories/Props_FSS4.v
theories/Model_Parquet.v
theories/Proofs_Strings.v
theories/Spec_Parquet.v
theories/Proofs_Parquet.v
theories/Props_Parquet.v
theories/Props_Parquet2.v
theories/Props_Parquet3.v
theories/Props_Parquet4.v
theories/Spec_Names.v
theories/Proofs_Names.v
theories/Props_Names.v
theories/Props_Names2.v
theories/Model_EnsembleRPS.v
theories/Proofs_EnsembleRPS.v
theories/Props_EnsembleRPS.v
theories/Spec_Climatology.v
theories/Proofs_Climatology.v
theories/Props_Climatology.v
theories/Model_Intervals.v
theories/Spec_Intervals.v
theories/Proofs_Intervals.v
theories/Props_Intervals.v
theories/Proofs_Exists.v
theories/Props_Opportunism.v
theories/Model_Reliability.v
theories/Props_Reliability.v
theories/Model_Wasserstein.v
theories/Spec_Wasserstein.v
theories/Proofs_Wasserstein.v
theories/Props_Wasserstein.v
theories/Proofs_MemberMean.v
theories/Props_MemberMean.v
theories/Model_Stationary.v
theories/Spec_Stationary.v
theories/Proofs_Stationary.v
theories/Proofs_Stationary2.v
theories/Proofs_Stationary3.v
theories/Proofs_Stationary4.v
theories/Proofs_Stationary5.v
theories/Proofs_Pointwise.v
theories/Props_Stationary.v
theories/Props_Stationary2.v
theories/Props_Stationary3.v
theories/Model_Unaggregated.v
theories/Spec_Unaggregated.v
theories/Proofs_Unaggregated.v
theories/Proofs_Unaggregated2.v
theories/Props_Unaggregated.v
theories/Props_Unaggregated2.v
theories/Props_Unaggregated3.v
theories/Model_Prepare.v
theories/Spec_Prepare.v
theories/Proofs_Prepare.v
theories/Proofs_Prepare2.v
theories/Props_Prepare.v
theories/Props_Prepare2.v
theories/Props_Prepare3.v
theories/Model_Select.v
theories/Spec_Select.v
theories/Proofs_Select.v
theories/Props_Select.v
theories/Spec_BeamWrite.v
theories/Model_BeamWrite.v
theories/Proofs_BeamWrite.v
theories/Proofs_BeamWrite2.v
theories/Proofs_BeamWrite3.v
theories/Proofs_BeamWrite4.v
theories/Proofs_BeamWrite5.v
theories/Proofs_BeamWrite6.v
theories/Proofs_BeamWrite7.v
theories/Props_BeamWrite.v
theories/Spec_Combine.v
theories/Model_Combine.v
theories/Proofs_Combine.v
theories/Proofs_Combine2.v
theories/Proofs_Combine3.v
theories/Proofs_Combine4.v
theories/Proofs_Combine5.v
theories/Props_Combine.v
theories/Model_Benchmark.v
theories/Spec_Benchmark.v
theories/Proofs_Benchmark.v
theories/Proofs_Benchmark2.v
theories/Props_Benchmark.v
theories/Props_Benchmark2.v
theories/Props_Benchmark3.v
theories/Spec_EndToEnd.v
theories/Proofs_EndToEnd.v
theories/Proofs_EndToEnd2.v
theories/Model_BenchmarkRegions.v
theories/Props_EndToEnd.v
theories/Model_Viewer.v
theories/Spec_Viewer.v
theories/Proofs_Viewer.v
theories/Proofs_Viewer2.v
theories/Proofs_Viewer3.v
theories/Proofs_Viewer4.v
theories/Props_Viewer.v
theories/Model_ExampleEvaluation.v
theories/Spec_ExampleEvaluation.v
theories/Proofs_ExampleEvaluation.v
theories/Proofs_ExampleEvaluation2.v
theories/Proofs_ExampleEvaluation3.v
theories/Proofs_ExampleEvaluation4.v
theories/Proofs_ExampleEvaluation5.v
theories/Props_ExampleEvaluation.v
theories/Model_SelectMethod.v
theories/Spec_SelectMethod.v
theories/Proofs_SelectMethod.v
theories/Props_SelectMethod.v
theories/Props_Names3.v
theories/Props_CombineErrors.v
