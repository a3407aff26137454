-Q theories Verif
theories/Base.v
theories/Num.v
theories/Values.v
theories/Transformers.v
theories/Dimension.v
theories/Space.v
theories/NumLaws.v
theories/F64Arith.v
theories/BaseLemmas.v
theories/SpaceSpec.v
theories/DimLemmas.v
theories/NormLaws.v
theories/CatLemmas.v
theories/RoundTrip.v
theories/SpaceLemmas.v
theories/F64Dim.v
theories/Samples.v
theories/SampleLemmas.v
theories/RealLemmas.v
theories/BoundLemmas.v
theories/SpaceProps.v
theories/Props_Space.v
theories/SpaceProps2.v
theories/Props_Space2.v
theories/CheckDim.v
theories/MetricLemmas.v
theories/SpaceProps3.v
theories/Props_Space3.v
theories/Optimizer.v
theories/OptSpec.v
theories/OptLemmas.v
theories/OptLemmas2.v
theories/ArgLemmas.v
theories/OptLemmas3.v
theories/OptLemmas4.v
theories/OptLemmas5.v
theories/OptLemmas6.v
theories/OptProps.v
theories/OptBatch.v
theories/OptSamples.v
theories/PickCases.v
theories/Props_Optimizer.v
theories/Minimize.v
theories/MinSpec.v
theories/MinLemmas.v
theories/MinProps.v
theories/MinDummy.v
theories/MinConv.v
theories/MinSamples.v
theories/Props_Minimize.v
theories/Callbacks.v
theories/CbSpec.v
theories/CbLemmas.v
theories/MinTrace.v
theories/CbLemmas2.v
theories/Dump.v
theories/DumpSpec.v
theories/DumpLemmas.v
theories/CbSamples.v
theories/Props_Callbacks.v
theories/Named.v
theories/Search.v
theories/SearchSpec.v
theories/NamedLemmas.v
theories/SearchLemmas.v
theories/SearchSamples.v
theories/Props_Search.v
theories/Sampler.v
theories/SamplerSpec.v
theories/VdcLemmas.v
theories/PrimeLemmas.v
theories/HaltonLemmas.v
theories/WarpLemmas.v
theories/DesignLemmas.v
theories/GridLemmas.v
theories/SamplerProps.v
theories/SamplerSamples.v
theories/SamplerBest.v
theories/Props_Sampler.v
theories/Sobol.v
theories/SobolLemmas.v
theories/SobolState.v
theories/SobolProps.v
theories/SobolSpec.v
theories/SobolNet.v
theories/SobolNet2.v
theories/SobolNet3.v
theories/SobolBoxes.v
theories/SobolCells.v
theories/Props_Sobol.v
theories/GaussLemmas.v
theories/Acquisition.v
theories/AcqSpec.v
theories/AcqLemmas.v
theories/AcqProps.v
theories/AcqSamples.v
theories/AcqFlat.v
theories/Props_Acquisition.v
theories/Kernels.v
theories/KernelLemmas.v
theories/KernelSpec.v
theories/KernelProps.v
theories/HammingProps.v
theories/Props_Kernels.v
theories/Gpr.v
theories/GprSpec.v
theories/GprLemmas.v
theories/GprProps.v
theories/GprPosterior.v
theories/TrainSym.v
theories/GprFit.v
theories/GprAcq.v
theories/GprAcqProps.v
theories/GprSamples.v
theories/Props_Gpr.v
theories/Psd.v
theories/PsdExp.v
theories/PsdFun.v
theories/PsdSchur.v
theories/KernelPsdSpec.v
theories/KernelPsd.v
theories/GprCov.v
theories/GprCov2.v
theories/Cholesky.v
theories/CholProps.v
theories/CholTotal.v
theories/CovSamples.v
theories/Props_Cov.v
theories/Props_Chol.v
theories/ReachSpec.v
theories/ReachLemmas.v
theories/Props_Reach.v
theories/Forest.v
theories/ForestSpec.v
theories/ForestLemmas.v
theories/Gbrt.v
theories/GbrtLemmas.v
theories/Props_Trees.v
theories/EachLemmas.v
theories/Expected.v
theories/ExpectedSpec.v
theories/ExpectedLemmas.v
theories/ExpectedCases.v
theories/Props_Expected.v
theories/Plots.v
theories/PlotSpec.v
theories/PlotLemmas.v
theories/PlotCases.v
theories/DependSpec.v
theories/DependLemmas.v
theories/LooseLemmas.v
theories/DependPoints.v
theories/DependTotal.v
theories/Props_Plots.v
theories/Objective.v
theories/PanelSpec.v
theories/PlotCats.v
theories/ObjectiveLemmas.v
theories/EvalLemmas.v
theories/ObjectiveTotal.v
theories/ObjectiveMin.v
theories/PanelCases.v
theories/ConstantDim.v
theories/Props_Panels.v
theories/FitSpec.v
theories/FitLemmas.v
theories/GpPlot.v
theories/GpPlotSpec.v
theories/GpPlotLemmas.v
theories/GpCases.v
theories/Props_Fit.v
theories/Benchmarks.v
theories/BenchSpec.v
theories/BenchProps.v
theories/HartLemmas.v
theories/HartProps.v
theories/HartMin.v
theories/Props_Bench.v
theories/GpWorld.v
theories/WorthSpec.v
theories/GpWorldProps.v
theories/CampaignSpec.v
theories/RealSpace.v
theories/Campaign.v
theories/GpDependable.v
theories/CampaignCases.v
theories/Props_Campaign.v
theories/TreeWorld.v
theories/TreeWorldProps.v
theories/TreeInstances.v
theories/TreeCases.v
theories/Props_TreeWorld.v
theories/MinTotalSpec.v
theories/MinTotal.v
theories/MinInstances.v
theories/Props_MinTotal.v
theories/Normalised.v
theories/Props_Normalised.v
theories/Switch.v
theories/SwitchSpec.v
theories/SwitchProps.v
theories/Props_Switch.v
theories/Cook.v
theories/Yaml.v
theories/CookSpec.v
theories/YamlSpec.v
theories/CookLemmas.v
theories/YamlLemmas.v
theories/YamlCases.v
theories/Props_Yaml.v
theories/CookProps.v
theories/CookThms.v
theories/Props_Cook.v
theories/FloatDesign.v
theories/FloatSobol.v
theories/Generators.v
theories/GeneratorLemmas.v
theories/GeneratorCases.v
theories/Props_Generators.v
theories/LibmSpec.v
theories/FloatRound.v
theories/FloatLog.v
theories/SpaceNear.v
theories/FloatSpace.v
theories/FloatCases.v
theories/FloatExact.v
theories/Props_FloatRound.v
theories/GprOrder.v
theories/GprAffine.v
theories/Props_GprOrder.v
theories/Verbose.v
theories/VerboseSpec.v
theories/VerboseLemmas.v
theories/VerboseProps.v
theories/VerboseSamples.v
theories/Props_Verbose.v
theories/MetricSpec.v
theories/FloatMetric.v
theories/MetricCases.v
theories/Props_FloatMetric.v
theories/BatchSpec.v
theories/BatchTell.v
theories/BatchSamples.v
theories/Props_BatchTell.v
theories/HedgeSpec.v
theories/HedgeFloat.v
theories/HedgeCases.v
theories/Props_Hedge.v
theories/PaceSpec.v
theories/PsWorldProps.v
theories/PsCases.v
theories/UnitSpec.v
theories/UnitSim.v
theories/UnitGp.v
theories/UnitCases.v
theories/Props_Unit.v
theories/ScaleSpec.v
theories/ScaleDim.v
theories/ScaleSpace.v
theories/ScaleSim.v
theories/ScaleOpt.v
theories/ScaleGen.v
theories/ScaleCases.v
theories/Props_Scale.v
theories/ResumeSpec.v
theories/ResumeProps.v
theories/ResumeCases.v
theories/Props_Resume.v
theories/WorthSearchSpec.v
theories/WorthSearch.v
theories/WorthCases.v
theories/Props_Worth.v
theories/GprMore.v
theories/MoreCases.v
theories/Props_More.v
theories/OrderSpec.v
theories/OrderSim.v
theories/OrderGp.v
theories/OrderCases.v
theories/Props_Order.v
theories/Warn.v
theories/WarnSpec.v
theories/WarnLemmas.v
theories/WarnCases.v
theories/Props_Warn.v
theories/OrderMinSpec.v
theories/OrderMin.v
theories/OrderMinCases.v
theories/Props_OrderMin.v
theories/LatinFSpec.v
theories/LatinF.v
theories/LatinFCases.v
theories/Props_LatinF.v
theories/VdcFSpec.v
theories/VdcF.v
theories/VdcFBest.v
theories/Props_VdcF.v
theories/HaltonFSpec.v
theories/HaltonF.v
theories/HaltonFCases.v
theories/Props_HaltonF.v
theories/HammerSpec.v
theories/Hammer.v
theories/Props_Hammer.v
theories/HammerFSpec.v
theories/HammerF.v
theories/Props_HammerF.v
theories/SobolExact.v
theories/SobolExactCases.v
theories/Props_SobolF.v
