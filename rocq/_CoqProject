-Q theories Verif
theories/Prelude.v
theories/DataClusters.v
theories/DataClustersSpec.v
theories/DataClustersProofs.v
theories/DataClustersAdj.v
theories/DataClustersMore.v
theories/DataClustersExamples.v
theories/DataClustersProps.v
theories/Parts.v
theories/PartsProofs.v
theories/PartsFit.v
theories/PartsProps.v
theories/Functions.v
theories/FunctionsProofs.v
theories/FunctionsProps.v
theories/Evaluators.v
theories/EvaluatorsProps.v
theories/PeakFuncs.v
theories/PeakFuncsProofs.v
theories/PeakFuncsMore.v
theories/PeakFuncsProps.v
theories/PeakMaxProps.v
theories/PeakDerivProps.v
theories/PeakScaleProps.v
theories/FloatWidth.v
theories/FloatWidthProps.v
theories/FloatClusterProps.v
theories/FloatPeak.v
theories/FloatPeakProps.v
theories/FloatEval.v
theories/FloatEvalProps.v
theories/GaussIntegral.v
theories/PeakAreaProps.v
theories/Baselines.v
theories/BaselinesProps.v
theories/ModelCluster.v
theories/ModelClusterProofs.v
theories/ModelClusterProps.v
theories/FitCleanProps.v
theories/MatchAt.v
theories/MatchAtProps.v
theories/Prune.v
theories/PruneProofs.v
theories/PruneProps.v
theories/AugmentProps.v
theories/Vars.v
theories/VarsProps.v
theories/LoadProps.v
theories/Estimate.v
theories/EstimateProofs.v
theories/EstimateProps.v
theories/EstimateUnits.v
theories/EstimateUnitsProps.v
theories/EstimatePeak.v
theories/EstimatePeakProps.v
theories/MultiModel.v
theories/MultiModelProofs.v
theories/MultiModelClass.v
theories/MultiModelProps.v
theories/Resample.v
theories/ResampleProps.v
theories/Qmax.v
theories/QmaxProps.v
theories/Nyquist.v
theories/NyquistProps.v
theories/Dataset.v
theories/DatasetProps.v
theories/DatasetText.v
theories/DatasetTextProofs.v
theories/DatasetTextLines.v
theories/DatasetTextHeader.v
theories/DatasetTextProps.v
theories/Tracer.v
theories/TracerProps.v
theories/TraceFilter.v
theories/TraceFilterProps.v
theories/Stability.v
theories/StabilityProps.v
theories/Extract.v
theories/ExtractProofs.v
theories/ExtractProps.v
theories/Covariance.v
theories/CovarianceProofs.v
theories/CovarianceProps.v
theories/CovTransformProps.v
theories/NeighbourProps.v
theories/Ripples.v
theories/RipplesProofs.v
theories/RipplesProps.v
theories/Ownership.v
theories/PdfExtract.v
theories/PdfExtractProps.v
theories/Serial.v
theories/SerialProps.v
theories/Summary.v
theories/SummaryProps.v
theories/Access.v
theories/AccessProps.v
theories/Plot.v
theories/PlotProps.v
theories/LogLevels.v
theories/LogLevelsProps.v
theories/MakePlot.v
theories/MakePlotProps.v
theories/Views.v
theories/ViewsProps.v
theories/Cli.v
theories/CliProps.v
theories/Residual.v
theories/ResidualProps.v
theories/ResidualUnitsProps.v
theories/CovFitProps.v
theories/Files.v
theories/FilesProps.v
theories/ExtractText.v
theories/ExtractTextProps.v
theories/ExtractReadProps.v
theories/ExtractTextExamples.v
theories/ExtractTotalProps.v
theories/FromSequence.v
theories/FromSequenceProps.v
theories/ExtractBaseProps.v
theories/OwnershipProps.v
theories/StabilityPdf.v
theories/StabilityPdfProps.v
theories/OrderProps.v
theories/TraceRun.v
theories/TraceRunProps.v
theories/EqualityProps.v
theories/ClusterEqProps.v
theories/ClusterScale.v
theories/ClusterScaleProps.v
theories/Animate.v
theories/AnimateProps.v
theories/ValueKinds.v
theories/ValueKindsProps.v
theories/EngineLink.v
theories/EngineLinkProps.v
theories/CritLink.v
theories/CritLinkProps.v
theories/EnginePdf.v
theories/EnginePdfProps.v
theories/FloatOrderProps.v
theories/FloatCrit.v
theories/FloatCritProps.v
theories/FloatBase.v
theories/FloatBaseProps.v
theories/FloatResidual.v
theories/FloatResidualProps.v
theories/FloatTotal.v
theories/FloatTotalProps.v
theories/FloatCorr.v
theories/FloatCorrProps.v
