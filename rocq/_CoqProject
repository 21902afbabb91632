-Q theories Verif
theories/Py.v
theories/PyFacts.v
theories/Num.v
theories/NumFacts.v
theories/SeriesModel.v
theories/SeriesSpec.v
theories/SeriesProofs.v
theories/SeriesProps.v
theories/Flt.v
theories/Detrend.v
theories/ArrayModel.v
theories/DetrendProofs.v
theories/ArraySpec.v
theories/ArrayProofs.v
theories/ArrayMuteProofs.v
theories/ArrayMatrixProofs.v
theories/ArrayProps.v
theories/HeaderModel.v
theories/HeaderSpec.v
theories/HeaderProofs.v
theories/HeaderFileProofs.v
theories/HeaderProps.v
theories/PeaksModel.v
theories/PeaksSpec.v
theories/PeaksProofs.v
theories/PeaksJsonProofs.v
theories/PeaksProps.v
theories/SuiteModel.v
theories/SuiteSpec.v
theories/SuiteProofs.v
theories/SuiteTrimProofs.v
theories/SuiteStatProofs.v
theories/SuiteProps.v
theories/TransformModel.v
theories/TransformSpec.v
theories/TransformProofs.v
theories/TransformNormProofs.v
theories/TransformSlantProofs.v
theories/TransformProps.v
theories/BeamModel.v
theories/BeamSpec.v
theories/BeamProofs.v
theories/BeamPowerProofs.v
theories/BeamArrayProofs.v
theories/BeamProps.v
theories/Regex.v
theories/MaxModel.v
theories/RegexProofs.v
theories/MaxSpec.v
theories/MaxProofs.v
theories/MaxProps.v
theories/StatsModel.v
theories/StatsSpec.v
theories/StatsProofs.v
theories/StatsRegionProofs.v
theories/StatsFillProofs.v
theories/StatsProps.v
theories/WorkflowModel.v
theories/WorkflowSpec.v
theories/WorkflowProofs.v
theories/WorkflowGridProofs.v
theories/WorkflowRunProofs.v
theories/WorkflowEffectProofs.v
theories/WorkflowSnrProofs.v
theories/WorkflowProps.v
theories/InteractModel.v
theories/InteractSpec.v
theories/InteractProofs.v
theories/InteractProps.v
theories/ExtractModel.v
theories/ExtractSpec.v
theories/ExtractProofs.v
theories/ExtractProps.v
theories/InversionModel.v
theories/InversionSpec.v
theories/InversionProofs.v
theories/InversionProps.v
theories/SpectrumModel.v
theories/SpectrumSpec.v
theories/SpectrumProofs.v
theories/SpectrumProps.v
theories/WaterfallModel.v
theories/WaterfallSpec.v
theories/WaterfallProofs.v
theories/WaterfallProps.v
theories/PlotModel.v
theories/PlotSpec.v
theories/PlotProofs.v
theories/PlotProps.v
theories/SuiteDropSpec.v
theories/SuiteDropProofs.v
theories/SuiteDropProps.v
theories/ImageModel.v
theories/ImageSpec.v
theories/ImageProofs.v
theories/ImageProps.v
theories/DescribeModel.v
theories/DescribeSpec.v
theories/DescribeProofs.v
theories/DescribeProps.v
theories/LimitsPlotModel.v
theories/LimitsPlotSpec.v
theories/LimitsPlotProofs.v
theories/LimitsPlotProps.v
theories/MaxNumberSpec.v
theories/MaxNumberProofs.v
theories/MaxNumberProps.v
theories/BeamZeroProps.v
theories/SpacingProps.v
theories/MaxHeaderSpec.v
theories/MaxHeaderProofs.v
theories/MaxHeaderProps.v
theories/OffsetProps.v
theories/SpacModel.v
theories/SpacSpec.v
theories/SpacProofs.v
theories/SpacProps.v
theories/HeaderErrorSpec.v
theories/HeaderErrorProofs.v
theories/HeaderErrorProps.v
theories/PeaksLoadSpec.v
theories/PeaksLoadProofs.v
theories/PeaksLoadProps.v
theories/SuiteLoadProps.v
theories/FloatModel.v
theories/FloatSpec.v
theories/FloatProofs.v
theories/FloatProps.v
theories/SuiteBranchProps.v
theories/TraceModel.v
theories/TraceProps.v
theories/FloatPadModel.v
theories/FloatPadProofs.v
theories/FloatPadProps.v
theories/MuteProofs.v
theories/MuteProps.v
theories/FloatSlantModel.v
theories/FloatSlantSpec.v
theories/FloatSlantProofs.v
theories/FloatSlantProps.v
theories/FloatAxisModel.v
theories/FloatAxisSpec.v
theories/FloatAxisProofs.v
theories/FloatAxisProps.v
theories/StatsCorrSpec.v
theories/StatsCorrProofs.v
theories/StatsReplaceProofs.v
theories/StatsReplaceProps.v
theories/XcorrSpec.v
theories/XcorrProofs.v
theories/XcorrProps.v
theories/StatPlotModel.v
theories/StatPlotSpec.v
theories/StatPlotProofs.v
theories/StatPlotProps.v
theories/SettingsSpec.v
theories/SettingsProofs.v
theories/SettingsRunProofs.v
theories/SettingsSameProofs.v
theories/SettingsNeedProofs.v
theories/SettingsProps.v
theories/SuiteStatProps.v
theories/SuiteShareSpec.v
theories/SuiteShareProofs.v
theories/SuiteShareProps.v
theories/MaxFaultSpec.v
theories/MaxFaultProofs.v
theories/MaxFaultProps.v
theories/SpacGroupProofs.v
theories/SpacGroupProps.v
theories/WarnModel.v
theories/WarnSpec.v
theories/WarnProofs.v
theories/WarnProps.v
theories/ExtractOutcomeSpec.v
theories/ExtractOutcomeProofs.v
theories/ExtractOutcomeProps.v
theories/MuteStopSpec.v
theories/MuteStopProofs.v
theories/MuteStopProps.v
theories/ReadOutcomeSpec.v
theories/ReadOutcomeProofs.v
theories/ReadOutcomeProps.v
theories/TransformLossSpec.v
theories/TransformLossProofs.v
theories/TransformLossProps.v
theories/StackFilesSpec.v
theories/StackFilesProofs.v
theories/StackFilesProps.v
theories/ScalarSpec.v
theories/ScalarProofs.v
theories/ScalarProps.v
theories/FloatNormModel.v
theories/FloatNormSpec.v
theories/FloatNormProofs.v
theories/FloatNormProps.v
theories/FloatStatModel.v
theories/FloatStatSpec.v
theories/FloatStatProofs.v
theories/FloatStatProps.v
theories/FloatOffsetModel.v
theories/FloatOffsetSpec.v
theories/FloatOffsetProofs.v
theories/FloatOffsetProps.v
theories/FloatTracesModel.v
theories/FloatTracesSpec.v
theories/FloatTracesProofs.v
theories/FloatTracesProps.v
theories/FloatGeomModel.v
theories/FloatGeomSpec.v
theories/FloatGeomProofs.v
theories/FloatGeomProps.v
theories/FloatMuteModel.v
theories/FloatMuteSpec.v
theories/FloatMuteProofs.v
theories/FloatMuteProps.v
theories/FloatXcorrModel.v
theories/FloatXcorrSpec.v
theories/FloatXcorrProofs.v
theories/FloatXcorrProps.v
theories/FloatPhaseModel.v
theories/FloatPhaseSpec.v
theories/FloatPhaseProofs.v
theories/FloatPhaseProps.v
theories/FloatWindowModel.v
theories/FloatWindowSpec.v
theories/FloatWindowProofs.v
theories/FloatWindowProps.v
theories/FloatPickModel.v
theories/FloatPickSpec.v
theories/FloatPickProofs.v
theories/FloatPickProps.v
theories/FloatInterpModel.v
theories/FloatInterpSpec.v
theories/FloatInterpProofs.v
theories/FloatInterpProps.v
theories/TestTools.v
theories/TestSeries.v
theories/TestArray.v
theories/TestPeaks.v
theories/TestSuite.v
theories/TestTransform.v
theories/FloatIeeeModel.v
theories/FloatIeeeSpec.v
theories/FloatIeeeProofs.v
theories/FloatIeeeProps.v
theories/FloatTaupModel.v
theories/FloatTaupSpec.v
theories/FloatTaupProofs.v
theories/FloatTaupProps.v
theories/FloatIeeeImageModel.v
theories/FloatIeeeImageSpec.v
theories/FloatIeeeImageProofs.v
theories/FloatIeeeImageProps.v
theories/FloatBeamModel.v
theories/FloatBeamSpec.v
theories/FloatBeamProofs.v
theories/FloatBeamProps.v
theories/SourceObjModel.v
theories/SourceObjProofs.v
theories/SourceObjProps.v
theories/FloatFileModel.v
theories/FloatFileSpec.v
theories/FloatFileProofs.v
theories/FloatFileProps.v
theories/PeaksTreeModel.v
theories/PeaksTreeSpec.v
theories/PeaksTreeProofs.v
theories/PeaksTreeProps.v
theories/ArrayShareModel.v
theories/ArrayShareSpec.v
theories/ArrayShareProofs.v
theories/ArrayShareProps.v
theories/WorkflowOneSpec.v
theories/WorkflowOneProofs.v
theories/SuiteInfSpec.v
theories/SuiteInfProofs.v
theories/WorkflowOrderProofs.v
theories/StackOrderProofs.v
theories/ShiftSpec.v
theories/ShiftProofs.v
theories/ShiftRunProofs.v
theories/ShiftProps.v
theories/MirrorSpec.v
theories/MirrorProofs.v
theories/MirrorSlantProofs.v
theories/MirrorImageProofs.v
theories/MirrorProps.v
theories/GainSpec.v
theories/GainProofs.v
theories/GainImageProofs.v
theories/GainPeakProofs.v
theories/GainBeamProofs.v
theories/GainProps.v
theories/UnitSpec.v
theories/UnitProofs.v
theories/UnitImageProofs.v
theories/UnitProps.v
theories/ClockSpec.v
theories/ClockProofs.v
theories/ClockProps.v
theories/SumSpec.v
theories/SumProofs.v
theories/SumProps.v
theories/SumOpsProofs.v
