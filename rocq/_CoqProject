-Q theories Verif
theories/Base.v
theories/SupercellModel.v
theories/SupercellSpec.v
theories/SupercellProofs.v
theories/SupercellProps.v
theories/Rounding.v
theories/StructureModel.v
theories/StructureSpec.v
theories/StructureProofs.v
theories/StructureProps.v
theories/StructureStateProps.v
theories/DynamicsModel.v
theories/DynamicsSpec.v
theories/DynamicsProofs.v
theories/DynamicsProps.v
theories/DynFailureModel.v
theories/DynFailureProps.v
theories/DisplacementsModel.v
theories/DetBridge.v
theories/DisplacementsSpec.v
theories/DisplacementsProofs.v
theories/DisplacementsProps.v
theories/CMem.v
theories/CorrelationModel.v
theories/CorrelationSpec.v
theories/CorrelationProofs.v
theories/CorrelationProps.v
theories/MemModel.v
theories/MemSpec.v
theories/MemProofs.v
theories/MemProps.v
theories/MemIntegral.v
theories/MemIntegralProofs.v
theories/MemIntegralProps.v
theories/MemFloatModel.v
theories/MemFloatProofs.v
theories/MemFloatProps.v
theories/InvalidSampleModel.v
theories/InvalidSampleProofs.v
theories/InvalidSampleProps.v
theories/ArithModel.v
theories/FloatFacts.v
theories/SpectraModel.v
theories/SpectraSpec.v
theories/SpectraProofs.v
theories/FloatPieces.v
theories/FloatAxis.v
theories/SpectraProps.v
theories/SpectraFloatProps.v
theories/QuasiModel.v
theories/QuasiSpec.v
theories/QuasiProofs.v
theories/QuasiMore.v
theories/QuasiProps.v
theories/TemperatureProps.v
theories/NacModel.v
theories/NacProps.v
theories/DispersionWidthModel.v
theories/DispersionWidthProps.v
theories/EquivalentProps.v
theories/ParametersModel.v
theories/ParametersSpec.v
theories/ParametersProofs.v
theories/ParametersProps.v
theories/ProjectionModel.v
theories/ProjectionSpec.v
theories/UnitaryBridge.v
theories/ProjectionProofs.v
theories/ProjectionProps.v
theories/FittingModel.v
theories/FittingSpec.v
theories/FittingProofs.v
theories/FittingProps.v
theories/FitFunctionsModel.v
theories/FitFunctionsSpec.v
theories/FitFunctionsProofs.v
theories/FitAsymProofs.v
theories/FitFunctionsProps.v
theories/ExactFitProps.v
theories/AsymmetricFitProofs.v
theories/AsymmetricFitProps.v
theories/KindsAnalysisProps.v
theories/GaussianFitProps.v
theories/ParallelModel.v
theories/ParallelProps.v
theories/BoltzmannModel.v
theories/BoltzmannProps.v
theories/ThermalModel.v
theories/ThermalSpec.v
theories/ThermalProofs.v
theories/ThermalProps.v
theories/ThermalLimitsProps.v
theories/ThermalFloatModel.v
theories/ThermalFloatSpec.v
theories/ThermalFloatProofs.v
theories/ThermalFloatProps.v
theories/GenerateModel.v
theories/GenerateSpec.v
theories/GenerateProofs.v
theories/GenerateGeometry.v
theories/GeneratePoscar.v
theories/GenerateProps.v
theories/ParsersModel.v
theories/ParsersSpec.v
theories/ParsersProofs.v
theories/ParsersMore.v
theories/ParsersGeometry.v
theories/ParsersTemplate.v
theories/ParsersProps.v
theories/FormatsProps.v
theories/LastStepsProps.v
theories/LammpsModel.v
theories/LammpsProps.v
theories/CutFileProps.v
theories/CutLineProps.v
theories/AveragesModel.v
theories/AveragesProps.v
theories/SettingsModel.v
theories/SettingsProps.v
theories/BandPlotsModel.v
theories/BandPlotsProps.v
theories/QhaPlotsModel.v
theories/QhaPlotsProps.v
theories/InvalidFftModel.v
theories/InvalidFftProps.v
theories/FitObjectModel.v
theories/FitObjectProps.v
theories/PeakFiguresModel.v
theories/PeakFiguresProps.v
theories/TemplateModel.v
theories/TemplateSpec.v
theories/TemplateProofs.v
theories/TemplateProps.v
theories/Hdf5Model.v
theories/Hdf5Spec.v
theories/Hdf5Proofs.v
theories/Hdf5Props.v
theories/PhonopyLinkModel.v
theories/PhonopyLinkSpec.v
theories/PhonopyLinkProofs.v
theories/PhonopyLinkProps.v
theories/VersionModel.v
theories/VersionProps.v
theories/ProjectionSymmetryProps.v
theories/ElementsModel.v
theories/ElementsSpec.v
theories/ElementsProofs.v
theories/ElementsProps.v
theories/OutputModel.v
theories/OutputSpec.v
theories/OutputProofs.v
theories/OutputProps.v
theories/InputModel.v
theories/InputSpec.v
theories/InputProofs.v
theories/InputProps.v
theories/FftModel.v
theories/FftSpec.v
theories/FftProofs.v
theories/FftProps.v
theories/RealToneProofs.v
theories/RealTone2.v
theories/RealToneProps.v
theories/FullSpectrumModel.v
theories/FullSpectrumSpec.v
theories/FullSpectrumProofs.v
theories/FullSpectrumProps.v
theories/FailureModel.v
theories/FailureProps.v
theories/HarmonicModel.v
theories/HarmonicSpec.v
theories/HarmonicProofs.v
theories/HarmonicProps.v
theories/HistogramModel.v
theories/HistogramSpec.v
theories/HistogramProofs.v
theories/HistogramProps.v
theories/BandsModel.v
theories/BandsSpec.v
theories/BandsProofs.v
theories/BandsProps.v
theories/DosModel.v
theories/DosSpec.v
theories/DosProofs.v
theories/DosProps.v
theories/OccupancyModel.v
theories/OccupancyProps.v
theories/CliModel.v
theories/CliSpec.v
theories/CliProofs.v
theories/CliProps.v
theories/UiModel.v
theories/UiProps.v
theories/RfcModel.v
theories/RfcProps.v
theories/QhaModel.v
theories/QhaProps.v
theories/MeshModel.v
theories/MeshProps.v
theories/BandCacheModel.v
theories/BandCacheProps.v
theories/VelocityModel.v
theories/VelocitySpec.v
theories/VelocityProofs.v
theories/VelocityProps.v
theories/ForcesModel.v
theories/ForcesProps.v
theories/ModesModel.v
theories/ModesProps.v
theories/ScanModel.v
theories/ScanProps.v
theories/CommensurateModel.v
theories/CommensurateProps.v
theories/SpectrumSymmetryProps.v
theories/LoessModel.v
theories/LoessProps.v
theories/RoundTripProps.v
theories/LedgerModel.v
theories/LedgerProps.v
theories/ExportModel.v
theories/ExportProps.v
theories/GaussianModel.v
theories/GaussianProps.v
theories/TempFilesModel.v
theories/TempFilesProps.v
theories/OutcarModel.v
theories/OutcarProps.v
theories/AutoPathModel.v
theories/AutoPathProps.v
theories/PhonopyDosModel.v
theories/PhonopyDosProps.v
theories/QhaPressureModel.v
theories/QhaPressureProps.v
theories/QhaFilesModel.v
theories/QhaFilesProofs.v
theories/QhaFilesProps.v
theories/RealToneTrajectory.v
theories/ModeExpansionProofs.v
theories/ModeExpansionProps.v
theories/ReconstructionProps.v
theories/OrthoTestModel.v
theories/OrthoTestProps.v
theories/RunningWaveProofs.v
theories/RunningWaveProps.v
theories/CorrelationGrowthProps.v
theories/ExactConditionsProps.v
