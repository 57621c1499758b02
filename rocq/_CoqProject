-Q theories Verif
theories/Base/Cplx.v
theories/Base/Lists.v
theories/Base/Mat.v
theories/Base/Num.v
theories/Base/NumF.v
theories/Base/NumR.v
theories/Base/Res.v
theories/Model/Alignment.v
theories/Model/Amatrix.v
theories/Model/BankArrays.v
theories/Model/Cli.v
theories/Model/Duration.v
theories/Model/Erb.v
theories/Model/Fft.v
theories/Model/FftHeap.v
theories/Model/FilterBank.v
theories/Model/LoadLock.v
theories/Model/LoadLog.v
theories/Model/Manager.v
theories/Model/Mappers.v
theories/Model/MiscAudio.v
theories/Model/MiscMath.v
theories/Model/Nsim.v
theories/Model/PatchCreator.v
theories/Model/RmsVad.v
theories/Model/Selector.v
theories/Model/SignalFilter.v
theories/Model/Spectrogram.v
theories/Model/SvrModel.v
theories/Model/Tflite.v
theories/Model/Training.v
theories/Model/Visqol.v
theories/Model/Warnings.v
theories/Model/Wav.v
theories/Model/Window.v
theories/Proofs/AccurateCasesP.v
theories/Proofs/AccurateRunP.v
theories/Proofs/AggCases2P.v
theories/Proofs/AggCasesP.v
theories/Proofs/AggFloatP.v
theories/Proofs/AggregateP.v
theories/Proofs/AggregateRP.v
theories/Proofs/AlignCasesP.v
theories/Proofs/AlignP.v
theories/Proofs/ApiCasesP.v
theories/Proofs/ApiP.v
theories/Proofs/ApiRP.v
theories/Proofs/B64P.v
theories/Proofs/BankArraysBuildP.v
theories/Proofs/BankArraysKP.v
theories/Proofs/BankArraysMainP.v
theories/Proofs/BankArraysP.v
theories/Proofs/BankArraysRP.v
theories/Proofs/BankP.v
theories/Proofs/BoundP.v
theories/Proofs/CellsP.v
theories/Proofs/CenterP.v
theories/Proofs/CliCasesP.v
theories/Proofs/CliFileP.v
theories/Proofs/CliP.v
theories/Proofs/CliRunP.v
theories/Proofs/CliWriterP.v
theories/Proofs/CodesP.v
theories/Proofs/ConvP.v
theories/Proofs/CopyP.v
theories/Proofs/CountTimesP.v
theories/Proofs/CoverP.v
theories/Proofs/DbAccP.v
theories/Proofs/DbSimP.v
theories/Proofs/DelayP.v
theories/Proofs/DftP.v
theories/Proofs/DurationP.v
theories/Proofs/EnvAlignP.v
theories/Proofs/EnvCasesP.v
theories/Proofs/EnvErrP.v
theories/Proofs/EnvelopeP.v
theories/Proofs/ErbFloatP.v
theories/Proofs/ErbNormP.v
theories/Proofs/ErbP.v
theories/Proofs/FftAccP.v
theories/Proofs/FftDualP.v
theories/Proofs/FftErrP.v
theories/Proofs/FftHeapCallsP.v
theories/Proofs/FftHeapP.v
theories/Proofs/FftHeapUseP.v
theories/Proofs/FftNormP.v
theories/Proofs/FftP.v
theories/Proofs/FileCasesP.v
theories/Proofs/FilterAccP.v
theories/Proofs/FilterAllP.v
theories/Proofs/FilterBandP.v
theories/Proofs/FilterBankAccP.v
theories/Proofs/FilterChannelP.v
theories/Proofs/FilterLevelP.v
theories/Proofs/FilterP.v
theories/Proofs/FilterRangeP.v
theories/Proofs/FindP.v
theories/Proofs/FineCasesP.v
theories/Proofs/FineP.v
theories/Proofs/FineRunP.v
theories/Proofs/FineSafeP.v
theories/Proofs/FineTimesP.v
theories/Proofs/FiniteCasesP.v
theories/Proofs/FiniteFineP.v
theories/Proofs/FiniteNsimP.v
theories/Proofs/FinitePrepP.v
theories/Proofs/FiniteResultP.v
theories/Proofs/FiniteRunP.v
theories/Proofs/FiniteTotalP.v
theories/Proofs/FiniteVadP.v
theories/Proofs/FloatAudioP.v
theories/Proofs/FloatP.v
theories/Proofs/GammatoneP.v
theories/Proofs/HilbertP.v
theories/Proofs/IdentityDpP.v
theories/Proofs/IdentityP.v
theories/Proofs/IdentityRunP.v
theories/Proofs/LagCasesP.v
theories/Proofs/LevelBothP.v
theories/Proofs/LevelCasesP.v
theories/Proofs/LevelEqualP.v
theories/Proofs/LevelFloatP.v
theories/Proofs/LevelMatchP.v
theories/Proofs/LevelP.v
theories/Proofs/LevelRoundP.v
theories/Proofs/LevelRunP.v
theories/Proofs/LevelScaleP.v
theories/Proofs/LoadLockCasesP.v
theories/Proofs/LoadLockP.v
theories/Proofs/LoadLogP.v
theories/Proofs/LoudCasesP.v
theories/Proofs/LoudP.v
theories/Proofs/MapperCasesP.v
theories/Proofs/MapperP.v
theories/Proofs/MapperRP.v
theories/Proofs/MatchAllP.v
theories/Proofs/MatchCasesP.v
theories/Proofs/MatchP.v
theories/Proofs/MatrixClassP.v
theories/Proofs/MatrixP.v
theories/Proofs/MeanErrP.v
theories/Proofs/MeanRangeP.v
theories/Proofs/MiscAudioP.v
theories/Proofs/NsimAnyP.v
theories/Proofs/NsimFP.v
theories/Proofs/NsimOneP.v
theories/Proofs/NsimP.v
theories/Proofs/NsimRoundAllP.v
theories/Proofs/NsimRoundP.v
theories/Proofs/NsimSpecP.v
theories/Proofs/NsimWideP.v
theories/Proofs/OneRunP.v
theories/Proofs/OptimalP.v
theories/Proofs/PatchCreatorP.v
theories/Proofs/PieceCasesP.v
theories/Proofs/PieceP.v
theories/Proofs/PolarityCasesP.v
theories/Proofs/PolarityP.v
theories/Proofs/PrepareP.v
theories/Proofs/RangeCasesP.v
theories/Proofs/RangeP.v
theories/Proofs/RatingP.v
theories/Proofs/RatingRunP.v
theories/Proofs/RealP.v
theories/Proofs/RelP.v
theories/Proofs/RmsAccP.v
theories/Proofs/RoundCasesP.v
theories/Proofs/RoundP.v
theories/Proofs/RoundedLibmP.v
theories/Proofs/SafeP.v
theories/Proofs/ScoresBigP.v
theories/Proofs/ScoresP.v
theories/Proofs/SelectorP.v
theories/Proofs/SelfCasesP.v
theories/Proofs/SelfLagP.v
theories/Proofs/SelfMatchP.v
theories/Proofs/SelfRunP.v
theories/Proofs/SelfScoreP.v
theories/Proofs/SelfSummaryP.v
theories/Proofs/ShapeP.v
theories/Proofs/ShortP.v
theories/Proofs/SignalP.v
theories/Proofs/SliceCasesP.v
theories/Proofs/SliceRoundP.v
theories/Proofs/StableBankP.v
theories/Proofs/StableCasesP.v
theories/Proofs/StableP.v
theories/Proofs/StatP.v
theories/Proofs/SvrModelP.v
theories/Proofs/TableP.v
theories/Proofs/ToneP.v
theories/Proofs/TotalCasesP.v
theories/Proofs/TotalP.v
theories/Proofs/ToyRunP.v
theories/Proofs/TrainingCasesP.v
theories/Proofs/TrainingP.v
theories/Proofs/UndefRelP.v
theories/Proofs/VadP.v
theories/Proofs/VadRP.v
theories/Proofs/VarCasesP.v
theories/Proofs/VarP.v
theories/Proofs/WarningCasesP.v
theories/Proofs/WarningP.v
theories/Proofs/WavCutP.v
theories/Proofs/WavFilesP.v
theories/Proofs/WavFloatP.v
theories/Proofs/WavLoadP.v
theories/Proofs/WavP.v
theories/Proofs/WiderCasesP.v
theories/Proofs/WiderP.v
theories/Proofs/WindowFP.v
theories/Proofs/WindowP.v
theories/Proofs/XcorrErrP.v
theories/Proofs/XcorrLagP.v
theories/Proofs/XcorrP.v
theories/Props/AccurateProps.v
theories/Props/AlignProps.v
theories/Props/ApiProps.v
theories/Props/AudioFileProps.v
theories/Props/BankArraysProps.v
theories/Props/CliProps.v
theories/Props/CopyProps.v
theories/Props/DbAccProps.v
theories/Props/DelayProps.v
theories/Props/DurationProps.v
theories/Props/EnvAlignProps.v
theories/Props/EnvelopeProps.v
theories/Props/FftHeapProps.v
theories/Props/FftProps.v
theories/Props/FilterAccProps.v
theories/Props/FilterBankProps.v
theories/Props/FineProps.v
theories/Props/FiniteResultProps.v
theories/Props/GammatoneProps.v
theories/Props/IdentityProps.v
theories/Props/InvarianceProps.v
theories/Props/LagProps.v
theories/Props/LevelMatchProps.v
theories/Props/LevelProps.v
theories/Props/LoadLogProps.v
theories/Props/LoadProps.v
theories/Props/MapperProps.v
theories/Props/MatchProps.v
theories/Props/MatrixClassProps.v
theories/Props/MatrixProps.v
theories/Props/MeanRangeProps.v
theories/Props/PatchProps.v
theories/Props/PieceProps.v
theories/Props/RangeProps.v
theories/Props/RatingProps.v
theories/Props/ResultProps.v
theories/Props/RoundProps.v
theories/Props/SelfProps.v
theories/Props/SignalProps.v
theories/Props/SimilarityProps.v
theories/Props/StableProps.v
theories/Props/TableProps.v
theories/Props/TimesProps.v
theories/Props/TotalProps.v
theories/Props/TrainingProps.v
theories/Props/UndefinedProps.v
theories/Props/VarianceProps.v
theories/Props/WarningProps.v
theories/Props/WavFilesProps.v
theories/Props/WiderProps.v
theories/Spec/AggSpec.v
theories/Spec/AlignSpec.v
theories/Spec/ApiSpec.v
theories/Spec/ArgSpec.v
theories/Spec/AudioSpec.v
theories/Spec/CliSpec.v
theories/Spec/CopySpec.v
theories/Spec/DbAccSpec.v
theories/Spec/DelaySpec.v
theories/Spec/DownmixSpec.v
theories/Spec/EnvAccSpec.v
theories/Spec/EnvelopeSpec.v
theories/Spec/FftAccSpec.v
theories/Spec/FftHeapSpec.v
theories/Spec/FftSpec.v
theories/Spec/FilterAccSpec.v
theories/Spec/FilterSpec.v
theories/Spec/FineSpec.v
theories/Spec/FiniteSpec.v
theories/Spec/IdentitySpec.v
theories/Spec/LevelSpec.v
theories/Spec/LibmSpec.v
theories/Spec/LoadLogSpec.v
theories/Spec/LoadSpec.v
theories/Spec/LoudSpec.v
theories/Spec/ManagerSpec.v
theories/Spec/MatchSpec.v
theories/Spec/MatrixSpec.v
theories/Spec/MeanRangeSpec.v
theories/Spec/PcmSpec.v
theories/Spec/PieceSpec.v
theories/Spec/PolaritySpec.v
theories/Spec/RangeSpec.v
theories/Spec/RatingSpec.v
theories/Spec/RoundSpec.v
theories/Spec/SelfSpec.v
theories/Spec/SmoothSpec.v
theories/Spec/StableSpec.v
theories/Spec/StatSpec.v
theories/Spec/SvrSpec.v
theories/Spec/TableSpec.v
theories/Spec/ToneSpec.v
theories/Spec/TotalSpec.v
theories/Spec/UndefinedSpec.v
theories/Spec/VadSpec.v
theories/Spec/VarSpec.v
theories/Spec/WarningSpec.v
theories/Spec/WavSpec.v
theories/Spec/WiderSpec.v
