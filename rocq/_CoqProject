-Q theories Verif
theories/BacktestModel.v
theories/BacktestProofs.v
theories/BacktestProps.v
theories/BacktestSpec.v
theories/BinomModel.v
theories/BinomProps.v
theories/BocpdCallModel.v
theories/BocpdCallProps.v
theories/BocpdDetModel.v
theories/BocpdDetProps.v
theories/BocpdModel.v
theories/BocpdProofs.v
theories/BocpdProps.v
theories/BocpdSpec.v
theories/BocpdTrendModel.v
theories/BocpdTrendProps.v
theories/BvarModel.v
theories/BvarProps.v
theories/CalendarModel.v
theories/CalendarProps.v
theories/CalendarSpec.v
theories/Common.v
theories/CrossModel.v
theories/CrossProps.v
theories/CusumDetModel.v
theories/CusumDetProps.v
theories/CusumFleetProofs.v
theories/CusumFleetProps.v
theories/CusumFleetRunProofs.v
theories/CusumLlrProps.v
theories/CusumMagProps.v
theories/CusumModel.v
theories/CusumMultiProps.v
theories/CusumPathProofs.v
theories/CusumPathProps.v
theories/CusumProofs.v
theories/CusumProps.v
theories/CusumRunModel.v
theories/CusumScoreProps.v
theories/CusumShiftProofs.v
theories/CusumSpec.v
theories/CusumStateProofs.v
theories/CusumVecEmptyProps.v
theories/CusumVecProps.v
theories/DTWModel.v
theories/DTWProofs.v
theories/DTWProps.v
theories/DTWSearchProofs.v
theories/DTWSpec.v
theories/DecompModel.v
theories/DecompPartProps.v
theories/DecompProps.v
theories/DetHptModel.v
theories/DetHptProps.v
theories/DetMetaModel.v
theories/DetMetaProps.v
theories/DetRegModel.v
theories/DetRegProps.v
theories/DetSelectProps.v
theories/DistDistDetectProps.v
theories/DistDistModel.v
theories/DistDistProofs.v
theories/DistDistProps.v
theories/DistDistSpec.v
theories/EmpIntervalModel.v
theories/EmpIntervalProofs.v
theories/EmpIntervalProps.v
theories/EmpIntervalSpec.v
theories/EnsembleAggProps.v
theories/EnsembleKatsProps.v
theories/EnsembleModel.v
theories/EnsemblePlainProps.v
theories/EnsembleProofs.v
theories/EnsembleProps.v
theories/EnsembleSpec.v
theories/EpiModel.v
theories/EpiProps.v
theories/EpiSpec.v
theories/FeatBandModel.v
theories/FeatBandProps.v
theories/FeatIndicatorProps.v
theories/FeatModel.v
theories/FeatProofs.v
theories/FeatProps.v
theories/FeatSpec.v
theories/FftModel.v
theories/FftProps.v
theories/GaussProofs.v
theories/GmAdjProps.v
theories/GmArrayPlusProps.v
theories/GmArrayProps.v
theories/GmBatchModel.v
theories/GmBatchProps.v
theories/GmBtModel.v
theories/GmBtProps.v
theories/GmEnsModel.v
theories/GmEnsProps.v
theories/GmEvalModel.v
theories/GmEvalProps.v
theories/GmFcstModel.v
theories/GmFcstProps.v
theories/GmFeatureModel.v
theories/GmFeatureProps.v
theories/GmFillModel.v
theories/GmFillProofs.v
theories/GmFillProps.v
theories/GmLoaderModel.v
theories/GmLoaderProps.v
theories/GmLossModel.v
theories/GmLossProofs.v
theories/GmLossProps.v
theories/GmParamModel.v
theories/GmParamProps.v
theories/GmPassModel.v
theories/GmPassProofs.v
theories/GmPassProps.v
theories/GmS2sModel.v
theories/GmS2sProps.v
theories/GmSaveModel.v
theories/GmSaveProps.v
theories/GmShapeModel.v
theories/GmShapeProps.v
theories/GmSplitProps.v
theories/GmStepsProps.v
theories/GmTrainModel.v
theories/GmTrainProps.v
theories/HarmonicModel.v
theories/HarmonicProps.v
theories/HeuristicModel.v
theories/HeuristicProps.v
theories/HeuristicSpec.v
theories/HoltModel.v
theories/HoltProps.v
theories/HourlyDetectProps.v
theories/HourlyModel.v
theories/HourlyProofs.v
theories/HourlyProps.v
theories/HourlyRefuteProps.v
theories/HourlySpec.v
theories/IntervalCallModel.v
theories/IntervalCallProps.v
theories/IntervalRunsModel.v
theories/IntervalRunsProofs.v
theories/IntervalRunsProps.v
theories/IntervalRunsSpec.v
theories/LoadDataModel.v
theories/LoadDataProps.v
theories/LsqModel.v
theories/LsqProofs.v
theories/LstmModel.v
theories/LstmProps.v
theories/MedianProofs.v
theories/MedianSpec.v
theories/MetaHptModel.v
theories/MetaHptProps.v
theories/MetaModel.v
theories/MetaProps.v
theories/MetaSelectModel.v
theories/MetaSelectProps.v
theories/MetricsMissingProps.v
theories/MetricsModel.v
theories/MetricsMoreProps.v
theories/MetricsProofs.v
theories/MetricsProps.v
theories/MetricsSpec.v
theories/MlarCatProps.v
theories/MlarFutModel.v
theories/MlarFutProps.v
theories/MlarGridModel.v
theories/MlarGridProps.v
theories/MlarModel.v
theories/MlarNewModel.v
theories/MlarNewProps.v
theories/MlarProps.v
theories/MlarScaleProps.v
theories/MlarStepsModel.v
theories/MlarStepsProps.v
theories/NeuralModel.v
theories/NeuralProps.v
theories/NowcastModel.v
theories/NowcastPlusProofs.v
theories/NowcastPlusProps.v
theories/NowcastProps.v
theories/NowcastSpec.v
theories/OutlierModel.v
theories/OutlierMvProps.v
theories/OutlierProps.v
theories/OutlierRemoveProps.v
theories/OutlierSpec.v
theories/OutlierUnitsProps.v
theories/PartitionProofs.v
theories/PercChangeModel.v
theories/PercChangeProofs.v
theories/PercChangeProps.v
theories/PercChangeSpec.v
theories/PipelineModel.v
theories/PipelineProps.v
theories/PointEqModel.v
theories/PointEqProps.v
theories/PostModel.v
theories/PostProps.v
theories/PostSpec.v
theories/PostTypeModel.v
theories/PostTypeProps.v
theories/ProphetDetModel.v
theories/ProphetDetProps.v
theories/ProphetLoadModel.v
theories/ProphetLoadProps.v
theories/ProphetModel.v
theories/ProphetProps.v
theories/ProphetTrendModel.v
theories/ProphetTrendProps.v
theories/PySlice.v
theories/RegBandProps.v
theories/RegModel.v
theories/RegProps.v
theories/RenameModel.v
theories/RenameProps.v
theories/RenameSpec.v
theories/ResidModel.v
theories/ResidProps.v
theories/ResponseModel.v
theories/ResponseProofs.v
theories/ResponseProps.v
theories/ResponseSpec.v
theories/RnnMemProps.v
theories/RnnModel.v
theories/RnnProofs.v
theories/RnnProps.v
theories/RnnShapeProofs.v
theories/RobustModel.v
theories/RobustProps.v
theories/RobustSpec.v
theories/RollingModel.v
theories/RollingProofs.v
theories/RollingProps.v
theories/RollingSpec.v
theories/RollingStatsProps.v
theories/RunProbModel.v
theories/RunProbProofs.v
theories/RunProbProps.v
theories/RunProbSpec.v
theories/RunSearchProofs.v
theories/RunsModel.v
theories/RunsProps.v
theories/SearchSpaceModel.v
theories/SearchSpaceProps.v
theories/SeasonModel.v
theories/SeasonProps.v
theories/SeasonSpec.v
theories/SerialModel.v
theories/SerialProps.v
theories/SerialSpec.v
theories/SimArimaProps.v
theories/SimModel.v
theories/SimProps.v
theories/SimShiftProps.v
theories/SmModel.v
theories/SmProps.v
theories/StatSigModel.v
theories/StatSigProofs.v
theories/StatSigProps.v
theories/StatSigSeasonModel.v
theories/StatSigSeasonProps.v
theories/StatSigSpec.v
theories/StatUnitModel.v
theories/StatUnitProps.v
theories/StlfModel.v
theories/StlfProps.v
theories/SynthMetaModel.v
theories/SynthMetaProps.v
theories/TSDataModel.v
theories/TSDataProofs.v
theories/TSDataProps.v
theories/TSDataSpec.v
theories/TestDecisionModel.v
theories/TestDecisionProofs.v
theories/TestDecisionProps.v
theories/TestDecisionSpec.v
theories/ThetaModel.v
theories/ThetaProps.v
theories/ThmModel.v
theories/ThmObjModel.v
theories/ThmObjProps.v
theories/ThmProofs.v
theories/ThmProps.v
theories/ThmSpec.v
theories/ThmWeightProps.v
theories/ThresholdModel.v
theories/ThresholdProps.v
theories/TrendAnchorProps.v
theories/TrendMetricProps.v
theories/TrendModel.v
theories/TrendProofs.v
theories/TrendProps.v
theories/TrendScanProps.v
theories/TrendSpec.v
theories/TrendUnitsProps.v
theories/TsInterpProps.v
theories/TsObjModel.v
theories/TsObjProps.v
theories/TsObjSpec.v
theories/TsRowProps.v
theories/TsZoneProps.v
theories/TsfAcProps.v
theories/TsfAcfModel.v
theories/TsfAcfProps.v
theories/TsfDetModel.v
theories/TsfDetProps.v
theories/TsfFourierModel.v
theories/TsfFourierProps.v
theories/TsfHurstProps.v
theories/TsfLineProps.v
theories/TsfModel.v
theories/TsfNowModel.v
theories/TsfNowProps.v
theories/TsfProps.v
theories/TsfShapeModel.v
theories/TsfShapeProps.v
theories/TsfSpikeProps.v
theories/TsfValueModel.v
theories/TsfValueProps.v
theories/TuneModel.v
theories/TuneProps.v
theories/VersionModel.v
theories/VersionProps.v
theories/WeightModel.v
theories/WeightProps.v
theories/WrapModel.v
theories/WrapMvProps.v
theories/WrapProps.v
