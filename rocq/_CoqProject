-Q theories Verif
theories/EventArraysModel.v
theories/EventArraysProofs.v
theories/EventArraysProps.v
theories/HistModel.v
theories/HistProofs.v
theories/HistProps.v
theories/ChunksModel.v
theories/ChunksProofs.v
theories/ChunksProps.v
theories/BitsModel.v
theories/MortonProofs.v
theories/BitsProofs.v
theories/BitsProps.v
theories/ArrayUtilsModel.v
theories/ArrayUtilsProofs.v
theories/ArrayUtilsProps.v
theories/SmcModel.v
theories/SmcProofs.v
theories/SmcProps.v
theories/MergeModel.v
theories/MergeProofs.v
theories/MergeProps.v
theories/PixelMaskModel.v
theories/PixelMaskProps.v
theories/CombineModel.v
theories/CombineProps.v
theories/SelectionModel.v
theories/SelectionProofs.v
theories/SelectionProps.v
theories/FindTracksModel.v
theories/FindTracksProofs.v
theories/FindTracksProps.v
theories/FindTracksIdeal.v
theories/FitTracksModel.v
theories/FitTracksProps.v
theories/GeometryModel.v
theories/GeometryProofs.v
theories/GeometryProps.v
theories/AnglesProps.v
theories/SensorProps.v
theories/AlignModel.v
theories/AlignProps.v
theories/KalmanTrackModel.v
theories/KalmanTrackProps.v
theories/KalmanScatterProps.v
theories/AlignJacobianModel.v
theories/AlignJacobianProps.v
theories/KalmanFilterModel.v
theories/KalmanFilterProofs.v
theories/KalmanFilterProps.v
theories/AlignKalmanModel.v
theories/AlignKalmanProps.v
theories/TelescopeModel.v
theories/TelescopeProps.v
theories/CorrelateModel.v
theories/CorrelateProofs.v
theories/CorrelateProps.v
theories/CorrelateBinsProps.v
theories/RansacModel.v
theories/RansacProps.v
theories/PrealignModel.v
theories/HoughProps.v
theories/PrealignProps.v
theories/RunningMeanModel.v
theories/EfficiencyModel.v
theories/RunningMeanProps.v
theories/EfficiencyProps.v
theories/ConverterModel.v
theories/ConverterProps.v
theories/PurityModel.v
theories/PurityProps.v
theories/TrackAngleModel.v
theories/TrackAngleProps.v
theories/TransformModel.v
theories/TransformProps.v
theories/TransformFitProps.v
theories/TransformCases.v
theories/LineFitModel.v
theories/LineFitProps.v
theories/StoreTracksModel.v
theories/StoreTracksProps.v
theories/SimulateModel.v
theories/SimulateProps.v
theories/SimulateHitsProps.v
theories/BeamAlignModel.v
theories/BeamAlignProps.v
theories/TestToolsModel.v
theories/TestToolsProps.v
theories/FitKalmanModel.v
theories/FitKalmanProps.v
theories/KalmanLastProps.v
theories/WrapperModel.v
theories/CoordinatesModel.v
theories/WrapperProps.v
theories/CoordinatesProps.v
theories/ClusterHistModel.v
theories/ClusterHistProps.v
theories/ResidualsModel.v
theories/ResidualsProps.v
theories/VoronoiModel.v
theories/PolygonModel.v
theories/VoronoiProps.v
theories/PolygonProps.v
theories/AlignArgsModel.v
theories/AlignArgsProps.v
theories/FitResidualsModel.v
theories/GaussProps.v
theories/FitResidualsProps.v
theories/NearestPsdModel.v
theories/NearestPsdProofs.v
theories/NearestPsdProps.v
theories/DiamondModel.v
theories/DiamondProps.v
theories/StorageModel.v
theories/StorageProps.v
theories/SimTracksModel.v
theories/SimTracksProps.v
theories/ChargeModel.v
theories/ErfProofs.v
theories/FloatModel.v
theories/ChargeProps.v
theories/FloatProps.v
theories/PixelHitsModel.v
theories/PixelHitsProps.v
theories/KalmanStepsModel.v
theories/KalmanStepsProps.v
theories/InPixelModel.v
theories/InPixelProps.v
theories/EffIntervalModel.v
theories/EffIntervalProofs.v
theories/EffIntervalProps.v
theories/EffDistModel.v
theories/EffDistProps.v
theories/SmcNodesModel.v
theories/SmcNodesProofs.v
theories/QueryModel.v
theories/SmcNodesProps.v
theories/QueryProps.v
theories/FloatBinsModel.v
theories/BinStatModel.v
theories/PlotHistModel.v
theories/FloatBinsProps.v
theories/BinStatProps.v
theories/PlotHistProps.v
theories/ResidualBinsModel.v
theories/FindSetupModel.v
theories/ChunksIndexedProps.v
theories/ResidualBinsProps.v
theories/FindSetupProps.v
theories/FitArgsModel.v
theories/EffArgsModel.v
theories/FitArgsProps.v
theories/EffArgsProps.v
theories/SelectArgsModel.v
theories/ClusterSetupModel.v
theories/ResidualCorrModel.v
theories/SelectArgsProps.v
theories/ClusterSetupProps.v
theories/ResidualCorrProps.v
theories/CheckFileModel.v
theories/NoiseLevelModel.v
theories/CheckFileProps.v
theories/NoiseLevelProps.v
theories/TransformArgsModel.v
theories/TransformArgsProps.v
theories/PlotShapesProps.v
theories/YamlFilesModel.v
theories/YamlFilesProps.v
theories/ResidualNodesModel.v
theories/ResidualNodesProps.v
theories/EffStoreModel.v
theories/EffStoreProps.v
theories/AngleFileModel.v
theories/AngleFileProps.v
theories/ClusterFileModel.v
theories/ClusterFileProps.v
theories/DensityModel.v
theories/DensityProps.v
theories/Chi2PlotModel.v
theories/Chi2PlotProps.v
theories/PlotEventsModel.v
theories/PlotEventsProps.v
theories/MaskPlotModel.v
theories/MaskPlotProps.v
theories/FitStatsModel.v
theories/FitStatsProps.v
theories/DiffReportModel.v
theories/DiffReportProps.v
theories/CorrFileModel.v
theories/CorrFileProps.v
theories/AnglePlotModel.v
theories/AnglePlotProps.v
theories/CheckPlotModel.v
theories/CheckPlotProps.v
theories/EffPixelsModel.v
theories/EffPixelsProps.v
theories/KfFileModel.v
theories/KfFileProps.v
theories/MapRangeModel.v
theories/MapRangeProps.v
theories/HoughPlotModel.v
theories/HoughPlotProps.v
theories/ResidualMapModel.v
theories/ResidualMapProps.v
theories/ResidualPlotModel.v
theories/ResidualPlotProps.v
theories/FindArgsModel.v
theories/FindArgsProps.v
theories/OpenConfigModel.v
theories/OpenConfigProps.v
theories/EffAnglesModel.v
theories/EffAnglesProps.v
theories/CenterRegionModel.v
theories/CenterRegionProps.v
theories/EffHistModel.v
theories/EffHistProps.v
theories/ShapePagesModel.v
theories/ShapePagesProps.v
theories/PixelColoursModel.v
theories/PixelColoursProps.v
theories/FixtureModel.v
theories/FixtureProps.v
theories/FileNamesModel.v
theories/FileNamesProps.v
theories/ConverterNamesModel.v
theories/ConverterNamesProps.v
theories/DensityLimitModel.v
theories/DensityLimitProps.v
theories/ArrowsModel.v
theories/ArrowsProps.v
theories/RegionPageModel.v
theories/RegionPageProps.v
theories/KalmanErrorsModel.v
theories/KalmanErrorsProps.v
theories/PeakModel.v
theories/PeakProps.v
theories/PixelHistModel.v
theories/PixelHistProps.v
