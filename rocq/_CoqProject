-Q theories Verif
theories/PyBase.v
theories/PyLemmas.v
theories/ConfigModel.v
theories/ArrayModel.v
theories/LoggerModel.v
theories/LoggerSpec.v
theories/LoggerProofs.v
theories/SimModel.v
theories/SimSpec.v
theories/SimRefine.v
theories/SimRun.v
theories/SimDiag.v
theories/SimLoop.v
theories/DiagModel.v
theories/ArraySpec.v
theories/ArrayProofs.v
theories/ArrayPaths.v
theories/ArrayInitModel.v
theories/ArrayInitProps.v
theories/Demo.v
theories/ArrayProps.v
theories/AddProps.v
theories/ConfigProps.v
theories/SignalSpec.v
theories/SignalPass.v
theories/SignalRun.v
theories/SignalLaw.v
theories/SignalInv.v
theories/SignalStart.v
theories/RunSpec.v
theories/RunLaw.v
theories/DiagRun.v
theories/DiagSpec.v
theories/DiagProofs.v
theories/DiagCtorModel.v
theories/DiagCtorProofs.v
theories/SaveSpec.v
theories/DemoRun.v
theories/SaveProps.v
theories/StateProofs.v
theories/StateProps.v
theories/DemoQ.v
theories/PowerProps.v
theories/StateValueProps.v
theories/ProcModel.v
theories/DemoSpy.v
theories/SignalProps.v
theories/MoveProps.v
theories/ProcProps.v
theories/SizeProofs.v
theories/SizeProps.v
theories/ContribProofs.v
theories/ContribProps.v
theories/CounterModel.v
theories/CounterProps.v
theories/PyStr.v
theories/PyStrLemmas.v
theories/UtilModel.v
theories/UtilProps.v
theories/FileModel.v
theories/FileProps.v
theories/FileNumProps.v
theories/SourceModel.v
theories/SourceSpec.v
theories/SourceProofs.v
theories/SourceProps.v
theories/NoiseProps.v
theories/GoldProps.v
theories/SineModel.v
theories/SineProps.v
theories/MetaModel.v
theories/MetaProps.v
theories/SessionModel.v
theories/SessionProps.v
theories/TrajModel.v
theories/TrajProps.v
theories/RegionModel.v
theories/RegionProps.v
theories/PointsModel.v
theories/PointsProps.v
theories/AccessModel.v
theories/AccessProps.v
theories/RirModel.v
theories/RirProps.v
theories/ExportModel.v
theories/ExportProps.v
theories/PlotModel.v
theories/PlotProps.v
theories/FreqModel.v
theories/FreqProps.v
theories/VolumeProps.v
theories/SetupModel.v
theories/SetupProps.v
theories/FigModel.v
theories/FigProps.v
theories/SpectrumModel.v
theories/SpectrumProps.v
theories/DirModel.v
theories/DirProps.v
theories/ArrFigModel.v
theories/ArrFigProps.v
theories/SignalsProps.v
theories/PrefixProps.v
theories/AgainProps.v
theories/ConstModel.v
theories/ConstProps.v
theories/LocalProps.v
theories/DemoFun.v
theories/CausalProps.v
theories/LinearProps.v
theories/MotionProps.v
theories/GroupProps.v
theories/RirOldModel.v
theories/RirOldProps.v
theories/RectModel.v
theories/RectProps.v
theories/WayProps.v
theories/CoverProps.v
theories/ScriptModel.v
theories/ScriptProps.v
theories/SilentProps.v
theories/TikzModel.v
theories/TikzProps.v
theories/HelperModel.v
theories/HelperProps.v
theories/DirectProps.v
theories/BoundProps.v
theories/ErrorProps.v
theories/ConfFileModel.v
theories/ConfFileProps.v
theories/DecayProps.v
theories/UpcomingModel.v
theories/UpcomingProps.v
theories/TightProps.v
theories/IterModel.v
theories/IterProps.v
theories/SteadyProps.v
theories/CallModel.v
theories/CallProps.v
theories/PowerAllModel.v
theories/PowerAllProps.v
theories/MeasureProps.v
theories/MlsProps.v
theories/PulseProps.v
theories/PathInfoModel.v
theories/PathInfoProps.v
theories/SaveMetaModel.v
theories/SaveMetaProps.v
theories/UnheardProps.v
