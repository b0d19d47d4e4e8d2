-Q theories Verif
theories/Base.v
theories/BaseFacts.v
theories/NumpyModel.v
theories/NumpyFacts.v
theories/TrajModel.v
theories/TrajSpec.v
theories/VecFacts.v
theories/TrajFacts.v
theories/TrajFacts2.v
theories/TrajFacts3.v
theories/TrajProps.v
theories/GeomModel.v
theories/GeomSpec.v
theories/GeomFacts.v
theories/GeomFacts2.v
theories/GeomProps.v
theories/HeapModel.v
theories/HeapSpec.v
theories/HeapFacts.v
theories/HeapProps.v
theories/MatchModel.v
theories/MatchSpec.v
theories/MatchFacts.v
theories/MatchFacts2.v
theories/MatchProps.v
theories/MergeModel.v
theories/MergeSpec.v
theories/MergeFacts.v
theories/MergeProps.v
theories/SortModel.v
theories/SortSpec.v
theories/SortFacts.v
theories/SortProps.v
theories/EvalModel.v
theories/EvalSpec.v
theories/EvalFacts.v
theories/EvalFacts2.v
theories/EvalFacts3.v
theories/EvalFacts4.v
theories/EvalStats.v
theories/EvalFacts5.v
theories/EvalProps.v
theories/ParamModel.v
theories/ParamSpec.v
theories/ParamFacts.v
theories/ParamFacts2.v
theories/ParamFacts3.v
theories/ParamProps.v
theories/SettModel.v
theories/SettSpec.v
theories/SettFacts.v
theories/SettProps.v
theories/DataModel.v
theories/DataSpec.v
theories/DataFacts.v
theories/DataFacts2.v
theories/DataProps.v
theories/EstModel.v
theories/EstSpec.v
theories/EstFacts.v
theories/EstProps.v
theories/TextModel.v
theories/TextFacts.v
theories/HeaderModel.v
theories/IoModel.v
theories/IoSpec.v
theories/HeaderFacts.v
theories/IoFacts.v
theories/IoFacts2.v
theories/IoFacts3.v
theories/IoFacts4.v
theories/IoProps.v
theories/LsqModel.v
theories/LsqSpec.v
theories/LsqFacts.v
theories/LsqProps.v
theories/ApproxModel.v
theories/ApproxSpec.v
theories/ApproxFacts.v
theories/ApproxFacts2.v
theories/ApproxFacts3.v
theories/ApproxFacts4.v
theories/ApproxFacts5.v
theories/ApproxFacts6.v
theories/ApproxFacts7.v
theories/ApproxFacts8.v
theories/ApproxProps.v
theories/RpeModel.v
theories/RpeSpec.v
theories/RpeFacts.v
theories/RpeFacts2.v
theories/RpeFacts3.v
theories/RpeProps.v
theories/ReportModel.v
theories/ReportSpec.v
theories/ReportFacts.v
theories/ReportProps.v
theories/AteModel.v
theories/AteSpec.v
theories/AteFacts.v
theories/AteFacts2.v
theories/AteProps.v
theories/DirectModel.v
theories/DirectSpec.v
theories/DirectFacts.v
theories/DirectFacts2.v
theories/DirectFacts3.v
theories/DirectProps.v
theories/DirectProps2.v
theories/DirectProps3.v
theories/JacModel.v
theories/JacSpec.v
theories/JacFacts.v
theories/JacFacts2.v
theories/JacProps.v
theories/GhmModel.v
theories/GhmSpec.v
theories/GhmFacts.v
theories/GhmFacts2.v
theories/GhmFacts3.v
theories/GhmFacts4.v
theories/GhmCase.v
theories/GhmProps.v
theories/SolveSpec.v
theories/SolveFacts.v
theories/GhmFacts5.v
theories/GhmFacts6.v
theories/InitModel.v
theories/InitFacts.v
theories/InitFacts2.v
theories/InitFacts3.v
theories/InitFacts4.v
theories/InitSpec.v
theories/InitFacts5.v
theories/InitFacts6.v
theories/InitProps.v
theories/EqModel.v
theories/EqSpec.v
theories/EqFacts.v
theories/EqFacts2.v
theories/EqProps.v
theories/RosModel.v
theories/RosSpec.v
theories/RosFacts.v
theories/RosProps.v
theories/KmlModel.v
theories/KmlSpec.v
theories/KmlFacts.v
theories/KmlProps.v
theories/AlignModel.v
theories/AlignSpec.v
theories/AlignFacts.v
theories/AlignFacts2.v
theories/AlignFacts3.v
theories/AlignFacts4.v
theories/AlignProps.v
theories/ScaleModel.v
theories/ScaleSpec.v
theories/ScaleFacts.v
theories/ScaleProps.v
theories/PlotModel.v
theories/PlotSpec.v
theories/PlotFacts.v
theories/PlotProps.v
theories/AngModel.v
theories/AngSpec.v
theories/AngFacts.v
theories/AngFacts2.v
theories/AngProps.v
theories/DrawModel.v
theories/DrawSpec.v
theories/DrawProps.v
theories/TableModel.v
theories/TableSpec.v
theories/TableFacts.v
theories/TableProps.v
theories/ViewModel.v
theories/ViewSpec.v
theories/ViewFacts.v
theories/ViewProps.v
theories/PageModel.v
theories/PageSpec.v
theories/PageFacts.v
theories/PageProps.v
theories/BiasModel.v
theories/BiasProps.v
theories/PathSpec.v
theories/PathFacts.v
theories/PathProps.v
theories/CovSpec.v
theories/CovFacts.v
theories/CovProps.v
theories/MplModel.v
theories/MplSpec.v
theories/MplProps.v
theories/SmoothModel.v
theories/SmoothSpec.v
theories/SmoothFacts.v
theories/SmoothProps.v
theories/SumModel.v
theories/SumSpec.v
theories/SumProps.v
theories/GroupModel.v
theories/GroupProps.v
theories/VoxModel.v
theories/VoxSpec.v
theories/VoxProps.v
theories/LawSpec.v
theories/LawProps.v
theories/RematchProps.v
theories/FrameProps.v
theories/CommuteProps.v
theories/EmptyModel.v
theories/EmptySpec.v
theories/EmptyProps.v
theories/TornModel.v
theories/TornSpec.v
theories/TornFacts.v
theories/TornFacts2.v
theories/TornFacts3.v
theories/TornFacts4.v
theories/TornProps.v
theories/ClockSpec.v
theories/ClockFacts.v
theories/ClockFacts2.v
theories/ClockFacts3.v
theories/ClockProps.v
theories/SwapProps.v
theories/LenSpec.v
theories/LenFacts.v
theories/LenFacts2.v
theories/LenFacts3.v
theories/LenProps.v
theories/CutModel.v
theories/CutSpec.v
theories/CutFacts.v
theories/CutFacts2.v
theories/CutFacts3.v
theories/CutFacts4.v
theories/CutFacts5.v
theories/CutFacts6.v
theories/CutFacts7.v
theories/CutProps.v
theories/StoreModel.v
theories/StoreSpec.v
theories/StoreFacts.v
theories/StoreFacts2.v
theories/StoreFacts3.v
theories/StoreFacts4.v
theories/StoreFacts5.v
theories/StoreFacts6.v
theories/StoreProps.v
theories/JsonModel.v
theories/JsonSpec.v
theories/JsonFacts.v
theories/JsonFacts2.v
theories/JsonFacts3.v
theories/JsonProps.v
theories/JoinProps.v
theories/CacheModel.v
theories/CacheSpec.v
theories/CacheFacts.v
theories/CacheProps.v
theories/NameModel.v
theories/NameProps.v
theories/AliasModel.v
theories/AliasProps.v
theories/InfoSpec.v
theories/InfoModel.v
theories/InfoFacts.v
theories/InfoProps.v
theories/SpeedSpec.v
theories/SpeedFacts.v
theories/SpeedProps.v
theories/StabSpec.v
theories/StabFacts.v
theories/StabFacts2.v
theories/StabProps.v
theories/LocalSpec.v
theories/LocalFacts.v
theories/LocalProps.v
theories/DictModel.v
theories/DictSpec.v
theories/DictProps.v
theories/AliasProps2.v
theories/LooseSpec.v
theories/LooseFacts.v
theories/LooseProps.v
theories/CaseSpec.v
theories/CaseProps.v
theories/PageProps2.v
theories/ReadSpec.v
theories/ReadProps.v
theories/DataProps2.v
theories/StdModel.v
theories/StdSpec.v
theories/StdProps.v
theories/CycleSpec.v
theories/CycleFacts.v
theories/CycleProps.v
theories/MotionSpec.v
theories/MotionProps.v
theories/DriftSpec.v
theories/DriftProps.v
theories/BoundProps.v
theories/HeadProps.v
theories/OffsetSpec.v
theories/OffsetProps.v
theories/JitterSpec.v
theories/JitterProps.v
theories/NoiseProps.v
theories/FitSpec.v
theories/FitProps.v
theories/TurnSpec.v
theories/TurnProps.v
theories/BetterSpec.v
theories/BetterProps.v
theories/OriginSpec.v
theories/OriginProps.v
theories/BackSpec.v
theories/BackProps.v
theories/SeriesModel.v
theories/SeriesSpec.v
theories/SeriesProps.v
theories/WeightSpec.v
theories/WeightProps.v
theories/SectProps.v
theories/GainProps.v
