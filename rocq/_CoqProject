-Q theories Verif
theories/AlignCalcProofs.v
theories/AlignExProofs.v
theories/AlignModel.v
theories/AlignPadProofs.v
theories/AlignProofs.v
theories/AlignProps.v
theories/AlignSpec.v
theories/AlignTopProofs.v
theories/AlignfftEdge.v
theories/AlignfftImage.v
theories/AlignfftLine.v
theories/AlignfftMain.v
theories/AlignfftModel.v
theories/AlignfftPeak.v
theories/AlignfftPlane.v
theories/AlignfftProofs.v
theories/AlignfftProps.v
theories/AlignfftSpec.v
theories/AlignsimpleModel.v
theories/AlignsimpleProofs.v
theories/AlignsimpleProps.v
theories/AlignsimpleSpec.v
theories/AxisExProofs.v
theories/AxisLimProofs.v
theories/AxisModel.v
theories/AxisProofs.v
theories/AxisProps.v
theories/AxisRoundProofs.v
theories/AxisSegProofs.v
theories/AxisSpec.v
theories/Base.v
theories/BaseProofs.v
theories/BatchModel.v
theories/BatchProofs.v
theories/BatchProps.v
theories/BatchSpec.v
theories/BlissfitModel.v
theories/BlissfitProofs.v
theories/BlissfitProps.v
theories/BlissfitSpec.v
theories/CacheModel.v
theories/CacheProofs.v
theories/CacheProps.v
theories/CacheSpec.v
theories/CenterModel.v
theories/CenterProofs.v
theories/CenterProps.v
theories/CenterSpec.v
theories/ChargeModel.v
theories/ChargeProofs.v
theories/ChargeProps.v
theories/ChargeSpec.v
theories/ClassFactoryModel.v
theories/ClassFactoryProofs.v
theories/ClassFactoryProps.v
theories/ClassFactorySpec.v
theories/CsutilsModel.v
theories/CsutilsProofs.v
theories/CsutilsProps.v
theories/CsutilsSpec.v
theories/DefaultplotModel.v
theories/DefaultplotProofs.v
theories/DefaultplotProps.v
theories/DefaultplotSpec.v
theories/DetModel.v
theories/DetOptics.v
theories/DetOpticsProofs.v
theories/DetProofs.v
theories/DetProps.v
theories/DetSpec.v
theories/DiodeModel.v
theories/DiodeProofs.v
theories/DiodeProps.v
theories/DiodeSpec.v
theories/DiskModel.v
theories/DiskOpsProofs.v
theories/DiskProofs.v
theories/DiskProps.v
theories/DiskSpec.v
theories/DiskWitness.v
theories/EmspectrumModel.v
theories/EmspectrumProofs.v
theories/EmspectrumProps.v
theories/EmspectrumSpec.v
theories/ExprEvalProofs.v
theories/ExprModel.v
theories/ExprProofs.v
theories/ExprProps.v
theories/ExprSpec.v
theories/ExprTaskProofs.v
theories/FfsetupModel.v
theories/FfsetupProofs.v
theories/FfsetupProps.v
theories/FfsetupSpec.v
theories/FitCovProofs.v
theories/FitModel.v
theories/FitProofs.v
theories/FitProps.v
theories/FitSpec.v
theories/FormulaModel.v
theories/FormulaProofs.v
theories/FormulaProps.v
theories/FormulaSpec.v
theories/FtComplexModel.v
theories/FtComplexProofs.v
theories/FtDftProofs.v
theories/FtModel.v
theories/FtProofs.v
theories/FtProps.v
theories/FtSpec.v
theories/FullfieldModel.v
theories/FullfieldProofs.v
theories/FullfieldProps.v
theories/FullfieldSpec.v
theories/GeomModel.v
theories/GeomProofs.v
theories/GeomProps.v
theories/GetitemProofs.v
theories/GridModel.v
theories/GridProofs.v
theories/GridProps.v
theories/GridSpec.v
theories/GriddataModel.v
theories/GriddataProofs.v
theories/GriddataProps.v
theories/GriddataSpec.v
theories/GroupModel.v
theories/GroupProofs.v
theories/GroupProps.v
theories/GroupSpec.v
theories/H5gridModel.v
theories/H5gridProofs.v
theories/H5gridProps.v
theories/HashModel.v
theories/HashProofs.v
theories/HashProps.v
theories/HashSpec.v
theories/IndexingModel.v
theories/IndexingProofs.v
theories/IndexingProps.v
theories/IndexingSpec.v
theories/IntegerBaseModel.v
theories/IntegerBaseProofs.v
theories/IntegerBaseProps.v
theories/IntegerBaseSpec.v
theories/LazyfuncModel.v
theories/LazyfuncProofs.v
theories/LazyfuncProps.v
theories/LazyfuncSpec.v
theories/LinopModel.v
theories/LinopMulProofs.v
theories/LinopProofs.v
theories/LinopProps.v
theories/LinopSpec.v
theories/ListToolsModel.v
theories/ListToolsProofs.v
theories/ListToolsProps.v
theories/ListToolsSpec.v
theories/LsqProofs.v
theories/LutModel.v
theories/LutProofs.v
theories/LutProps.v
theories/LutSpec.v
theories/MaketaskModel.v
theories/MaketaskProofs.v
theories/MaketaskProps.v
theories/MaketaskSpec.v
theories/MatModel.v
theories/MatProofs.v
theories/McafileModel.v
theories/McafileProofs.v
theories/McafileProps.v
theories/McafileSpec.v
theories/McapreModel.v
theories/McapreProofs.v
theories/McapreProps.v
theories/McapreSpec.v
theories/MergeModel.v
theories/MergeProofs.v
theories/MergeProps.v
theories/MergeSpec.v
theories/MergeTileProofs.v
theories/MergeTopProofs.v
theories/ModeModel.v
theories/ModeProofs.v
theories/ModeProps.v
theories/ModeSpec.v
theories/NameModel.v
theories/NameProofs.v
theories/NameProps.v
theories/NameSpec.v
theories/NoiseModel.v
theories/NoiseProofs.v
theories/NoiseProps.v
theories/NoiseSpec.v
theories/NumpyModel.v
theories/NumpyProofs.v
theories/NxlazyModel.v
theories/NxlazyProofs.v
theories/NxlazyProps.v
theories/OpenModel.v
theories/OpenProofs.v
theories/OpenProps.v
theories/OpenSpec.v
theories/OpsProofs.v
theories/OutlierProofs.v
theories/ParamChains.v
theories/ParamChange.v
theories/ParamData.v
theories/ParamDemo.v
theories/ParamLinks.v
theories/ParamModel.v
theories/ParamMoves.v
theories/ParamProofs.v
theories/ParamProps.v
theories/ParamSpec.v
theories/ParamState.v
theories/ParsexiaModel.v
theories/ParsexiaProofs.v
theories/ParsexiaProps.v
theories/ParsexiaSpec.v
theories/PathDevProofs.v
theories/PathFacts.v
theories/PathModel.v
theories/PathProofs.v
theories/PathProps.v
theories/PathSpec.v
theories/PeakModel.v
theories/PeakProofs.v
theories/PeakSpec.v
theories/PlotModel.v
theories/PlotProofs.v
theories/PlotProps.v
theories/PlotSpec.v
theories/PolarModel.v
theories/PolarParamProofs.v
theories/PolarProofs.v
theories/PolarProps.v
theories/PolarScatterProofs.v
theories/PolarSpec.v
theories/ProcHistProofs.v
theories/ProcModel.v
theories/ProcProofs.v
theories/ProcProps.v
theories/ProcSpec.v
theories/QcTac.v
theories/QuadricModel.v
theories/QuadricProofs.v
theories/QuadricProps.v
theories/QuadricSpec.v
theories/QxrfDataProofs.v
theories/QxrfModel.v
theories/QxrfProofs.v
theories/QxrfProps.v
theories/QxrfSpec.v
theories/ResampleModel.v
theories/ResampleProofs.v
theories/ResampleProps.v
theories/ResampleSpec.v
theories/RoiModel.v
theories/RoiProofs.v
theories/RoiProps.v
theories/RoiSpec.v
theories/ScalarDigitProofs.v
theories/ScalarModel.v
theories/ScalarProofs.v
theories/ScalarProps.v
theories/ScalarSpec.v
theories/ScanMain.v
theories/ScanModel.v
theories/ScanProofs.v
theories/ScanProps.v
theories/ScanSpec.v
theories/SceneModel.v
theories/SceneProofs.v
theories/SceneProps.v
theories/SceneSpec.v
theories/ScenedataModel.v
theories/ScenedataProofs.v
theories/ScenedataProps.v
theories/ScenedataShow.v
theories/ScenedataSpec.v
theories/ScenescaleModel.v
theories/ScenescaleProofs.v
theories/ScenescaleProps.v
theories/ScenescaleSpec.v
theories/SetitemCore.v
theories/SetitemMain.v
theories/SetitemModel.v
theories/SetitemProofs.v
theories/SetitemProps.v
theories/SetitemSpec.v
theories/ShelllineModel.v
theories/ShelllineProofs.v
theories/ShelllineProps.v
theories/ShelllineSpec.v
theories/SignalModel.v
theories/SignalProofs.v
theories/SignalProps.v
theories/SignalSpec.v
theories/SlicingModel.v
theories/SlicingProofs.v
theories/SlicingProps.v
theories/SlicingSpec.v
theories/SpecgridModel.v
theories/SpecgridProofs.v
theories/SpecgridProps.v
theories/SpecgridSpec.v
theories/StackioModel.v
theories/StackioProofs.v
theories/StackioProps.v
theories/StackioSpec.v
theories/StacknameModel.v
theories/StacknameProofs.v
theories/StacknameProps.v
theories/StacknameSpec.v
theories/StacktaskModel.v
theories/StacktaskProofs.v
theories/StacktaskProps.v
theories/StacktaskSpec.v
theories/StoichElemProofs.v
theories/StoichMixProofs.v
theories/StoichMixtureProofs.v
theories/StoichModel.v
theories/StoichProofs.v
theories/StoichProps.v
theories/StoichSpec.v
theories/SumdetModel.v
theories/SumdetPlanProofs.v
theories/SumdetProofs.v
theories/SumdetProps.v
theories/SumdetSort.v
theories/SumdetSpec.v
theories/TaskBaseProofs.v
theories/TaskModel.v
theories/TaskProofs.v
theories/TaskProps.v
theories/TaskSpec.v
theories/TaskTopProofs.v
theories/Text.v
theories/TextProofs.v
theories/TilearrayModel.v
theories/TilearrayProofs.v
theories/TilearrayProps.v
theories/TilearraySpec.v
theories/TimingModel.v
theories/TimingProofs.v
theories/TimingProps.v
theories/TransformExProofs.v
theories/TransformModel.v
theories/TransformProofs.v
theories/TransformProps.v
theories/TransformRigidProofs.v
theories/TransformSetProofs.v
theories/TransformSpec.v
theories/TransformTrimProofs.v
theories/UnitsModel.v
theories/UnitsProofs.v
theories/UnitsProps.v
theories/UnitsSpec.v
theories/XanesModel.v
theories/XanesProofs.v
theories/XanesProps.v
theories/XanesSpec.v
theories/XiaFacts.v
theories/XiaGroupProofs.v
theories/XiaModel.v
theories/XiaNameProofs.v
theories/XiaProofs.v
theories/XiaProps.v
theories/XiaSelectProofs.v
theories/XiaSpec.v
theories/XspectrumModel.v
theories/XspectrumProofs.v
theories/XspectrumProps.v
theories/XspectrumSpec.v
theories/ZList.v
theories/ZListProofs.v
