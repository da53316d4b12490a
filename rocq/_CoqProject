-Q theories Verif

theories/Base.v
theories/BaseProofs.v
theories/FiltersModel.v
theories/FiltersSpec.v
theories/FiltersProofs.v
theories/FiltersProps.v
theories/StepsModel.v
theories/StepsSpec.v
theories/StepsProofs.v
theories/StepsProps.v
theories/StepsEdits.v
theories/ExecModel.v
theories/ExecSpec.v
theories/ExecStruct.v
theories/ExecRuntime.v
theories/ExecProofs.v
theories/ExecRun.v
theories/ExecSim.v
theories/ExecTerm.v
theories/ExecProps.v
theories/VariablesModel.v
theories/VariablesProps.v
theories/WiringModel.v
theories/WiringSpec.v
theories/WiringProofs.v
theories/WiringProps.v
theories/RunArgsModel.v
theories/RunArgsProps.v
theories/PyValue.v
theories/DataModel.v
theories/DataSpec.v
theories/DataProofs.v
theories/DiffProofs.v
theories/DataProps.v
theories/PathsModel.v
theories/PathsSpec.v
theories/PathsProofs.v
theories/PathsProps.v
theories/SerialModel.v
theories/SerialSpec.v
theories/SerialProofs.v
theories/SerialProps.v
theories/PointersModel.v
theories/PointersSpec.v
theories/PointersProofs.v
theories/PointersProps.v
theories/Topo.v
theories/DerefModel.v
theories/DerefSpec.v
theories/DerefProofs.v
theories/DerefProps.v
theories/TripSpec.v
theories/TripProofs.v
theories/TripProps.v
theories/CopyModel.v
theories/CopySpec.v
theories/CopyProofs.v
theories/CopyProps.v
theories/ParetoModel.v
theories/ParetoSpec.v
theories/ParetoProofs.v
theories/ParetoProps.v
theories/DatasetModel.v
theories/DatasetSpec.v
theories/DatasetProofs.v
theories/DatasetProps.v
theories/BlocksModel.v
theories/BlocksSpec.v
theories/BlocksProofs.v
theories/BlocksProps.v
theories/MetricsModel.v
theories/MetricsProofs.v
theories/MetricsProps.v
theories/AlgebraModel.v
theories/AlgebraProofs.v
theories/AlgebraProps.v
theories/InterpModel.v
theories/InterpProofs.v
theories/InterpProps.v
theories/ParamModel.v
theories/ParamProofs.v
theories/ParamProps.v
theories/SamplingModel.v
theories/SamplingProofs.v
theories/SamplingProps.v
theories/TableModel.v
theories/TableProofs.v
theories/TableProps.v
theories/BreakdownModel.v
theories/BreakdownSpec.v
theories/BreakdownProofs.v
theories/BreakdownOrder.v
theories/BreakdownProps.v
theories/ChecksModel.v
theories/ChecksProps.v
theories/TypingModel.v
theories/TypingProofs.v
theories/TypingProps.v
theories/ArgumentProofs.v
theories/ArgumentProps.v
theories/BsonModel.v
theories/BsonProps.v
theories/SignatureModel.v
theories/SignatureProps.v
theories/AnnotationModel.v
theories/AnnotationProofs.v
theories/AnnotationNested.v
theories/AnnotationProps.v
theories/EqualityModel.v
theories/EqualitySpec.v
theories/EqualityProofs.v
theories/EqualityProps.v
theories/BranchModel.v
theories/BranchSpec.v
theories/BranchProofs.v
theories/BranchEval.v
theories/BranchShow.v
theories/BranchRun.v
theories/BranchProps.v
theories/StateModel.v
theories/StateSpec.v
theories/StateProofs.v
theories/StateLife.v
theories/StateEq.v
theories/StateProps.v
theories/ScriptModel.v
theories/ScriptSpec.v
theories/ScriptProofs.v
theories/ScriptExec.v
theories/ScriptGen.v
theories/ScriptProps.v
theories/RunScriptModel.v
theories/RunScriptText.v
theories/RunScriptSpec.v
theories/RunScriptProofs.v
theories/RunScriptProps.v
theories/ClusterModel.v
theories/ClusterSpec.v
theories/ClusterProofs.v
theories/ClusterProps.v
theories/ExcelModel.v
theories/ExcelSpec.v
theories/ExcelProofs.v
theories/ExcelWritten.v
theories/ExcelRead.v
theories/ExcelExchange.v
theories/ExcelSheets.v
theories/ExcelCatalog.v
theories/ExcelProps.v
theories/SavedModel.v
theories/SavedSpec.v
theories/SavedProofs.v
theories/SavedBack.v
theories/SavedMain.v
theories/SavedRestore.v
theories/SavedProps.v
theories/LayoutModel.v
theories/LayoutSpec.v
theories/LayoutProofs.v
theories/LayoutMain.v
theories/LayoutNetworkx.v
theories/LayoutProps.v
theories/AxesModel.v
theories/AxesSpec.v
theories/AxesProofs.v
theories/AxesMain.v
theories/AxesFour.v
theories/AxesStar.v
theories/AxesProps.v
theories/DisplayModel.v
theories/DisplaySpec.v
theories/DisplayProofs.v
theories/DisplayProps.v
theories/ExportModel.v
theories/ExportSpec.v
theories/ExportProofs.v
theories/ExportProps.v
theories/ShownModel.v
theories/ShownProofs.v
theories/ShownProps.v
theories/DocstringModel.v
theories/DocstringSpec.v
theories/DocstringProofs.v
theories/DocstringProps.v
theories/SchemaModel.v
theories/SchemaSpec.v
theories/SchemaProofs.v
theories/SchemaProps.v
theories/SchemaClassProps.v
theories/PrintModel.v
theories/PrintSpec.v
theories/PrintProofs.v
theories/PrintProps.v
theories/FilesModel.v
theories/FilesProps.v
theories/Corners.v
theories/CornersDisplay.v
theories/DocxModel.v
theories/DocxSpec.v
theories/DocxProofs.v
theories/DocxProps.v
theories/CornersShown.v
theories/DescribeModel.v
theories/DescribeSpec.v
theories/DescribeProofs.v
theories/DescribeProps.v
theories/TreesModel.v
theories/TreesSpec.v
theories/TreesProofs.v
theories/TreesProps.v
theories/SizesModel.v
theories/SizesSpec.v
theories/SizesProofs.v
theories/SizesProps.v
theories/MethodsModel.v
theories/MethodsSpec.v
theories/MethodsProps.v
theories/CutsModel.v
theories/CutsSpec.v
theories/CutsProofs.v
theories/CutsProps.v
theories/MixModel.v
theories/MixSpec.v
theories/MixProofs.v
theories/MixProps.v
theories/OfferedModel.v
theories/OfferedSpec.v
theories/OfferedProofs.v
theories/OfferedProps.v
theories/GivenModel.v
theories/GivenSpec.v
theories/GivenProofs.v
theories/GivenProps.v
theories/DrawnModel.v
theories/DrawnSpec.v
theories/DrawnProps.v
theories/RunFormModel.v
theories/RunFormSpec.v
theories/RunFormProofs.v
theories/RunFormProps.v
theories/AnalysisModel.v
theories/AnalysisProps.v
theories/AttrModel.v
theories/AttrSpec.v
theories/AttrProofs.v
theories/AttrProps.v
theories/MatchModel.v
theories/MatchSpec.v
theories/MatchProofs.v
theories/MatchProps.v
theories/TypedModel.v
theories/TypedSpec.v
theories/TypedProofs.v
theories/TypedProps.v
theories/DataHashProps.v
theories/ApartModel.v
theories/ApartSpec.v
theories/ApartProofs.v
theories/ApartProps.v
theories/OldTypingModel.v
theories/OldTypingSpec.v
theories/OldTypingProofs.v
theories/OldTypingProps.v
theories/FrontierModel.v
theories/FrontierSpec.v
theories/FrontierProofs.v
theories/FrontierProps.v
theories/PrettyModel.v
theories/PrettySpec.v
theories/PrettyProofs.v
theories/PrettyProps.v
theories/DumpableModel.v
theories/DumpableSpec.v
theories/DumpableProofs.v
theories/DumpableProps.v
theories/WriterModel.v
theories/WriterSpec.v
theories/WriterProofs.v
theories/WriterProps.v
theories/ProperModel.v
theories/ProperSpec.v
theories/ProperProofs.v
theories/ProperProps.v
theories/MeansModel.v
theories/MeansSpec.v
theories/MeansProofs.v
theories/MeansProps.v
theories/WidthsModel.v
theories/WidthsSpec.v
theories/WidthsProofs.v
theories/WidthsProps.v
theories/SubdocModel.v
theories/SubdocSpec.v
theories/SubdocProofs.v
theories/SubdocProps.v
theories/StaleModel.v
theories/StaleSpec.v
theories/StaleProofs.v
theories/StaleProps.v
