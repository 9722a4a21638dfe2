-Q theories Verif

theories/Base.v
theories/BaseFacts.v
theories/JobModel.v
theories/SolverModel.v
theories/SolverSpec.v
theories/SolverProofs.v
theories/SolverProps.v
theories/SessionModel.v
theories/SessionSpec.v
theories/SelectProofs.v
theories/SessionProofs.v
theories/HistoryProofs.v
theories/SessionProps.v
theories/OutcomeModel.v
theories/OutcomeSpec.v
theories/OutcomeProps.v
theories/DurationModel.v
theories/DurationProps.v
theories/StorageModel.v
theories/StorageSpec.v
theories/StorageProofs.v
theories/StorageProps.v
theories/StorageConc.v
theories/QualModel.v
theories/QualSpec.v
theories/QualProps.v
theories/ScanModel.v
theories/ScanSpec.v
theories/ScanProofs.v
theories/ScanProps.v
theories/ExtcmdModel.v
theories/ExtcmdSpec.v
theories/ExtcmdProofs.v
theories/ExtcmdProps.v
theories/MorrisModel.v
theories/MorrisProps.v
theories/AssistantModel.v
theories/AssistantProps.v
theories/ProvidersProps.v
theories/Rfc822Model.v
theories/Rfc822Spec.v
theories/Rfc822Proofs.v
theories/Rfc822Origin.v
theories/Rfc822Dump.v
theories/Rfc822Props.v
theories/ResourceModel.v
theories/ResourceSpec.v
theories/ResourceProps.v
theories/JsonModel.v
theories/JsonProofs.v
theories/IologModel.v
theories/IologProps.v
theories/ChecksumModel.v
theories/ChecksumProps.v
theories/CtrlModel.v
theories/CtrlSpec.v
theories/CtrlProofs.v
theories/CtrlProps.v
theories/PodModel.v
theories/PodSpec.v
theories/PodProps.v
theories/FormatModel.v
theories/TemplateModel.v
theories/TemplateSpec.v
theories/TemplateProps.v
theories/XparseModel.v
theories/XparseSpec.v
theories/XparseProofs.v
theories/XparseProps.v
theories/TestplanModel.v
theories/TestplanSpec.v
theories/TestplanProofs.v
theories/TestplanProps.v
theories/PathModel.v
theories/ResumeModel.v
theories/ResumeSpec.v
theories/ResumeCodec.v
theories/ResumeSolve.v
theories/ResumeProofs.v
theories/ResumeRestore.v
theories/ResumeMain.v
theories/ResumeAny.v
theories/ResumeErrors.v
theories/ResumeUse.v
theories/ResumeProps.v
theories/LauncherModel.v
theories/LauncherSpec.v
theories/LauncherProps.v
theories/IniModel.v
theories/ConfigModel.v
theories/ConfigSpec.v
theories/IniProofs.v
theories/IniMerge.v
theories/ConfigProofs.v
theories/ConfigWrite.v
theories/ConfigRound.v
theories/ConfigProps.v
theories/CacheModel.v
theories/CacheSpec.v
theories/CacheProofs.v
theories/CacheProps.v
theories/RunnerModel.v
theories/RunnerSpec.v
theories/RunnerProps.v
theories/ExportModel.v
theories/ExportSpec.v
theories/ExportProps.v
theories/Utf8Model.v
theories/Utf8Spec.v
theories/Utf8Proofs.v
theories/Utf8Props.v
theories/ResultModel.v
theories/ResultSpec.v
theories/ResultProps.v
theories/PluginModel.v
theories/PluginSpec.v
theories/PluginProps.v
theories/ProviderModel.v
theories/ProviderSpec.v
theories/ProviderProps.v
theories/RegexModel.v
theories/RegexProofs.v
theories/ProvdefModel.v
theories/ProvdefSpec.v
theories/ProvdefProps.v
theories/SessrunModel.v
theories/SessrunSpec.v
theories/SessrunProofs.v
theories/SessrunProps.v
theories/DialogModel.v
theories/DialogSpec.v
theories/DialogProofs.v
theories/DialogProps.v
theories/FieldsModel.v
theories/FieldsSpec.v
theories/FieldsProps.v
theories/SiblingsModel.v
theories/SiblingsSpec.v
theories/SiblingsProofs.v
theories/SiblingsProps.v
theories/ValidateModel.v
theories/ValidateSpec.v
theories/ValidateProofs.v
theories/ValidateProps.v
theories/RestartModel.v
theories/RestartSpec.v
theories/RestartProofs.v
theories/RestartProps.v
theories/PackagingModel.v
theories/PackagingSpec.v
theories/PackagingProps.v
theories/DeviceModel.v
theories/DeviceSpec.v
theories/DeviceProps.v
theories/InstallModel.v
theories/InstallSpec.v
theories/InstallProofs.v
theories/InstallText.v
theories/InstallObj.v
theories/InstallProps.v
theories/InstallCases.v
theories/RepoModel.v
theories/RepoSpec.v
theories/RepoProps.v
theories/StartModel.v
theories/StartSpec.v
theories/StartProofs.v
theories/StartProps.v
theories/StartCases.v
theories/ObserveModel.v
theories/ObserveSpec.v
theories/ObserveProps.v
theories/AsrunModel.v
theories/AsrunSpec.v
theories/AsrunProps.v
theories/AsrunRun.v
theories/AsrunCases.v
theories/IssueModel.v
theories/IssueSpec.v
theories/IssueProofs.v
theories/IssueLex.v
theories/IssueProps.v
theories/DeliverModel.v
theories/DeliverSpec.v
theories/DeliverProofs.v
theories/DeliverProps.v
theories/SheetModel.v
theories/SheetSpec.v
theories/SheetProofs.v
theories/SheetProps.v
theories/NestModel.v
theories/NestSpec.v
theories/NestProofs.v
theories/NestProps.v
theories/SudoModel.v
theories/SudoSpec.v
theories/SudoProps.v
theories/DelegateModel.v
theories/DelegateSpec.v
theories/DelegateProps.v
theories/BuildModel.v
theories/BuildSpec.v
theories/BuildProps.v
theories/BuildLang.v
theories/BrineModel.v
theories/BrineSpec.v
theories/BrineProofs.v
theories/BrineLoad.v
theories/BrineProps.v
theories/ChannelModel.v
theories/ChannelSpec.v
theories/ChannelProps.v
theories/SendqModel.v
theories/SendqSpec.v
theories/SendqProps.v
theories/RefModel.v
theories/RefSpec.v
theories/RefProps.v
theories/PlancheckModel.v
theories/PlancheckSpec.v
theories/PlancheckProps.v
theories/ExpunitModel.v
theories/ExpunitSpec.v
theories/ExpunitProofs.v
theories/ExpunitProps.v
theories/OriginModel.v
theories/OriginSpec.v
theories/OriginProps.v
theories/SymbolModel.v
theories/SymbolSpec.v
theories/SymbolProps.v
theories/ServiceModel.v
theories/ServiceSpec.v
theories/ServiceProps.v
theories/TalkProps.v
theories/PasswordModel.v
theories/PasswordProps.v
theories/SpecialModel.v
theories/SpecialSpec.v
theories/SpecialProps.v
theories/ListingModel.v
theories/ListingSpec.v
theories/ListingProps.v
theories/ToolModel.v
theories/ToolProps.v
theories/VinegarModel.v
theories/VinegarProps.v
theories/PendingModel.v
theories/PendingProps.v
theories/AnalyzeModel.v
theories/AnalyzeProps.v
theories/UsageModel.v
theories/UsageProps.v
theories/ColorModel.v
theories/ColorProps.v
theories/TranslatorModel.v
theories/TranslatorProps.v
theories/LoggingModel.v
theories/LoggingProps.v
theories/CommandsModel.v
theories/CommandsProps.v
theories/AccessModel.v
theories/AccessProps.v
theories/DispatchModel.v
theories/DispatchProps.v
theories/RunoneModel.v
theories/RunoneProps.v
theories/RegistryModel.v
theories/RegistryProps.v
theories/PoolModel.v
theories/PoolProps.v
theories/MemoModel.v
theories/MemoProps.v
theories/ServerModel.v
theories/ServerProps.v
theories/HelpersModel.v
theories/HelpersProps.v
theories/TextreportModel.v
theories/TextreportProps.v
theories/WrapperModel.v
theories/WrapperProps.v
