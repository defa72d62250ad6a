-Q theories Verif
theories/Model/RustStd.v
theories/Model/Path.v
theories/Model/Request.v
theories/Model/Query.v
theories/Model/QueryCost.v
theories/Model/Time.v
theories/Model/Status.v
theories/Model/Response.v
theories/Model/Router.v
theories/Model/Edit.v
theories/Model/Config.v
theories/Model/Server.v
theories/Model/Tasks.v
theories/Model/Listen.v
theories/Model/Whole.v
theories/Model/Macros.v
theories/Model/Derive.v
theories/Model/DeriveText.v
theories/Model/StdPath.v
theories/Spec/FsSpec.v
theories/Spec/BytesSpec.v
theories/Spec/WinSpec.v
theories/Spec/ExchangeSpec.v
theories/Spec/GuardSpec.v
theories/Proofs/StdPathProofs.v
theories/Proofs/WinProofs.v
theories/Props/StdPathProps.v
theories/Model/StatusText.v
theories/Proofs/Basics.v
theories/Spec/PathSpec.v
theories/Spec/Common.v
theories/Proofs/PathProofs.v
theories/Spec/RouteSpec.v
theories/Proofs/TrieProofs.v
theories/Proofs/PathExtra.v
theories/Props/PathProps.v
theories/Spec/RoutingSpec.v
theories/Spec/WorkSpec.v
theories/Proofs/RouterProofs.v
theories/Proofs/WorkProofs.v
theories/Proofs/RouterExtra.v
theories/Props/RouterProps.v
theories/Props/WorkProps.v
theories/Spec/TextSpec.v
theories/Proofs/TextProofs.v
theories/Proofs/Utf8.v
theories/Proofs/TrimProofs.v
theories/Props/TextProps.v
theories/Spec/RequestSpec.v
theories/Proofs/RequestProofs.v
theories/Proofs/TransportProofs.v
theories/Proofs/ReadProofs.v
theories/Proofs/RequestExtra.v
theories/Props/RequestProps.v
theories/Spec/QuerySpec.v
theories/Proofs/QueryProofs.v
theories/Proofs/QueryExtra.v
theories/Props/QueryProps.v
theories/Spec/TimeSpec.v
theories/Proofs/TimeProofs.v
theories/Props/TimeProps.v
theories/Spec/ResponseSpec.v
theories/Spec/HistorySpec.v
theories/Proofs/ResponseProofs.v
theories/Proofs/ResponseExtra.v
theories/Proofs/StatusMime.v
theories/Proofs/ResponseWitness.v
theories/Proofs/InjectProofs.v
theories/Props/ResponseProps.v
theories/Proofs/HistoryProofs.v
theories/Proofs/HistoryWitness.v
theories/Props/HistoryProps.v
theories/Spec/ConfigSpec.v
theories/Proofs/ConfigProofs.v
theories/Props/ConfigProps.v
theories/Spec/ServerSpec.v
theories/Spec/TaskSpec.v
theories/Proofs/ServerProofs.v
theories/Proofs/ConnProofs.v
theories/Proofs/TaskProofs.v
theories/Proofs/ServerWitness.v
theories/Proofs/RepoTests.v
theories/Proofs/TaskWitness.v
theories/Props/ServerProps.v
theories/Props/TaskProps.v
theories/Spec/MacroSpec.v
theories/Spec/RustLang.v
theories/Spec/DeriveSpec.v
theories/Spec/TokenText.v
theories/Spec/EnumLang.v
theories/Spec/AttrSpec.v
theories/Proofs/MacroProofs.v
theories/Proofs/DeriveProofs.v
theories/Proofs/DeriveTextProofs.v
theories/Proofs/StatusTextProofs.v
theories/Proofs/AttrProofs.v
theories/Props/MacroProps.v
theories/Props/DeriveProps.v
theories/Props/StatusProps.v
theories/Model/Cost.v
theories/Model/SplitCost.v
theories/Model/DebugChars.v
theories/Model/LineCost.v
theories/Model/WriteCost.v
theories/Model/RouteCost.v
theories/Model/Memory.v
theories/Model/Unread.v
theories/Spec/AppSpec.v
theories/Spec/ApiSpec.v
theories/Spec/ClientSpec.v
theories/Spec/ConformSpec.v
theories/Proofs/AppProofs.v
theories/Proofs/OrderProofs.v
theories/Proofs/CostProofs.v
theories/Proofs/SplitCostProofs.v
theories/Proofs/DebugProofs.v
theories/Proofs/LineCostProofs.v
theories/Proofs/FoldCost.v
theories/Proofs/AppWitness.v
theories/Proofs/ApiProofs.v
theories/Proofs/ApiWitness.v
theories/Props/AppProps.v
theories/Props/ApiProps.v
theories/Proofs/ClientProofs.v
theories/Proofs/ClientWitness.v
theories/Props/ClientProps.v
theories/Props/AttrProps.v
theories/Spec/ListenSpec.v
theories/Proofs/ListenProofs.v
theories/Proofs/ListenWitness.v
theories/Props/ListenProps.v
theories/Proofs/ConformProofs.v
theories/Proofs/ConformWitness.v
theories/Props/ConformProps.v
theories/Model/Sugar.v
theories/Spec/SugarSpec.v
theories/Proofs/SugarProofs.v
theories/Proofs/SugarWitness.v
theories/Proofs/ExchangeProofs.v
theories/Proofs/WatchProofs.v
theories/Proofs/GoneProofs.v
theories/Proofs/GuardProofs.v
theories/Proofs/ExchangeWitness.v
theories/Proofs/WatchWitness.v
theories/Proofs/GuardWitness.v
theories/Props/SugarProps.v
theories/Props/ExchangeProps.v
theories/Props/WatchProps.v
theories/Props/GuardProps.v
theories/Spec/WholeSpec.v
theories/Proofs/WholeProofs.v
theories/Proofs/WholeWitness.v
theories/Props/WholeProps.v
theories/Spec/FormSpec.v
theories/Proofs/FormProofs.v
theories/Props/FormProps.v
theories/Spec/SerialSpec.v
theories/Proofs/SerialProofs.v
theories/Proofs/SerialWitness.v
theories/Props/SerialProps.v
theories/Model/Workers.v
theories/Spec/WorkerSpec.v
theories/Proofs/WorkerProofs.v
theories/Proofs/WorkerWitness.v
theories/Props/WorkerProps.v
theories/Spec/LiveSpec.v
theories/Proofs/LiveProofs.v
theories/Proofs/LiveWitness.v
theories/Proofs/LiveThreads.v
theories/Props/LiveProps.v
theories/Spec/MethodSpec.v
theories/Proofs/MethodProofs.v
theories/Proofs/MethodWitness.v
theories/Props/MethodProps.v
theories/Spec/RecordSpec.v
theories/Proofs/RecordProofs.v
theories/Proofs/RecordWitness.v
theories/Props/RecordProps.v
theories/Spec/ForeverSpec.v
theories/Proofs/ForeverProofs.v
theories/Proofs/ForeverWitness.v
theories/Props/ForeverProps.v
theories/Spec/ArriveSpec.v
theories/Spec/SwapSpec.v
theories/Spec/ClockSpec.v
theories/Spec/FeatureSpec.v
theories/Spec/LimitSpec.v
theories/Spec/ReachSpec.v
theories/Spec/EditSpec.v
theories/Proofs/ArriveProofs.v
theories/Proofs/ArriveWitness.v
theories/Proofs/SwapProofs.v
theories/Proofs/SwapWitness.v
theories/Proofs/ClockProofs.v
theories/Proofs/FeatureProofs.v
theories/Proofs/FeatureProgram.v
theories/Proofs/FeatureWitness.v
theories/Proofs/UnreadProofs.v
theories/Proofs/UnreadWitness.v
theories/Proofs/LimitProofs.v
theories/Proofs/LimitWitness.v
theories/Proofs/ReachProofs.v
theories/Proofs/ReachWitness.v
theories/Proofs/EditProofs.v
theories/Proofs/EditWitness.v
theories/Props/ArriveProps.v
theories/Props/SwapProps.v
theories/Props/ClockProps.v
theories/Model/Fields.v
theories/Spec/FieldSpec.v
theories/Spec/CopySpec.v
theories/Spec/SizeSpec.v
theories/Proofs/FieldProofs.v
theories/Proofs/FieldWitness.v
theories/Proofs/CopyProofs.v
theories/Proofs/CopyWitness.v
theories/Proofs/PageProofs.v
theories/Proofs/SizeProofs.v
theories/Proofs/QueryCostProofs.v
theories/Props/FieldProps.v
theories/Props/CopyProps.v
theories/Props/PageProps.v
theories/Props/SizeProps.v
theories/Props/QueryCostProps.v
theories/Props/SplitCostProps.v
theories/Props/DebugProps.v
theories/Props/LineCostProps.v
theories/Spec/LiteralSpec.v
theories/Spec/DebugSpec.v
theories/Proofs/LiteralProofs.v
theories/Props/LiteralProps.v
theories/Props/FeatureProps.v
theories/Props/UnreadProps.v
theories/Props/LimitProps.v
theories/Props/ReachProps.v
theories/Props/EditProps.v
theories/Proofs/BytesProofs.v
theories/Props/BytesProps.v
theories/Proofs/WriteCostProofs.v
theories/Props/WriteCostProps.v
