-Q theories Verif
theories/AccessModel.v
theories/AccessProps.v
theories/AliasModel.v
theories/AliasProps.v
theories/AliasProps2.v
theories/AliasProps3.v
theories/AnonFieldModel.v
theories/AnonFieldProps.v
theories/AnonModel.v
theories/AnonProps.v
theories/ArgIdModel.v
theories/ArgIdProps.v
theories/AssignModel.v
theories/AssignProps.v
theories/BfsLib.v
theories/BindModel.v
theories/BindProps.v
theories/CacheModel.v
theories/CacheProps.v
theories/CgModel.v
theories/CgProps.v
theories/CodeModel.v
theories/CodeProps.v
theories/CodeProps2.v
theories/CompModel.v
theories/CompProps.v
theories/CompProps2.v
theories/ConModel.v
theories/ConProofs.v
theories/ConProofs2.v
theories/ConProps.v
theories/ConSpec.v
theories/ConcatModel.v
theories/ConcatProps.v
theories/DecLib.v
theories/DetModel.v
theories/DetProofs.v
theories/DetProofs2.v
theories/DetProofs3.v
theories/DetProofs4.v
theories/DetProps.v
theories/DetSpec.v
theories/DetailModel.v
theories/DetailProps.v
theories/DiagModel.v
theories/DiagPages.v
theories/DiagProofs.v
theories/DiagProps.v
theories/DiagSpec.v
theories/DiagTree.v
theories/DispModel.v
theories/DispProps.v
theories/DrawModel.v
theories/DrawProofs.v
theories/DrawProps.v
theories/DrawSpec.v
theories/EmbedProofs.v
theories/EnclModel.v
theories/EnclProps.v
theories/EngModel.v
theories/EngProofs.v
theories/EngProps.v
theories/EngSpec.v
theories/EntryModel.v
theories/EntryProofs.v
theories/EntryProps.v
theories/EntrySpec.v
theories/EnumModel.v
theories/EnumProofs.v
theories/EnumProps.v
theories/ExtModel.v
theories/ExtProps.v
theories/FactModel.v
theories/FactProps.v
theories/FfModel.v
theories/FfProofs.v
theories/FfProps.v
theories/FfSpec.v
theories/FieldModel.v
theories/FieldProofs.v
theories/FieldProps.v
theories/FlowModel.v
theories/FlowProps.v
theories/GenModel.v
theories/GenProps.v
theories/GenTypesModel.v
theories/GenTypesProps.v
theories/GlobModel.v
theories/GlobProofs.v
theories/GlobProps.v
theories/GlobSpec.v
theories/GodocModel.v
theories/GodocProps.v
theories/GodocProps2.v
theories/GraphModel.v
theories/GraphProofs.v
theories/GraphProps.v
theories/GuardModel.v
theories/GuardProps.v
theories/GuardProps2.v
theories/HandlerKeyModel.v
theories/HandlerKeyProps.v
theories/HoldModel.v
theories/HoldProps.v
theories/IdModel.v
theories/IdProofs.v
theories/IdProps.v
theories/IdSpec.v
theories/ImplModel.v
theories/ImplProofs.v
theories/ImplProps.v
theories/ImplProps2.v
theories/LazyModel.v
theories/LazyProofs.v
theories/LazyProps.v
theories/LazyProps2.v
theories/LitModel.v
theories/LitProps.v
theories/LookModel.v
theories/LookProps.v
theories/MergeModel.v
theories/MergeProofs.v
theories/MergeProps.v
theories/MlitProps.v
theories/MountMatchModel.v
theories/MountMatchProps.v
theories/MountModel.v
theories/MountProofs.v
theories/MountProps.v
theories/MountSpec.v
theories/NameModel.v
theories/NameProps.v
theories/OriginModel.v
theories/OriginProps.v
theories/OverModel.v
theories/OverProps.v
theories/PairModel.v
theories/PairProofs.v
theories/PairProofs2.v
theories/PairProps.v
theories/PairSpec.v
theories/PathModel.v
theories/PathProofs.v
theories/PathProofs2.v
theories/PathProps.v
theories/PathSpec.v
theories/PeelModel.v
theories/PeelProps.v
theories/PlaceModel.v
theories/PlaceProps.v
theories/PlanModel.v
theories/PlanProps.v
theories/PlanProps2.v
theories/ProvModel.v
theories/ProvProofs.v
theories/ProvProps.v
theories/ProvSpec.v
theories/ReachModel.v
theories/ReachProofs.v
theories/ReachProps.v
theories/ReachSpec.v
theories/RecordModel.v
theories/RecordProps.v
theories/RefModel.v
theories/RefProofs.v
theories/RefProps.v
theories/RefSpec.v
theories/ReportModel.v
theories/ReportProps.v
theories/ReportProps2.v
theories/ResolveModel.v
theories/ResolveProps.v
theories/RouteModel.v
theories/RouteProofs.v
theories/RouteProps.v
theories/RouteSpec.v
theories/SaveModel.v
theories/SaveProps.v
theories/ScanModel.v
theories/ScanProps.v
theories/SccModel.v
theories/SccProofs.v
theories/SccProps.v
theories/SccSpec.v
theories/SccTarjan.v
theories/SecModel.v
theories/SecProofs.v
theories/SecProps.v
theories/SecSpec.v
theories/SelModel.v
theories/SelProps.v
theories/SinkModel.v
theories/SinkProps.v
theories/SpcModel.v
theories/SpcProps.v
theories/StableSort.v
theories/StatModel.v
theories/StatProofs.v
theories/StatProps.v
theories/StatSpec.v
theories/StrLib.v
theories/StrOrder.v
theories/StrSplit.v
theories/StrSub.v
theories/StringPoolModel.v
theories/StringPoolProofs.v
theories/StringPoolProps.v
theories/StringPoolSpec.v
theories/TargModel.v
theories/TargProps.v
theories/TraceGraph.v
theories/TraceModel.v
theories/TracePaths.v
theories/TraceProofs.v
theories/TraceProps.v
theories/TraceSpec.v
theories/TvoModel.v
theories/TvoProps.v
theories/TvoProps2.v
theories/TypeModel.v
theories/TypeProofs.v
theories/TypeProps.v
theories/TypeSpec.v
theories/ValModel.v
theories/ValProofs.v
theories/ValProps.v
theories/ValSpec.v
theories/VerbModel.v
theories/VerbProofs.v
theories/VerbProps.v
theories/VerbSpec.v
theories/VisitModel.v
theories/VisitProps.v
theories/WireModel.v
theories/WireProofs.v
theories/WireProofs2.v
theories/WireProps.v
theories/WireProps2.v
theories/WireSpec.v
theories/Worklist.v
theories/WrapModel.v
theories/WrapProofs.v
theories/WrapProofs2.v
theories/WrapProps.v
theories/WrapSpec.v
