-Q theories Verif
theories/FutureModel.v
theories/FutureSpec.v
theories/FutureProofs.v
theories/FutureProps.v
theories/LockModel.v
theories/LockSpec.v
theories/LockProofs.v
theories/LockProps.v
theories/LoopModel.v
theories/LoopSpec.v
theories/LoopProofs.v
theories/LoopProps.v
theories/TaskModel.v
theories/TaskSpec.v
theories/TaskProofs.v
theories/TaskProps.v
theories/QueueModel.v
theories/QueueSpec.v
theories/QueueProofs.v
theories/QueueProps.v
theories/Bytes.v
theories/ReadModel.v
theories/ReadSpec.v
theories/ReadProofs.v
theories/ReadUntilProofs.v
theories/ReadProps.v
theories/ChunkModel.v
theories/ChunkSpec.v
theories/ChunkProofs.v
theories/ChunkProps.v
theories/FrameModel.v
theories/FrameSpec.v
theories/FrameProofs.v
theories/FrameProps.v
theories/EventModel.v
theories/EventSpec.v
theories/EventProofs.v
theories/EventProps.v
theories/Text.v
theories/QuoteModel.v
theories/QuoteSpec.v
theories/QuoteProofs.v
theories/QuoteProps.v
theories/HeadModel.v
theories/HeadSpec.v
theories/HeadProofs.v
theories/HeadProps.v
theories/ExtModel.v
theories/ExtSpec.v
theories/ExtProofs.v
theories/ExtProps.v
theories/UrlModel.v
theories/UrlSpec.v
theories/UrlProofs.v
theories/UrlProps.v
theories/DnsModel.v
theories/DnsSpec.v
theories/DnsProofs.v
theories/DnsProps.v
theories/NameModel.v
theories/NameSpec.v
theories/NameProofs.v
theories/NameProps.v
theories/IpModel.v
theories/IpSpec.v
theories/IpProofs.v
theories/IpProps.v
theories/MultiModel.v
theories/MultiSpec.v
theories/MultiProofs.v
theories/MultiProps.v
theories/SortedModel.v
theories/SortedSpec.v
theories/SortedProofs.v
theories/SortedProps.v
theories/PoolModel.v
theories/PoolSpec.v
theories/PoolProofs.v
theories/PoolProps.v
theories/TransModel.v
theories/TransSpec.v
theories/TransProofs.v
theories/TransProps.v
theories/DrainModel.v
theories/DrainSpec.v
theories/DrainProofs.v
theories/DrainProps.v
theories/PayloadModel.v
theories/PayloadSpec.v
theories/PayloadProofs.v
theories/PayloadProps.v
theories/DedupModel.v
theories/DedupSpec.v
theories/DedupProofs.v
theories/DedupProps.v
theories/ZipModel.v
theories/ZipSpec.v
theories/ZipProofs.v
theories/ZipProps.v
theories/CookieModel.v
theories/CookieSpec.v
theories/CookieProofs.v
theories/CookieProps.v
theories/CookieDateModel.v
theories/CookieDateSpec.v
theories/CookieDateProofs.v
theories/CookieDateProps.v
theories/ContentTypeModel.v
theories/ContentTypeSpec.v
theories/ContentTypeProofs.v
theories/ContentTypeProps.v
theories/RotationModel.v
theories/RotationSpec.v
theories/RotationProofs.v
theories/RotationProps.v
theories/CyclerModel.v
theories/CyclerSpec.v
theories/CyclerProofs.v
theories/CyclerProps.v
theories/ServerModel.v
theories/ServerSpec.v
theories/ServerProofs.v
theories/ServerProps.v
theories/WeakDictModel.v
theories/WeakDictSpec.v
theories/WeakDictProofs.v
theories/WeakDictProps.v
theories/GroupModel.v
theories/GroupSpec.v
theories/GroupProofs.v
theories/GroupProps.v
theories/ShieldModel.v
theories/ShieldSpec.v
theories/ShieldProofs.v
theories/ShieldProps.v
theories/ExecutorModel.v
theories/ExecutorSpec.v
theories/ExecutorProofs.v
theories/ExecutorProps.v
theories/TimeoutModel.v
theories/TimeoutSpec.v
theories/TimeoutProofs.v
theories/TimeoutProps.v
theories/RedirectModel.v
theories/RedirectSpec.v
theories/RedirectProofs.v
theories/RedirectProps.v
theories/UrlOpsModel.v
theories/UrlOpsSpec.v
theories/UrlOpsProofs.v
theories/UrlOpsProps.v
theories/WsModel.v
theories/WsSpec.v
theories/WsProofs.v
theories/WsProps.v
theories/HandshakeModel.v
theories/HandshakeSpec.v
theories/HandshakeProofs.v
theories/HandshakeProps.v
theories/AuthModel.v
theories/AuthSpec.v
theories/AuthProofs.v
theories/AuthProps.v
theories/MessageModel.v
theories/MessageSpec.v
theories/MessageProofs.v
theories/MessageProps.v
theories/IoModel.v
theories/IoSpec.v
theories/IoProofs.v
theories/IoProps.v
theories/DispoModel.v
theories/DispoSpec.v
theories/DispoProofs.v
theories/DispoProps.v
theories/PartModel.v
theories/PartSpec.v
theories/PartProofs.v
theories/PartProps.v
theories/WeakSetModel.v
theories/WeakSetSpec.v
theories/WeakSetProofs.v
theories/WeakSetProps.v
theories/WrapModel.v
theories/WrapSpec.v
theories/WrapProofs.v
theories/WrapProps.v
theories/SuspendModel.v
theories/SuspendSpec.v
theories/SuspendProofs.v
theories/SuspendProps.v
theories/DgramModel.v
theories/DgramSpec.v
theories/DgramProofs.v
theories/DgramProps.v
theories/SwitchModel.v
theories/SwitchSpec.v
theories/SwitchProofs.v
theories/SwitchProps.v
theories/ResponseModel.v
theories/ResponseSpec.v
theories/ResponseProofs.v
theories/ResponseProps.v
