-Q theories Verif
theories/ArgsModel.v
theories/ArgsProofs.v
theories/ArgsProps.v
theories/ArgsSpec.v
theories/AuthModel.v
theories/AuthProofs.v
theories/AuthProps.v
theories/AuthSpec.v
theories/CacheModel.v
theories/CacheProofs.v
theories/CacheProps.v
theories/CacheSpec.v
theories/CallProofs.v
theories/CallTaskProofs.v
theories/CancelModel.v
theories/CancelProofs.v
theories/CancelProps.v
theories/CancelSpec.v
theories/CapProofs.v
theories/ConfModel.v
theories/ConfProofs.v
theories/ConfProps.v
theories/ConfSpec.v
theories/CoroModel.v
theories/CoroProofs.v
theories/CoroProps.v
theories/CoroSpec.v
theories/DescModel.v
theories/DescProofs.v
theories/DescProps.v
theories/DescSpec.v
theories/DialModel.v
theories/DialProofs.v
theories/DialProps.v
theories/DialSpec.v
theories/DiscoModel.v
theories/DiscoProofs.v
theories/DiscoProps.v
theories/DiscoSpec.v
theories/DispProofs.v
theories/DispProps.v
theories/DispSpec.v
theories/DoubleModel.v
theories/DoubleProofs.v
theories/DownFall.v
theories/DownModel.v
theories/DownProofs.v
theories/DownProps.v
theories/DownSpec.v
theories/DuoInv.v
theories/DuoModel.v
theories/DuoProofs.v
theories/DuoProps.v
theories/DuoSpec.v
theories/ErrModel.v
theories/ErrProofs.v
theories/ErrProps.v
theories/ErrSpec.v
theories/FallModel.v
theories/FallProofs.v
theories/FallProps.v
theories/FallSpec.v
theories/FetchModel.v
theories/FetchProofs.v
theories/FetchProps.v
theories/FetchSpec.v
theories/FramerModel.v
theories/FramerProofs.v
theories/FramerProps.v
theories/FramerSpec.v
theories/FreshModel.v
theories/FreshProofs.v
theories/FreshProps.v
theories/FreshSpec.v
theories/GaugeModel.v
theories/GaugeProofs.v
theories/GaugeProps.v
theories/GaugeSpec.v
theories/GearModel.v
theories/GearProofs.v
theories/GearProps.v
theories/GearSpec.v
theories/GuardModel.v
theories/GuardProofs.v
theories/GuardSpec.v
theories/HcliModel.v
theories/HcliProofs.v
theories/HcliProps.v
theories/HcliSpec.v
theories/HlifeAfter.v
theories/HlifeBad.v
theories/HlifeCall.v
theories/HlifeInv.v
theories/HlifeLive.v
theories/HlifeModel.v
theories/HlifeProps.v
theories/HlifeReply.v
theories/HlifeSafe.v
theories/HlifeSpec.v
theories/HlifeStep.v
theories/HttpHist.v
theories/HttpModel.v
theories/HttpProofs.v
theories/HttpProps.v
theories/HttpSpec.v
theories/HupModel.v
theories/HupProofs.v
theories/HupProps.v
theories/HupSpec.v
theories/IdProofs.v
theories/IdProps.v
theories/IdSpec.v
theories/JsonModel.v
theories/JsonProofs.v
theories/JsonProps.v
theories/JsonSpec.v
theories/KeepModel.v
theories/KeepProofs.v
theories/KeepProps.v
theories/KeepSpec.v
theories/LatchModel.v
theories/LatchProofs.v
theories/LatchProps.v
theories/LatchSpec.v
theories/LayoutProofs.v
theories/LayoutSpec.v
theories/LifeModel.v
theories/LifeProofs.v
theories/LifeProps.v
theories/LifeSpec.v
theories/LockModel.v
theories/LockProofs.v
theories/LockProps.v
theories/LockSpec.v
theories/LogModel.v
theories/LogProofs.v
theories/LogProps.v
theories/LogSpec.v
theories/LoopModel.v
theories/LoopProofs.v
theories/LoopProps.v
theories/LoopSpec.v
theories/MapModel.v
theories/MapProofs.v
theories/MemModel.v
theories/MemProofs.v
theories/MemProps.v
theories/MemSpec.v
theories/NoteProofs.v
theories/NoteProps.v
theories/NoteSpec.v
theories/OauthModel.v
theories/OauthProofs.v
theories/OauthProps.v
theories/OauthSpec.v
theories/ObjProofs.v
theories/ObjSpec.v
theories/OfailProps.v
theories/OfailSpec.v
theories/OpenProofs.v
theories/OpenProps.v
theories/OpenSpec.v
theories/PairAwake.v
theories/PairModel.v
theories/PairProofs.v
theories/PairProps.v
theories/PairSpec.v
theories/PeerModel.v
theories/PeerProofs.v
theories/PeerProps.v
theories/PeerSpec.v
theories/PendModel.v
theories/PendProofs.v
theories/PipeModel.v
theories/PipeProofs.v
theories/PipeProps.v
theories/PipeSpec.v
theories/ProfModel.v
theories/ProfProofs.v
theories/ProfProps.v
theories/ProfSpec.v
theories/PushDone.v
theories/PushInv.v
theories/PushModel.v
theories/PushProofs.v
theories/PushProps.v
theories/PushRun.v
theories/PushSpec.v
theories/ReadModel.v
theories/ReadProofs.v
theories/ReadProps.v
theories/ReadSpec.v
theories/RefuseProofs.v
theories/RefuseProps.v
theories/RefuseSpec.v
theories/RegModel.v
theories/RegProofs.v
theories/RegProps.v
theories/RegSpec.v
theories/RouterModel.v
theories/RouterProofs.v
theories/RouterProps.v
theories/RpcModel.v
theories/RpcProofs.v
theories/RpcProps.v
theories/RpcSpec.v
theories/SayModel.v
theories/SayProofs.v
theories/SayProps.v
theories/SaySpec.v
theories/ScribeModel.v
theories/ScribeProofs.v
theories/ScribeProps.v
theories/ScribeSpec.v
theories/SegChan.v
theories/SegModel.v
theories/SegProofs.v
theories/SegProps.v
theories/SegRest.v
theories/SegSpec.v
theories/SegTold.v
theories/ServModel.v
theories/ServProofs.v
theories/ServProps.v
theories/ServSpec.v
theories/SessModel.v
theories/SessProofs.v
theories/SessProps.v
theories/SessSpec.v
theories/ShmModel.v
theories/ShmPair.v
theories/ShmProofs.v
theories/ShmProps.v
theories/ShmSpec.v
theories/ShmWords.v
theories/SseModel.v
theories/SseProofs.v
theories/SseProps.v
theories/SseSpec.v
theories/SseText.v
theories/StdioModel.v
theories/StdioProofs.v
theories/StdioProps.v
theories/StdioSpec.v
theories/StrModel.v
theories/StrProofs.v
theories/SubModel.v
theories/SubProofs.v
theories/SubProps.v
theories/SubSpec.v
theories/TalkModel.v
theories/TalkProofs.v
theories/TalkProps.v
theories/TalkSpec.v
theories/TaskModel.v
theories/TaskProofs.v
theories/TaskProps.v
theories/TaskSpec.v
theories/TearModel.v
theories/TearProofs.v
theories/TearProps.v
theories/TearSpec.v
theories/TextNear.v
theories/TextNum.v
theories/TextNumeral.v
theories/TextProps.v
theories/TextRead.v
theories/TextRound.v
theories/TextSpec.v
theories/TextWrite.v
theories/TimeModel.v
theories/TimeProofs.v
theories/TimeProps.v
theories/TimeSpec.v
theories/TmplModel.v
theories/TmplProofs.v
theories/TmplProps.v
theories/TmplSpec.v
theories/TourProofs.v
theories/TourProps.v
theories/TourSpec.v
theories/TrackModel.v
theories/TrackProofs.v
theories/TrackProps.v
theories/TrackSpec.v
theories/TuneModel.v
theories/TuneProofs.v
theories/TuneProps.v
theories/TuneSpec.v
theories/TypedModel.v
theories/TypedProofs.v
theories/TypedProps.v
theories/TypedSpec.v
theories/ValModel.v
theories/ValProofs.v
theories/ValProps.v
theories/ValSpec.v
theories/WalkModel.v
theories/WalkProofs.v
theories/WalkProps.v
theories/WalkSpec.v
theories/WebInv.v
theories/WebLive.v
theories/WebModel.v
theories/WebProofs.v
theories/WebProps.v
theories/WebSess.v
theories/WebSpec.v
theories/WireProofs.v
theories/WireProps.v
theories/WireSpec.v
theories/WqModel.v
theories/WqProofs.v
theories/WwwModel.v
theories/WwwProofs.v
theories/WwwSpec.v
