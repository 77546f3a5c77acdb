-Q theories Verif
theories/PyStr.v
theories/PyStrFacts.v
theories/RangesModel.v
theories/RangesSpec.v
theories/RangesProofs.v
theories/RangesProps.v
theories/FileModel.v
theories/FileSpec.v
theories/FileProofs.v
theories/FileProps.v
theories/Asgi.v
theories/StreamModel.v
theories/StreamSpec.v
theories/StreamProofs.v
theories/StreamProps.v
theories/SseModel.v
theories/SseSpec.v
theories/SseProofs.v
theories/SseConcModel.v
theories/SseConcProofs.v
theories/SseProps.v
theories/FltModel.v
theories/FltSpec.v
theories/FltProofs.v
theories/FltTextProofs.v
theories/PathModel.v
theories/PathSpec.v
theories/PathProofs.v
theories/PathMatchProofs.v
theories/PathRevProofs.v
theories/PathIncProofs.v
theories/PathNestProofs.v
theories/PathProps.v
theories/RouterModel.v
theories/RouterSpec.v
theories/RouterProofs.v
theories/RouterDeferProofs.v
theories/RouterProps.v
theories/RequestModel.v
theories/RequestSpec.v
theories/RequestProofs.v
theories/RequestProps.v
theories/Utf8.v
theories/FormModel.v
theories/FormSpec.v
theories/FormProofs.v
theories/FormProps.v
theories/MultipartModel.v
theories/MultipartSpec.v
theories/MultipartProofs.v
theories/MultipartFormProofs.v
theories/MultipartLimitProofs.v
theories/MultipartProps.v
theories/HeaderModel.v
theories/HeaderSpec.v
theories/HeaderProofs.v
theories/HeaderProps.v
theories/CookieModel.v
theories/CookieSpec.v
theories/CookieProofs.v
theories/CookieProps.v
theories/ScopeModel.v
theories/ScopeSpec.v
theories/ScopeProofs.v
theories/ScopeProps.v
theories/DepModel.v
theories/DepSpec.v
theories/DepProofs.v
theories/DepProps.v
theories/MwModel.v
theories/MwSpec.v
theories/MwProofs.v
theories/MwProps.v
theories/ExcModel.v
theories/ExcSpec.v
theories/ExcProofs.v
theories/ExcProps.v
theories/CorsModel.v
theories/CorsSpec.v
theories/CorsProofs.v
theories/CorsProps.v
theories/CsrfModel.v
theories/CsrfSpec.v
theories/CsrfProofs.v
theories/CsrfProps.v
theories/UrlModel.v
theories/UrlSpec.v
theories/UrlProofs.v
theories/UrlProps.v
theories/HostModel.v
theories/HostSpec.v
theories/HostProofs.v
theories/HostProps.v
theories/Base64.v
theories/SessionModel.v
theories/SessionSpec.v
theories/SessionProofs.v
theories/SessionProps.v
theories/GzipModel.v
theories/GzipSpec.v
theories/GzipProofs.v
theories/GzipProps.v
theories/AuthModel.v
theories/AuthProps.v
theories/WsModel.v
theories/WsSpec.v
theories/WsProps.v
theories/SignedModel.v
theories/SignedSpec.v
theories/SignedProofs.v
theories/SignedProps.v
theories/CacheModel.v
theories/CacheSpec.v
theories/CacheProps.v
theories/CtrlModel.v
theories/CtrlProps.v
theories/StaticModel.v
theories/StaticSpec.v
theories/StaticProofs.v
theories/StaticProps.v
theories/EnvModel.v
theories/EnvSpec.v
theories/EnvProofs.v
theories/EnvProps.v
theories/BusModel.v
theories/BusProps.v
theories/ChanModel.v
theories/ChanProps.v
theories/RelayModel.v
theories/RelayProps.v
theories/RelayHttpProps.v
theories/ArgsModel.v
theories/ArgsSpec.v
theories/ArgsProofs.v
theories/ArgsProps.v
theories/NestModel.v
theories/NestSpec.v
theories/NestProofs.v
theories/NestProps.v
theories/CastModel.v
theories/CastProps.v
theories/DispModel.v
theories/DispSpec.v
theories/DispProofs.v
theories/DispProps.v
theories/LifeModel.v
theories/LifeSpec.v
theories/LifeProps.v
theories/BgModel.v
theories/BgSpec.v
theories/BgProps.v
theories/SecModel.v
theories/SecSpec.v
theories/SecProps.v
theories/JsonModel.v
theories/JsonSpec.v
theories/JsonProofs.v
theories/JsonProps.v
theories/EncModel.v
theories/EncSpec.v
theories/EncProps.v
theories/OutModel.v
theories/OutSpec.v
theories/OutProps.v
theories/HostRouteModel.v
theories/HostRouteSpec.v
theories/HostRouteProps.v
theories/MemoModel.v
theories/MemoSpec.v
theories/MemoProps.v
theories/TplModel.v
theories/TplSpec.v
theories/TplProps.v
theories/GlobModel.v
theories/GlobSpec.v
theories/GlobProps.v
theories/InjModel.v
theories/InjSpec.v
theories/InjProps.v
theories/BodyModel.v
theories/BodySpec.v
theories/BodyProps.v
theories/TcModel.v
theories/TcSpec.v
theories/TcProofs.v
theories/TcProps.v
theories/ResModel.v
theories/ResSpec.v
theories/ResProofs.v
theories/ResProps.v
theories/HardModel.v
theories/HardSpec.v
theories/HardProofs.v
theories/HardProps.v
theories/ConfModel.v
theories/ConfSpec.v
theories/ConfProofs.v
theories/ConfProps.v
theories/MailModel.v
theories/MailSpec.v
theories/MailProofs.v
theories/MailProps.v
theories/DocModel.v
theories/DocSpec.v
theories/DocProofs.v
theories/DocProps.v
theories/PageModel.v
theories/PageSpec.v
theories/PageProofs.v
theories/PageProps.v
theories/IntroModel.v
theories/IntroSpec.v
theories/IntroProofs.v
theories/IntroProps.v
theories/AiModel.v
theories/AiSpec.v
theories/AiProofs.v
theories/AiProps.v
theories/PushModel.v
theories/PushSpec.v
theories/PushProofs.v
theories/PushProps.v
theories/WstModel.v
theories/WstSpec.v
theories/WstProofs.v
theories/WstProps.v
theories/OtelModel.v
theories/OtelSpec.v
theories/OtelProofs.v
theories/OtelProps.v
theories/CqModel.v
theories/CqProps.v
theories/JwtModel.v
theories/JwtProps.v
theories/ObsModel.v
theories/ObsProps.v
theories/AbtModel.v
theories/AbtProps.v
theories/RedisModel.v
theories/RedisProps.v
theories/ProxyModel.v
theories/ProxyProps.v
theories/ExitModel.v
theories/ExitProps.v
theories/DocuiModel.v
theories/DocuiSpec.v
theories/DocuiProps.v
theories/SyncModel.v
theories/SyncProps.v
theories/CliModel.v
theories/CliProps.v
theories/WsrModel.v
theories/WsrSpec.v
theories/WsrProps.v
theories/InstModel.v
theories/InstSpec.v
theories/InstProps.v
theories/OptsModel.v
theories/OptsSpec.v
theories/OptsProps.v
theories/ReuseModel.v
theories/ReuseSpec.v
theories/ReuseProps.v
theories/ScafModel.v
theories/ScafSpec.v
theories/ScafProps.v
theories/WsgiModel.v
theories/WsgiSpec.v
theories/WsgiProps.v
theories/OformModel.v
theories/OformSpec.v
theories/OformProps.v
theories/AnnModel.v
theories/AnnSpec.v
theories/AnnProps.v
theories/DirsModel.v
theories/DirsSpec.v
theories/DirsProps.v
theories/CoopModel.v
theories/CoopSpec.v
theories/CoopProofs.v
theories/CoopProps.v
theories/SvcModel.v
theories/SvcProps.v
theories/OverModel.v
theories/OverProps.v
theories/EmitModel.v
theories/EmitSpec.v
theories/EmitProofs.v
theories/EmitProps.v
theories/TabsModel.v
theories/TabsSpec.v
theories/TabsProofs.v
theories/TabsProps.v
theories/EmlModel.v
theories/EmlProps.v
theories/RootModel.v
theories/RootSpec.v
theories/RootProofs.v
theories/RootProps.v
theories/LinkModel.v
theories/LinkSpec.v
theories/LinkProps.v
theories/ReadModel.v
theories/ReadSpec.v
theories/ReadProps.v
theories/PnameModel.v
theories/PnameSpec.v
theories/PnameProofs.v
theories/PnameProps.v
theories/StateModel.v
theories/StateSpec.v
theories/StateProofs.v
theories/StateProps.v
theories/HinModel.v
theories/HinSpec.v
theories/HinProofs.v
theories/HinProps.v
theories/CollModel.v
theories/CollSpec.v
theories/CollProofs.v
theories/CollProps.v
theories/GoneProps.v
theories/RegModel.v
theories/RegSpec.v
theories/RegProps.v
theories/DeclModel.v
theories/DeclSpec.v
theories/DeclProps.v
theories/AwModel.v
theories/AwProps.v
theories/FastModel.v
theories/FastProps.v
theories/TokModel.v
theories/TokProps.v
theories/WsuModel.v
theories/WsuProps.v
theories/SlashProps.v
theories/TmailModel.v
theories/TmailProps.v
theories/SconfModel.v
theories/SconfProps.v
theories/SchedModel.v
theories/SchedProps.v
theories/CattrProps.v
theories/CtxModel.v
theories/CtxProps.v
theories/RdataModel.v
theories/RdataProps.v
theories/LexcModel.v
theories/LexcProps.v
theories/SsedModel.v
theories/SsedProps.v
theories/EvhModel.v
theories/EvhProps.v
theories/FdirModel.v
theories/FdirProps.v
theories/RlifeModel.v
theories/RlifeProps.v
theories/JsafeModel.v
theories/JsafeProps.v
theories/VexcModel.v
theories/VexcProps.v
theories/NsatModel.v
theories/NsatProps.v
theories/CtxshModel.v
theories/CtxshProps.v
