-Q theories Verif
theories/Bytes.v
theories/BytesProofs.v
theories/RouteModel.v
theories/RouteSpec.v
theories/RouteProofs.v
theories/RouteMatchProofs.v
theories/RouteProps.v
theories/FilterModel.v
theories/FilterSpec.v
theories/FilterProofs.v
theories/FilterProps.v
theories/BackoffModel.v
theories/BackoffSpec.v
theories/BackoffProofs.v
theories/BackoffProps.v
theories/NameModel.v
theories/NameSpec.v
theories/NameProofs.v
theories/NameProps.v
theories/IoModel.v
theories/IoSpec.v
theories/IoProofs.v
theories/IoProps.v
theories/SniModel.v
theories/SniSpec.v
theories/SniProofs.v
theories/SniProps.v
theories/TransportModel.v
theories/TransportSpec.v
theories/TransportProofs.v
theories/TransportProps.v
theories/TraceModel.v
theories/TraceSpec.v
theories/TraceProofs.v
theories/TraceProps.v
theories/EwmaModel.v
theories/EwmaSpec.v
theories/EwmaProofs.v
theories/EwmaProps.v
theories/ReplayModel.v
theories/ReplaySpec.v
theories/ReplayProofs.v
theories/ReplayProps.v
theories/PeekModel.v
theories/PeekSpec.v
theories/PeekProofs.v
theories/PeekProps.v
theories/RetryModel.v
theories/RetrySpec.v
theories/RetryProofs.v
theories/RetryParseProofs.v
theories/RetryProps.v
theories/WindowModel.v
theories/WindowSpec.v
theories/WindowProofs.v
theories/WindowFloatProofs.v
theories/WindowProps.v
theories/BreakerModel.v
theories/BreakerSpec.v
theories/BreakerProofs.v
theories/BreakerKindProofs.v
theories/BreakerProbeProofs.v
theories/BreakerProps.v
theories/HintModel.v
theories/HintSpec.v
theories/HintProofs.v
theories/HintProps.v
theories/ClassifyModel.v
theories/ClassifySpec.v
theories/ClassifyProofs.v
theories/ClassifyProps.v
theories/GateModel.v
theories/GateSpec.v
theories/GateProofs.v
theories/GateStateProofs.v
theories/GatePermitProofs.v
theories/GateBoundProofs.v
theories/GateLiveProofs.v
theories/GateProps.v
theories/FailfastModel.v
theories/FailfastSpec.v
theories/FailfastProofs.v
theories/FailfastProps.v
theories/AuthzModel.v
theories/AuthzSpec.v
theories/AuthzProofs.v
theories/AuthzProps.v
theories/PolicyModel.v
theories/PolicySpec.v
theories/PolicyProofs.v
theories/PolicyProps.v
theories/RateLimitModel.v
theories/RateLimitSpec.v
theories/RateLimitProofs.v
theories/RateLimitProps.v
theories/DistributeModel.v
theories/DistributeSpec.v
theories/DistributeProofs.v
theories/DistributeProps.v
theories/CacheModel.v
theories/CacheSpec.v
theories/CacheProofs.v
theories/CacheProps.v
theories/TimeoutModel.v
theories/TimeoutSpec.v
theories/TimeoutProofs.v
theories/TimeoutProps.v
theories/HistogramModel.v
theories/HistogramSpec.v
theories/HistogramProofs.v
theories/HistogramProps.v
theories/RecoverModel.v
theories/RecoverSpec.v
theories/RecoverProofs.v
theories/RecoverProps.v
theories/BiaserModel.v
theories/BiaserSpec.v
theories/BiaserProofs.v
theories/BiaserProps.v
theories/GaugeModel.v
theories/GaugeSpec.v
theories/GaugeProofs.v
theories/GaugeProps.v
theories/P2cModel.v
theories/P2cSpec.v
theories/P2cProofs.v
theories/P2cProps.v
theories/QueueModel.v
theories/QueueSpec.v
theories/QueueProofs.v
theories/QueueProps.v
theories/ReqMetricsModel.v
theories/ReqMetricsSpec.v
theories/ReqMetricsProofs.v
theories/ReqMetricsProps.v
theories/StoreModel.v
theories/StoreSpec.v
theories/StoreProofs.v
theories/StoreProps.v
theories/ConnMetricsModel.v
theories/ConnMetricsSpec.v
theories/ConnMetricsProofs.v
theories/ConnMetricsProps.v
theories/EndpointModel.v
theories/EndpointSpec.v
theories/EndpointProofs.v
theories/EndpointProps.v
theories/ConnectModel.v
theories/ConnectSpec.v
theories/ConnectProofs.v
theories/ConnectProps.v
theories/Http1Model.v
theories/Http1Spec.v
theories/Http1Proofs.v
theories/Http1Props.v
theories/DnsModel.v
theories/DnsSpec.v
theories/DnsProofs.v
theories/DnsProps.v
theories/RespondModel.v
theories/RespondSpec.v
theories/RespondProofs.v
theories/RespondProps.v
theories/WatchModel.v
theories/WatchSpec.v
theories/WatchProofs.v
theories/WatchProps.v
theories/PolicyStoreModel.v
theories/PolicyStoreSpec.v
theories/PolicyStoreProofs.v
theories/PolicyStoreProps.v
theories/RegexModel.v
theories/RegexProofs.v
theories/ProfileModel.v
theories/ProfileSpec.v
theories/ProfileProofs.v
theories/ProfileProps.v
theories/ProfileRetryModel.v
theories/ProfileRetrySpec.v
theories/ProfileRetryProofs.v
theories/ProfileRetryProps.v
theories/DiscoverModel.v
theories/DiscoverSpec.v
theories/DiscoverProofs.v
theories/DiscoverProps.v
theories/EnvModel.v
theories/EnvSpec.v
theories/EnvProofs.v
theories/EnvProps.v
theories/DuplexModel.v
theories/DuplexSpec.v
theories/DuplexProofs.v
theories/DuplexProps.v
theories/TlsRouteModel.v
theories/TlsRouteSpec.v
theories/TlsRouteProofs.v
theories/TlsRouteProps.v
theories/ClientPolicyMatchProofs.v
theories/ClientPolicyRouterProofs.v
theories/ClientPolicyThresholdProofs.v
theories/ClientPolicyModel.v
theories/ClientPolicySpec.v
theories/ClientPolicyProofs.v
theories/ClientPolicyProps.v
theories/MtlsModel.v
theories/MtlsSpec.v
theories/MtlsProofs.v
theories/MtlsProps.v
theories/GatewayModel.v
theories/GatewaySpec.v
theories/GatewayProofs.v
theories/GatewayProps.v
theories/AdminModel.v
theories/AdminSpec.v
theories/AdminProofs.v
theories/AdminProps.v
theories/LifeModel.v
theories/LifeSpec.v
theories/LifeProofs.v
theories/LifeProps.v
theories/TapSessionProofs.v
theories/TapModel.v
theories/TapSpec.v
theories/TapProofs.v
theories/TapProps.v
theories/InboundModel.v
theories/InboundSpec.v
theories/InboundProofs.v
theories/InboundProps.v
theories/OutboundModel.v
theories/OutboundSpec.v
theories/OutboundProofs.v
theories/OutboundProps.v
theories/PromModel.v
theories/PromSpec.v
theories/PromProofs.v
theories/PromCountProofs.v
theories/PromProps.v
theories/ForwardModel.v
theories/ForwardSpec.v
theories/ForwardProofs.v
theories/ForwardProps.v
theories/LabelModel.v
theories/LabelSpec.v
theories/LabelReadProofs.v
theories/LabelProofs.v
theories/LabelOnceProofs.v
theories/LabelPageProofs.v
theories/LabelProps.v
theories/SwapTrackProofs.v
theories/SwapModel.v
theories/SwapSpec.v
theories/SwapProofs.v
theories/SwapProps.v
theories/ExportModel.v
theories/ExportSpec.v
theories/ExportProofs.v
theories/ExportProps.v
theories/ReconnectModel.v
theories/ReconnectSpec.v
theories/ReconnectProofs.v
theories/ReconnectProps.v
theories/LogModel.v
theories/LogSpec.v
theories/LogProofs.v
theories/LogProps.v
theories/DiscoModel.v
theories/DiscoSpec.v
theories/DiscoProofs.v
theories/DiscoProps.v
theories/RtModel.v
theories/RtSpec.v
theories/RtProofs.v
theories/RtProps.v
theories/ProxyRouterModel.v
theories/ProxyRouterSpec.v
theories/ProxyRouterProofs.v
theories/ProxyRouterProps.v
theories/AcceptModel.v
theories/AcceptSpec.v
theories/AcceptProofs.v
theories/AcceptProps.v
theories/DialModel.v
theories/DialSpec.v
theories/DialProofs.v
theories/DialProps.v
theories/BalanceModel.v
theories/BalanceSpec.v
theories/BalanceProofs.v
theories/BalanceProps.v
theories/ZoneModel.v
theories/ZoneSpec.v
theories/ZoneProofs.v
theories/ZoneProps.v
theories/RetainModel.v
theories/RetainSpec.v
theories/RetainProofs.v
theories/RetainProps.v
theories/AccrualModel.v
theories/AccrualSpec.v
theories/AccrualProofs.v
theories/AccrualProps.v
theories/SpanModel.v
theories/SpanSpec.v
theories/SpanProofs.v
theories/SpanProps.v
theories/LockModel.v
theories/LockSpec.v
theories/LockProofs.v
theories/LockProps.v
theories/CountModel.v
theories/CountSpec.v
theories/CountProofs.v
theories/CountProps.v
theories/StreamModel.v
theories/StreamSpec.v
theories/StreamProofs.v
theories/StreamProps.v
theories/SettingsModel.v
theories/SettingsSpec.v
theories/SettingsProofs.v
theories/SettingsProps.v
theories/ControlModel.v
theories/ControlSpec.v
theories/ControlProofs.v
theories/ControlProps.v
theories/ShedModel.v
theories/ShedSpec.v
theories/ShedProofs.v
theories/ShedProps.v
theories/CanonModel.v
theories/CanonSpec.v
theories/CanonProofs.v
theories/CanonProps.v
theories/UptimeModel.v
theories/UptimeSpec.v
theories/UptimeProofs.v
theories/UptimeProps.v
theories/ResetModel.v
theories/ResetSpec.v
theories/ResetProofs.v
theories/ResetProps.v
theories/LazyModel.v
theories/LazySpec.v
theories/LazyProofs.v
theories/LazyProps.v
