(** Model of the outbound policies that the control plane sends: linkerd/proxy/client-policy/src (lib.rs, http.rs,
    grpc.rs, opaq.rs, tls.rs), of the conversions of messages in linkerd/http/route/src and
    linkerd/tls/route/src/sni.rs, and of the routers that the outbound proxy builds of a policy:
    linkerd/app/outbound/src/http/logical/policy/router.rs, opaq/logical/router.rs and tls/logical/router.rs.

    Simplifications: which error a message is refused with is not modelled; the order of a policy's set of backends
    is that of their first occurrence. *)
From Coq Require Import String List NArith ZArith QArith Bool.
From Flocq Require Import IEEE754.BinarySingleNaN.
From Verif Require Import Bytes NameModel RouteModel.
From Verif Require Import EndpointModel.
From Verif Require ProfileModel EnvModel WindowModel DistributeModel FilterModel TlsRouteModel.
Import ListNotations.
Open Scope N_scope.

(** `?` on an [Option] or a [Result] *)
Notation "x <- m ;; k" := (match m with Some x => k | None => None end)
  (at level 61, m at next level, right associativity).
(** `.map(f).collect::<Result<_, _>>()` *)
Definition collect {A B} (f : A -> option B) : list A -> option (list B) :=
  fix go (l : list A) : option (list B) :=
    match l with
    | [] => Some []
    | x :: l => y <- f x ;; ys <- go l ;; Some (y :: ys)
    end.
(** `.map(f).transpose()?` *)
Definition transpose {A B} (f : A -> option B) (o : option A) : option (option B) :=
  match o with
  | None => Some None
  | Some x => y <- f x ;; Some (Some y)
  end.
(** `Option::or` *)
Definition or {A} (a b : option A) : option A := match a with Some _ => a | None => b end.
(** `u16::try_from` of an u32 *)
Definition to_u16 (n : N) : option N := if n <? 65536 then Some n else None.
(** `NonZeroU16::try_from` of an u16 *)
Definition non_zero (n : N) : option N := if n =? 0 then None else Some n.
(** `http::StatusCode::try_from` of an u16 *)
Definition status_code (n : N) : option N := ProfileModel.status_from_u16 n.
(** `Duration::try_from` of a message; nanoseconds *)
Definition duration (d : pb_duration) : option N := ProfileModel.to_duration d.
(** A duration of one millisecond *)
Definition millis : N := 1000000.
(** A duration of one second *)
Definition secs : N := 1000000000.

(** ** Messages (linkerd2-proxy-api, not in /repo).  A field that may be missing is an [option]. *)

(** `meta::metadata::Kind` *)
Inductive pb_meta :=
| Pb_default (name : bytes)
| Pb_resource (group kind name namespace section : bytes) (port : N).
(** `meta::Metadata`: a message whose kind may be missing *)
Definition pb_metadata := option pb_meta.
(** `outbound::ExponentialBackoff`; the ratio is an f32 *)
Record pb_backoff := PbBackoff { pbo_min : option pb_duration; pbo_max : option pb_duration; pbo_jitter : EnvModel.f64 }.
(** `outbound::failure_accrual::Kind` *)
Inductive pb_accrual :=
| Pb_consecutive (max_failures : N) (backoff : option pb_backoff)
| Pb_unified (threshold : WindowModel.f64) (decay : option pb_duration) (min_requests max_consecutive : N)
             (backoff : option pb_backoff).
(** `outbound::backend::balance_p2c::Load` *)
Inductive pb_load :=
| Pb_peak_ewma (default_rtt decay : option pb_duration)
| Pb_penalty_peak_ewma (default_rtt decay penalty max_retry_after penalty_decay : option pb_duration).
(** `outbound::backend::Kind`; the discovery is a message whose kind, a path, may be missing *)
Inductive pb_dispatcher :=
| Pb_balancer (discovery : option (option bytes)) (load : option pb_load)
| Pb_forward (ep : weighted_addr).
(** `outbound::Queue` *)
Record pb_queue := PbQueue { pbq_capacity : N; pbq_failfast : option pb_duration }.
(** `outbound::Backend` *)
Record pb_backend := PbBackend {
  pbb_metadata : option pb_metadata; pbb_queue : option pb_queue; pbb_kind : option pb_dispatcher }.
(** `http_route::RouteBackend` and the like; a timeout of its own, which is not read, is left out *)
Record pb_route_backend (F : Type) := PbRouteBackend { pbr_backend : option pb_backend; pbr_filters : list F }.
(** `http_route::distribution::Kind` and the like *)
Inductive pb_distribution (F : Type) :=
| Pb_empty
| Pb_random (l : list (N * option (pb_route_backend F)))
| Pb_first (l : list (pb_route_backend F)).
(** `http_route::HostMatch`, `tls_route::SniMatch`: *)
Inductive pb_name_match := Pb_exact_name (n : bytes) | Pb_suffix_name (reverse_labels : list bytes).
(** `http_route::PathMatch` *)
Inductive pb_path := Pb_exact_path (p : bytes) | Pb_prefix_path (p : bytes) | Pb_regex_path (re : bytes).
(** The value of `http_route::HeaderMatch` and of `http_route::QueryParamMatch` *)
Inductive pb_value := Pb_exact_value (v : bytes) | Pb_regex_value (re : bytes).
(** `http_route::HeaderMatch` and `http_route::QueryParamMatch` *)
Record pb_named := PbNamed { pbn_name : bytes; pbn_value : option pb_value }.
(** `http_route::HttpRouteMatch`.  Its path is a message whose kind may be missing; so is its method. *)
Record pb_http_match := PbHttpMatch {
  pbm_path : option (option pb_path); pbm_headers : list pb_named; pbm_query : list pb_named;
  pbm_method : option (option ProfileModel.pb_method) }.
(** `grpc_route::GrpcRouteMatch` with its `GrpcRpcMatch`, the names of a service and a method *)
Record pb_grpc_match := PbGrpcMatch { pbg_rpc : option (bytes * bytes); pbg_headers : list pb_named }.
(** `http_route::HttpFailureInjector`, `grpc_route::GrpcFailureInjector`: a status or code, and a ratio *)
Record pb_failure := PbFailure { pbf_status : N; pbf_message : bytes; pbf_ratio : option (N * N) }.
(** `http_route::RequestHeaderModifier`, `ResponseHeaderModifier` *)
Record pb_modifier := PbModifier {
  pbh_add : option (list (bytes * bytes)); pbh_set : option (list (bytes * bytes)); pbh_remove : list bytes }.
(** `http_types::scheme::Type` *)
Inductive pb_scheme := Pb_registered (n : Z) | Pb_unregistered (s : bytes).
(** `http_route::path_modifier::Replace` *)
Inductive pb_replace := Pb_full (p : bytes) | Pb_prefix (p : bytes).
(** `http_route::RequestRedirect`.  Its scheme and its path are messages whose kinds may be missing. *)
Record pb_redirect := PbRedirect {
  pbd_scheme : option (option pb_scheme); pbd_host : bytes; pbd_path : option (option pb_replace);
  pbd_port : N; pbd_status : N }.
(** `outbound::http_route::filter::Kind` *)
Inductive pb_http_filter :=
| Pb_http_failure (f : pb_failure) | Pb_request_headers (m : pb_modifier) | Pb_response_headers (m : pb_modifier)
| Pb_redirect_to (r : pb_redirect).
(** `outbound::grpc_route::filter::Kind` *)
Inductive pb_grpc_filter := Pb_grpc_failure (f : pb_failure) | Pb_grpc_headers (m : pb_modifier).
(** `outbound::opaque_route::filter::Kind`, `outbound::tls_route::filter::Kind` *)
Inductive pb_tcp_filter := Pb_invalid (message : bytes) | Pb_forbidden.
(** `http_route::Timeouts` *)
Record pb_timeouts := PbTimeouts {
  pbt_request : option pb_duration; pbt_response : option pb_duration; pbt_idle : option pb_duration }.
(** `outbound::http_route::Retry` and `outbound::grpc_route::Retry`, which differ in their conditions *)
Record pb_retry (C : Type) := PbRetry {
  pby_max_retries : N; pby_max_request_bytes : N; pby_backoff : option pb_backoff;
  pby_timeout : option pb_duration; pby_conditions : option C }.
(** `outbound::grpc_route::retry::Conditions` *)
Record pb_codes := PbCodes {
  pbc_cancelled : bool; pbc_deadline : bool; pbc_internal : bool; pbc_exhausted : bool; pbc_unavailable : bool }.
(** `outbound::http_route::Rule`, `outbound::grpc_route::Rule` *)
Record pb_rule (M F C : Type) := PbRule {
  pbl_matches : list M; pbl_filters : list (option F);
  pbl_backends : option (option (pb_distribution (option F)));
  pbl_request_timeout : option pb_duration; pbl_timeouts : option pb_timeouts;
  pbl_retry : option (pb_retry C); pbl_allow_headers : bool }.
(** `outbound::HttpRoute`, `outbound::GrpcRoute` *)
Record pb_route (M F C : Type) := PbRoute {
  pbt_metadata : option pb_metadata; pbt_hosts : list (option pb_name_match); pbt_rules : list (pb_rule M F C) }.
(** `outbound::opaque_route::Rule`, `outbound::tls_route::Rule` *)
Record pb_tcp_rule := PbTcpRule {
  pbx_backends : option (option (pb_distribution (option pb_tcp_filter))); pbx_filters : list (option pb_tcp_filter) }.
(** `outbound::OpaqueRoute` and, with the names, `outbound::TlsRoute` *)
Record pb_tcp_route := PbTcpRoute {
  pbx_metadata : option pb_metadata; pbx_snis : list (option pb_name_match); pbx_rules : list pb_tcp_rule }.
(** The range of statuses of a retry's conditions *)
Definition pb_ranges := list (N * N).
(** `outbound::HttpRoute` *)
Definition pb_http_route := pb_route pb_http_match pb_http_filter pb_ranges.
(** `outbound::GrpcRoute` *)
Definition pb_grpc_route := pb_route pb_grpc_match pb_grpc_filter pb_codes.
(** `proxy_protocol::Http1` and the like; failure accrual is a message whose kind may be missing *)
Record pb_proto (R : Type) := PbProto { pbp_routes : list R; pbp_accrual : option (option pb_accrual) }.
(** `proxy_protocol::Kind` *)
Inductive pb_protocol :=
| Pb_detect (timeout : option pb_duration) (http1 http2 : option (pb_proto pb_http_route))
            (opaque : option (list pb_tcp_route))
| Pb_http1 (h : pb_proto pb_http_route)
| Pb_http2 (h : pb_proto pb_http_route)
| Pb_grpc (g : pb_proto pb_grpc_route)
| Pb_opaque (o : list pb_tcp_route)
| Pb_tls (t : list pb_tcp_route).
(** `OutboundPolicy` *)
Record pb_policy := PbPolicy { pb_parent : option pb_metadata; pb_proxy_protocol : option (option pb_protocol) }.
Arguments PbRouteBackend {F}. Arguments pbr_backend {F}. Arguments pbr_filters {F}.
Arguments Pb_empty {F}. Arguments Pb_random {F}. Arguments Pb_first {F}.
Arguments PbRetry {C}. Arguments pby_max_retries {C}. Arguments pby_max_request_bytes {C}.
Arguments pby_backoff {C}. Arguments pby_timeout {C}. Arguments pby_conditions {C}.
Arguments PbRule {M F C}. Arguments pbl_matches {M F C}. Arguments pbl_filters {M F C}.
Arguments pbl_backends {M F C}. Arguments pbl_request_timeout {M F C}. Arguments pbl_timeouts {M F C}.
Arguments pbl_retry {M F C}. Arguments pbl_allow_headers {M F C}.
Arguments PbRoute {M F C}. Arguments pbt_metadata {M F C}. Arguments pbt_hosts {M F C}. Arguments pbt_rules {M F C}.
Arguments PbProto {R}. Arguments pbp_routes {R}. Arguments pbp_accrual {R}.

(** ** Policies *)

(** lib.rs:46-59 *)
Inductive meta :=
| Default (name : bytes)
| Resource (group kind name namespace : bytes) (section : option bytes) (port : option N).
(** lib.rs:353-358 *)
Definition group (m : meta) : bytes := match m with Default _ => [] | Resource g _ _ _ _ _ => g end.
(** lib.rs:360-365 *)
Definition kind (m : meta) : bytes := match m with Default _ => bs "default"%string | Resource _ k _ _ _ _ => k end.
(** lib.rs:367-372 *)
Definition name (m : meta) : bytes := match m with Default n => n | Resource _ _ n _ _ _ => n end.
(** lib.rs:374-379 *)
Definition namespace (m : meta) : bytes := match m with Default _ => [] | Resource _ _ _ ns _ _ => ns end.
(** lib.rs:396-401 *)
Definition meta_eq (a b : meta) : bool :=
  beq (group a) (group b) && beq (kind a) (kind b) && beq (name a) (name b).
(** lib.rs:114-138 *)
Inductive load :=
| Peak_ewma (decay default_rtt : N)
| Penalty_peak_ewma (decay default_rtt penalty penalty_decay max_retry_after : N).
(** lib.rs:153-160 *)
Definition peak_ewma_rtt (l : load) : N * N :=
  match l with Peak_ewma d r => (d, r) | Penalty_peak_ewma d r _ _ _ => (d, r) end.
(** lib.rs:95-99 *)
Record queue := Queue { q_capacity : N; q_failfast : N }.
(** lib.rs:101-111 *)
Inductive dispatcher :=
| Forward (addr : sock) (md : metadata)
| Balance_p2c (l : load) (path : bytes)
| Fail (message : bytes).
(** lib.rs:88-93 *)
Record backend := Backend { b_meta : meta; b_queue : queue; b_dispatcher : dispatcher }.
(** lib.rs:81-85 *)
Record route_backend (F : Type) := RouteBackend { rb_filters : list F; rb_backend : backend }.
(** lib.rs:72-79 *)
Inductive distribution (F : Type) :=
| Empty
| First_available (l : list (route_backend F))
| Random_available (l : list (route_backend F * N)).
(** lib.rs:61-68 *)
Record route_policy (F P : Type) := RoutePolicy {
  rp_meta : meta; rp_filters : list F; rp_distribution : distribution F; rp_params : P }.
Arguments RouteBackend {F}. Arguments rb_filters {F}. Arguments rb_backend {F}.
Arguments Empty {F}. Arguments First_available {F}. Arguments Random_available {F}.
Arguments RoutePolicy {F P}. Arguments rp_meta {F P}. Arguments rp_filters {F P}.
Arguments rp_distribution {F P}. Arguments rp_params {F P}.
(** lib.rs:227-257; thresholds are basis points. *)
Inductive accrual :=
| Consecutive (max_failures : N) (b : EnvModel.backoff)
| Unified (threshold window min_requests max_consecutive : N) (b : EnvModel.backoff).
(** http/route/src/http/filter/inject_failure.rs:5-24: the distribution is its ratio *)
Record inject_failure := InjectFailure { if_status : N; if_message : bytes; if_numerator : N; if_denominator : N }.
(** http.rs:40-47 *)
Inductive http_filter :=
| Inject_failure (i : inject_failure) | Redirect_to (r : FilterModel.redirect)
| Request_headers (m : FilterModel.modify_header) | Response_headers (m : FilterModel.modify_header)
| Internal_error (message : bytes).
(** grpc.rs:31-36 *)
Inductive grpc_filter :=
| Grpc_failure (i : inject_failure) | Grpc_headers (m : FilterModel.modify_header) | Grpc_error (message : bytes).
(** opaq.rs:15-20, tls.rs:18-23 *)
Inductive tcp_filter := Forbidden | Invalid (message : bytes) | Tcp_error (message : bytes).
(** http.rs:61-66 *)
Record timeouts := Timeouts { to_response : option N; to_idle : option N; to_request : option N }.
(** http.rs:49-59, grpc.rs:38-48: the conditions are ranges of statuses or a set of codes *)
Record retry (C : Type) := Retry {
  rt_max_retries : N; rt_max_request_bytes : N; rt_conditions : C; rt_timeout : option N;
  rt_backoff : option EnvModel.backoff }.
Arguments Retry {C}. Arguments rt_max_retries {C}. Arguments rt_max_request_bytes {C}.
Arguments rt_conditions {C}. Arguments rt_timeout {C}. Arguments rt_backoff {C}.
(** http.rs:12-18, grpc.rs:12-18 *)
Record params (C : Type) := Params {
  pa_timeouts : timeouts; pa_retry : option (retry C); pa_allow_headers : bool; pa_export_labels : bool }.
Arguments Params {C}. Arguments pa_timeouts {C}. Arguments pa_retry {C}.
Arguments pa_allow_headers {C}. Arguments pa_export_labels {C}.
(** http.rs:8-10 *)
Definition http_policy := route_policy http_filter (params (list (N * N))).
(** grpc.rs:8-10 *)
Definition grpc_policy := route_policy grpc_filter (params (list N)).
(** opaq.rs:3 *)
Definition opaq_policy := route_policy tcp_filter unit.
(** tls.rs:5-11 *)
Definition tls_policy := route_policy tcp_filter bool.
(** http.rs:20-38, grpc.rs:21-29 *)
Record routes (R : Type) := Routes { rs_routes : list R; rs_accrual : option accrual }.
Arguments Routes {R}. Arguments rs_routes {R}. Arguments rs_accrual {R}.
(** http.rs:9 *)
Definition http_route := route match_request http_policy.
(** grpc.rs:9 *)
Definition grpc_route := route match_grpc grpc_policy.
(** lib.rs:28-44 *)
Inductive protocol :=
| Detect (timeout : N) (http1 http2 : routes http_route) (opaque : option opaq_policy)
| Http1 (h : routes http_route)
| Http2 (h : routes http_route)
| Grpc (g : routes grpc_route)
| Opaq (o : option opaq_policy)
| Tls (t : list (TlsRouteModel.tls_route tls_policy)).
(** lib.rs:15-20 *)
Record client_policy := ClientPolicy { cp_parent : meta; cp_protocol : protocol; cp_backends : list backend }.

(** http.rs:107-111 *)
Definition status_ranges_contain (ranges : list (N * N)) (status : N) : bool :=
  existsb (fun r => (fst r <=? status) && (status <=? snd r)) ranges.
(** grpc.rs:74-78 *)
Definition codes_contain (codes : list N) (code : N) : bool := existsb (N.eqb code) codes.

(** ** Thresholds: lib.rs:201-213 *)

(** `f64::round`, away from zero, `as u32`, which saturates *)
Definition round_u32 (f : WindowModel.f64) : N :=
  match f with
  | B754_zero _ => 0
  | B754_nan => 0
  | B754_infinity negative => if negative then 0 else WindowModel.u32max
  | B754_finite true _ _ _ => 0
  | B754_finite false m e _ =>
      N.min WindowModel.u32max
        (match e with
         | Z0 => Npos m
         | Zpos k => Npos m * 2 ^ Npos k
         | Zneg k => (2 * Npos m + 2 ^ Npos k) / (2 * 2 ^ Npos k)
         end)
  end.
(** `f64::clamp(0.0, 1.0)`, which keeps a NaN *)
Definition clamp (f : WindowModel.f64) : WindowModel.f64 :=
  let zero := WindowModel.f64_of_N 0 in
  let one := WindowModel.f64_of_N 1 in
  if Bltb f zero then zero else if Bltb one f then one else f.
(** lib.rs:201-203 *)
Definition from_fraction (f : WindowModel.f64) : N :=
  round_u32 (Bmult mode_NE (clamp f) (WindowModel.f64_of_N 10000)).

(** ** Equality *)

(** `PartialEq for Option` *)
Definition opt_eq {A} (f : A -> A -> bool) (a b : option A) : bool :=
  match a, b with Some x, Some y => f x y | None, None => true | _, _ => false end.
(** `PartialEq for Vec` *)
Definition list_eq {A} (f : A -> A -> bool) : list A -> list A -> bool :=
  fix go (a b : list A) : bool :=
    match a, b with
    | [], [] => true
    | x :: a, y :: b => f x y && go a b
    | _, _ => false
    end.
(** Equality of pairs *)
Definition pair_eq {A B} (f : A -> A -> bool) (g : B -> B -> bool) (a b : A * B) : bool :=
  f (fst a) (fst b) && g (snd a) (snd b).
(** `PartialEq for SocketAddr` *)
Definition sock_eq (a b : sock) : bool := list_eq N.eqb (s_ip a) (s_ip b) && (s_port a =? s_port b).
(** `PartialEq for tls::Id` *)
Definition id_eq (a b : id) : bool :=
  match a, b with Dns x, Dns y => beq x y | Uri x, Uri y => beq x y | _, _ => false end.
(** `PartialEq for ClientTls` *)
Definition client_tls_eq (a b : client_tls) : bool :=
  id_eq (t_id a) (t_id b) && beq (t_name a) (t_name b) && opt_eq (list_eq beq) (t_alpn a) (t_alpn b).
(** `PartialEq for ProtocolHint` *)
Definition hint_eq (a b : hint) : bool :=
  match a, b with
  | Unknown, Unknown => true | EndpointModel.Http2, EndpointModel.Http2 => true | Opaque, Opaque => true | _, _ => false
  end.
(** `PartialEq for FlowControl` *)
Definition flow_eq (a b : flow_control) : bool :=
  match a, b with
  | Adaptive, Adaptive => true
  | Fixed s c, Fixed t d => (s =? t) && (c =? d)
  | _, _ => false
  end.
(** `PartialEq for KeepAlive` *)
Definition keep_alive_eq (a b : keep_alive) : bool :=
  (k_interval a =? k_interval b) && (k_timeout a =? k_timeout b) && Bool.eqb (k_while_idle a) (k_while_idle b).
(** `PartialEq for ClientParams`, derived, http/h2/src/lib.rs:16 *)
Definition h2_eq (a b : h2_params) : bool :=
  opt_eq flow_eq (h_flow a) (h_flow b) && opt_eq keep_alive_eq (h_keep_alive a) (h_keep_alive b)
  && opt_eq N.eqb (h_reset_streams a) (h_reset_streams b) && opt_eq N.eqb (h_frame_size a) (h_frame_size b)
  && opt_eq N.eqb (h_send_buf_size a) (h_send_buf_size b).
(** `PartialEq for Metadata`, derived, proxy/api-resolve/src/metadata.rs:10.  Simplification: authorities are
    compared with regard to case. *)
Definition metadata_eq (a b : metadata) : bool :=
  list_eq (pair_eq beq beq) (m_labels a) (m_labels b) && (m_weight a =? m_weight b) && hint_eq (m_hint a) (m_hint b)
  && opt_eq N.eqb (m_port a) (m_port b) && opt_eq client_tls_eq (m_tls a) (m_tls b)
  && opt_eq beq (m_authority a) (m_authority b) && h2_eq (m_http2 a) (m_http2 b)
  && opt_eq Bool.eqb (m_zone_local a) (m_zone_local b).
(** `PartialEq for Load`, derived, lib.rs:113 *)
Definition load_eq (a b : load) : bool :=
  match a, b with
  | Peak_ewma d r, Peak_ewma d' r' => (d =? d') && (r =? r')
  | Penalty_peak_ewma d r p q m, Penalty_peak_ewma d' r' p' q' m' =>
      (d =? d') && (r =? r') && (p =? p') && (q =? q') && (m =? m')
  | _, _ => false
  end.
(** `PartialEq for BackendDispatcher`, derived, lib.rs:101 *)
Definition dispatcher_eq (a b : dispatcher) : bool :=
  match a, b with
  | Forward s m, Forward s' m' => sock_eq s s' && metadata_eq m m'
  | Balance_p2c l p, Balance_p2c l' p' => load_eq l l' && beq p p'
  | Fail m, Fail m' => beq m m'
  | _, _ => false
  end.
(** `PartialEq for Backend`, derived, lib.rs:88 *)
Definition backend_eq (a b : backend) : bool :=
  meta_eq (b_meta a) (b_meta b)
  && ((q_capacity (b_queue a) =? q_capacity (b_queue b)) && (q_failfast (b_queue a) =? q_failfast (b_queue b)))
  && dispatcher_eq (b_dispatcher a) (b_dispatcher b).

(** `AHashSet::insert`: an equal element stays *)
Definition insert (l : list backend) (b : backend) : list backend :=
  if existsb (backend_eq b) l then l else l ++ [b].

(** ** Conversions that need nothing of other crates *)

(** lib.rs:722-773 *)
Definition try_meta (pb : pb_metadata) : option meta :=
  match pb with
  | None => None
  | Some (Pb_default n) => Some (Default n)
  | Some (Pb_resource g k n ns section port) =>
      match g, k, n, ns with
      | [], _, _, _ | _, [], _, _ | _, _, [], _ | _, _, _, [] => None
      | _, _, _, _ =>
          Some (Resource g k n ns (match section with [] => None | _ => Some section end)
                         (p <- to_u16 port ;; non_zero p))
      end
  end.
(** `metadata.ok_or(..)?.try_into()?`, lib.rs:623-626, 838-843 and in each `try_route` *)
Definition need_meta (pb : option pb_metadata) : option meta := m <- pb ;; try_meta m.

(** lib.rs:1032-1051 *)
Definition try_backoff (pb : pb_backoff) : option EnvModel.backoff :=
  omin <- transpose duration (pbo_min pb) ;;
  min <- omin ;;
  omax <- transpose duration (pbo_max pb) ;;
  max <- omax ;;
  EnvModel.try_new min max (pbo_jitter pb).

(** lib.rs:953 *)
Definition MIN_SUCCESS_RATE_WINDOW : N := 10 * millis.
(** lib.rs:957 *)
Definition MAX_SUCCESS_RATE_MIN_REQUESTS : N := 1000000.

(** lib.rs:959-1030 *)
Definition try_accrual (pb : option pb_accrual) : option accrual :=
  match pb with
  | None => None
  | Some (Pb_consecutive max_failures backoff) =>
      o <- transpose try_backoff backoff ;;
      b <- o ;;
      Some (Consecutive max_failures b)
  | Some (Pb_unified threshold decay min_requests max_consecutive backoff) =>
      if negb (Bleb (WindowModel.f64_of_N 0) threshold && Bleb threshold (WindowModel.f64_of_N 1)) then None else
      let t := from_fraction threshold in
      o <- transpose duration decay ;;
      let window := match o with Some w => w | None => 10 * secs end in
      if negb (t =? 0) && (window <? MIN_SUCCESS_RATE_WINDOW) then None else
      if MAX_SUCCESS_RATE_MIN_REQUESTS <? min_requests then None else
      ob <- transpose try_backoff backoff ;;
      b <- ob ;;
      Some (Unified t window min_requests max_consecutive b)
  end.

(** http.rs:354-377 *)
Definition try_timeouts (pb : pb_timeouts) : option timeouts :=
  response <- transpose duration (pbt_response pb) ;;
  idle <- transpose duration (pbt_idle pb) ;;
  request <- transpose duration (pbt_request pb) ;;
  Some (Timeouts response idle request).

(** http.rs:382-395 *)
Definition try_range (r : N * N) : option (N * N) :=
  start <- to_u16 (fst r) ;;
  stop <- to_u16 (snd r) ;;
  if (start =? 0) || (stop =? 0) || (599 <? stop) || (stop <? start) then None else Some (start, stop).
(** http.rs:379-415 *)
Definition try_http_retry (pb : pb_retry pb_ranges) : option (retry (list (N * N))) :=
  cond <- pby_conditions pb ;;
  ranges <- collect try_range cond ;;
  max_retries <- to_u16 (pby_max_retries pb) ;;
  backoff <- transpose try_backoff (pby_backoff pb) ;;
  timeout <- transpose duration (pby_timeout pb) ;;
  Some (Retry max_retries (pby_max_request_bytes pb) ranges timeout backoff).
(** grpc.rs:308-336; the numbers are those of `tonic::Code`. *)
Definition try_grpc_retry (pb : pb_retry pb_codes) : option (retry (list N)) :=
  cond <- pby_conditions pb ;;
  let codes :=
    (if pbc_cancelled cond then [1] else []) ++ (if pbc_deadline cond then [4] else [])
    ++ (if pbc_exhausted cond then [8] else []) ++ (if pbc_internal cond then [13] else [])
    ++ (if pbc_unavailable cond then [14] else []) in
  backoff <- transpose try_backoff (pby_backoff pb) ;;
  timeout <- transpose duration (pby_timeout pb) ;;
  Some (Retry (pby_max_retries pb) (pby_max_request_bytes pb) codes timeout backoff).
(** http.rs:335-352 and 319-322, grpc.rs:289-306 and 273-276: the parameters of a rule *)
Definition try_params {C D} (try_retry : pb_retry C -> option (retry D)) (pb_timeouts : option pb_timeouts)
    (pb_retry : option (pb_retry C)) (allow export : bool) (request_timeout : option pb_duration) : option (params D) :=
  retry <- transpose try_retry pb_retry ;;
  o <- transpose try_timeouts pb_timeouts ;;
  let t := match o with Some t => t | None => Timeouts None None None end in
  legacy <- transpose duration request_timeout ;;
  Some (Params (Timeouts (to_response t) (to_idle t) (or (to_request t) legacy)) retry allow export).

(** http/route/src/http/match/host.rs:124-133 *)
Definition try_host (pb : option pb_name_match) : option match_host :=
  match pb with
  | None => None
  | Some (Pb_exact_name h) => Some (HExact h)
  | Some (Pb_suffix_name labels) => Some (HSuffix labels)
  end.
(** tls/route/src/sni.rs:113-122 *)
Definition try_sni (pb : option pb_name_match) : option TlsRouteModel.match_sni :=
  match pb with
  | None => None
  | Some (Pb_exact_name h) => Some (TlsRouteModel.SExact h)
  | Some (Pb_suffix_name labels) => Some (TlsRouteModel.SSuffix labels)
  end.
(** opaq.rs:188-200, tls.rs:234-246 *)
Definition try_tcp_filter (pb : option pb_tcp_filter) : option tcp_filter :=
  match pb with
  | None => None
  | Some (Pb_invalid message) => Some (Invalid message)
  | Some Pb_forbidden => Some Forbidden
  end.

(** lib.rs:817-824 *)
Definition need_duration (d : option pb_duration) : option N := x <- d ;; duration x.
(** lib.rs:829-838 *)
Definition duration_or (d : option pb_duration) (default : N) : option N :=
  match d with None => Some default | Some x => duration x end.
(** lib.rs:853-895 *)
Definition try_load (pb : pb_load) : option load :=
  match pb with
  | Pb_peak_ewma rtt decay =>
      r <- need_duration rtt ;;
      d <- need_duration decay ;;
      Some (Peak_ewma d r)
  | Pb_penalty_peak_ewma rtt decay penalty max_retry_after penalty_decay =>
      r <- duration_or rtt (30 * millis) ;;
      d <- duration_or decay (10 * secs) ;;
      p <- duration_or penalty (5 * secs) ;;
      q <- duration_or penalty_decay (10 * secs) ;;
      m <- duration_or max_retry_after (300 * secs) ;;
      Some (Penalty_peak_ewma d r p q m)
  end.
(** lib.rs:903-911 *)
Definition no_dispatcher (m : meta) : bytes :=
  bs "backend for "%string ++ kind m ++ [32] ++ namespace m ++ (match namespace m with [] => [] | _ => [47] end)
  ++ name m ++ bs " has no dispatcher"%string.

(** ** Conversions with what other crates do *)

(** `Regex::from_str`; `HeaderName::from_bytes`, which gives a name in lower case; `HeaderValue::from_bytes`;
    `http::Method` and `Scheme` of their messages; `Authority::from_str`; `Bernoulli::from_ratio` accepting; and
    what EndpointModel leaves open *)
Record lib := Lib {
  l_regex : bytes -> option regex;
  l_header_name : bytes -> option bytes;
  l_header_value : bytes -> option bytes;
  l_method : option ProfileModel.pb_method -> option bytes;
  l_scheme : option pb_scheme -> option bytes;
  l_authority : bytes -> option FilterModel.authority;
  l_ratio : N -> N -> bool;
  l_url : bytes -> option bytes;
  l_override : bytes -> option bytes }.

Section Conversions.
Variable L : lib.

(** http/route/src/http/match/path.rs:121-132 *)
Definition try_path (pb : option pb_path) : option match_path :=
  match pb with
  | None => None
  | Some (Pb_exact_path p) => Some (PExact p)
  | Some (Pb_prefix_path p) => Some (PPrefix p)
  | Some (Pb_regex_path re) => r <- l_regex L re ;; Some (PRegex r)
  end.
(** http/route/src/http/match/header.rs:83-93 *)
Definition try_header (pb : pb_named) : option match_header :=
  n <- l_header_name L (pbn_name pb) ;;
  v <- pbn_value pb ;;
  match v with
  | Pb_exact_value h => h <- l_header_value L h ;; Some (MHExact n h)
  | Pb_regex_value re => r <- l_regex L re ;; Some (MHRegex n r)
  end.
(** http/route/src/http/match/query_param.rs:78-92 *)
Definition try_query (pb : pb_named) : option match_query :=
  match pbn_name pb with
  | [] => None
  | n =>
      v <- pbn_value pb ;;
      match v with
      | Pb_exact_value h => Some (MQExact n h)
      | Pb_regex_value re => r <- l_regex L re ;; Some (MQRegex n r)
      end
  end.
(** http/route/src/http/match.rs:128-151 *)
Definition try_http_match (pb : pb_http_match) : option match_request :=
  path <- transpose try_path (pbm_path pb) ;;
  headers <- collect try_header (pbm_headers pb) ;;
  query <- collect try_query (pbm_query pb) ;;
  method <- transpose (l_method L) (pbm_method pb) ;;
  Some (MatchRequest path headers query method).
(** http/route/src/grpc/match.rs:121-151 *)
Definition try_grpc_match (pb : pb_grpc_match) : option match_grpc :=
  rpc <- pbg_rpc pb ;;
  headers <- collect try_header (pbg_headers pb) ;;
  let some s := match s with [] => None | _ => Some s end in
  Some (MatchGrpc (MatchRpc (some (fst rpc)) (some (snd rpc))) headers).

(** http/route/src/http/filter/inject_failure.rs:122-139, 66-70 *)
Definition try_ratio (pb : option (N * N)) : option (N * N) :=
  match pb with
  | None => Some (1, 1)
  | Some (n, d) => if l_ratio L n d then Some (n, d) else None
  end.
(** http/route/src/http/filter/inject_failure.rs:107-120 *)
Definition try_http_failure (pb : pb_failure) : option inject_failure :=
  u <- to_u16 (pbf_status pb) ;;
  status <- status_code u ;;
  r <- try_ratio (pbf_ratio pb) ;;
  Some (InjectFailure status (pbf_message pb) (fst r) (snd r)).
(** http/route/src/grpc/filter/inject_failure.rs:31-45 *)
Definition try_grpc_failure (pb : pb_failure) : option inject_failure :=
  code <- to_u16 (pbf_status pb) ;;
  r <- try_ratio (pbf_ratio pb) ;;
  Some (InjectFailure code (pbf_message pb) (fst r) (snd r)).
(** http/route/src/http/filter/modify_header.rs:75-88 *)
Definition to_pairs (hs : option (list (bytes * bytes))) : option (list (bytes * bytes)) :=
  collect (fun h => n <- l_header_name L (fst h) ;; v <- l_header_value L (snd h) ;; Some (n, v))
          (match hs with Some l => l | None => [] end).
(** http/route/src/http/filter/modify_header.rs:45-73 *)
Definition try_modifier (pb : pb_modifier) : option FilterModel.modify_header :=
  add <- to_pairs (pbh_add pb) ;;
  set <- to_pairs (pbh_set pb) ;;
  remove <- collect (l_header_name L) (pbh_remove pb) ;;
  Some (FilterModel.ModifyHeader add set remove).
(** http/route/src/http/filter/redirect.rs:227-284 *)
Definition try_redirect (pb : pb_redirect) : option FilterModel.redirect :=
  scheme <- transpose (l_scheme L) (pbd_scheme pb) ;;
  port <- to_u16 (pbd_port pb) ;;
  authority <-
    match pbd_host pb, non_zero port with
    | [], p => Some (option_map FilterModel.APort p)
    | h, Some p => a <- l_authority L (h ++ [58] ++ to_dec p) ;; Some (Some (FilterModel.AExact a))
    | h, None => a <- l_authority L h ;; Some (Some (FilterModel.AHost a))
    end ;;
  path <-
    match pbd_path pb with
    | Some (Some (Pb_full p)) => if starts_with [47] p then Some (Some (FilterModel.ReplaceFullPath p)) else None
    | Some (Some (Pb_prefix p)) => if starts_with [47] p then Some (Some (FilterModel.ReplacePrefixMatch p)) else None
    | _ => Some None
    end ;;
  u <- to_u16 (pbd_status pb) ;;
  status <- (if u =? 0 then Some None else s <- status_code u ;; Some (Some s)) ;;
  Some (FilterModel.Redirect scheme authority path status).
(** http.rs:471-488 *)
Definition try_http_filter (pb : option pb_http_filter) : option http_filter :=
  match pb with
  | None => None
  | Some (Pb_http_failure f) => i <- try_http_failure f ;; Some (Inject_failure i)
  | Some (Pb_request_headers m) => m <- try_modifier m ;; Some (Request_headers m)
  | Some (Pb_response_headers m) => m <- try_modifier m ;; Some (Response_headers m)
  | Some (Pb_redirect_to r) => r <- try_redirect r ;; Some (Redirect_to r)
  end.
(** grpc.rs:392-405 *)
Definition try_grpc_filter (pb : option pb_grpc_filter) : option grpc_filter :=
  match pb with
  | None => None
  | Some (Pb_grpc_failure f) => i <- try_grpc_failure f ;; Some (Grpc_failure i)
  | Some (Pb_grpc_headers m) => m <- try_modifier m ;; Some (Grpc_headers m)
  end.

(** lib.rs:844-912 *)
Definition try_dispatcher (m : meta) (pb : option pb_dispatcher) : option dispatcher :=
  match pb with
  | Some (Pb_balancer discovery load) =>
      kind <- discovery ;;
      path <- kind ;;
      l <- load ;;
      l <- try_load l ;;
      Some (Balance_p2c l path)
  | Some (Pb_forward ep) =>
      a <- to_addr_meta (l_url L) (l_override L) duration ep [] ;;
      Some (Forward (fst a) (snd a))
  | None => Some (Fail (no_dispatcher m))
  end.
(** lib.rs:812-934 *)
Definition try_backend (pb : pb_backend) : option backend :=
  m <- need_meta (pbb_metadata pb) ;;
  d <- try_dispatcher m (pbb_kind pb) ;;
  q <- pbb_queue pb ;;
  failfast <- need_duration (pbq_failfast q) ;;
  Some (Backend m (Queue (pbq_capacity q) failfast) d).

Section Route_backends.
Context {F G : Type}.
Variable try_filter : F -> option G.
(** lib.rs:792-810 with http.rs:459-469, grpc.rs:380-390, opaq.rs:178-186, tls.rs:224-232 *)
Definition try_route_backend (pb : pb_route_backend F) : option (route_backend G) :=
  b <- pbr_backend pb ;;
  b <- try_backend b ;;
  fs <- collect try_filter (pbr_filters pb) ;;
  Some (RouteBackend fs b).
(** http.rs:417-457, grpc.rs:338-378, opaq.rs:136-176, tls.rs:182-222 *)
Definition try_distribution (pb : option (pb_distribution F)) : option (distribution G) :=
  match pb with
  | None => None
  | Some Pb_empty => Some Empty
  | Some (Pb_random l) =>
      bs <- collect (fun wb => b <- snd wb ;; b <- try_route_backend b ;; Some (b, fst wb)) l ;;
      match bs with [] => None | _ => Some (Random_available bs) end
  | Some (Pb_first l) =>
      bs <- collect try_route_backend l ;;
      match bs with [] => None | _ => Some (First_available bs) end
  end.
End Route_backends.

Section Http_like.
Context {M M' F F' C C' : Type}.
Variable try_match : M -> option M'.
Variable try_filter : option F -> option F'.
Variable try_retry : pb_retry C -> option (retry C').
(** lib.rs:22-25 *)
Variable export : bool.
(** http.rs:289-333, grpc.rs:243-287 *)
Definition try_rule (m : meta) (pb : pb_rule M F C) : option (rule M' (route_policy F' (params C'))) :=
  matches <- collect try_match (pbl_matches pb) ;;
  filters <- collect try_filter (pbl_filters pb) ;;
  backends <- pbl_backends pb ;;
  distribution <- try_distribution try_filter backends ;;
  ps <- try_params try_retry (pbl_timeouts pb) (pbl_retry pb) (pbl_allow_headers pb) export (pbl_request_timeout pb) ;;
  Some (Rule matches (RoutePolicy m filters distribution ps)).
(** http.rs:262-287, grpc.rs:216-241 *)
Definition try_route (pb : pb_route M F C) : option (route M' (route_policy F' (params C'))) :=
  m <- need_meta (pbt_metadata pb) ;;
  hosts <- collect try_host (pbt_hosts pb) ;;
  rules <- collect (try_rule m) (pbt_rules pb) ;;
  Some (Route hosts rules).
(** http.rs:222-260, grpc.rs:188-205 *)
Definition try_routes (pb : pb_proto (pb_route M F C)) : option (routes (route M' (route_policy F' (params C')))) :=
  rts <- collect try_route (pbp_routes pb) ;;
  accrual <- transpose try_accrual (pbp_accrual pb) ;;
  Some (Routes rts accrual).
End Http_like.

(** opaq.rs:115-134, tls.rs:147-180 *)
Definition try_tcp_rule {P} (m : meta) (ps : P) (pb : pb_tcp_rule) : option (route_policy tcp_filter P) :=
  backends <- pbx_backends pb ;;
  distribution <- try_distribution try_tcp_filter backends ;;
  filters <- collect try_tcp_filter (pbx_filters pb) ;;
  Some (RoutePolicy m filters distribution ps).
(** opaq.rs:94-113 *)
Definition try_opaq_route (pb : pb_tcp_route) : option opaq_policy :=
  m <- need_meta (pbx_metadata pb) ;;
  match pbx_rules pb with
  | [r] => try_tcp_rule m tt r
  | _ => None
  end.
(** opaq.rs:82-92 *)
Definition try_opaq (pb : list pb_tcp_route) : option (option opaq_policy) :=
  match pb with
  | [] => Some None
  | [r] => p <- try_opaq_route r ;; Some (Some p)
  | _ => None
  end.
(** tls.rs:111-145 *)
Definition try_tls_route (export : bool) (pb : pb_tcp_route) : option (TlsRouteModel.tls_route tls_policy) :=
  m <- need_meta (pbx_metadata pb) ;;
  snis <- collect try_sni (pbx_snis pb) ;;
  match pbx_rules pb with
  | [r] => p <- try_tcp_rule m export r ;; Some (TlsRouteModel.TlsRoute snis p)
  | _ => None
  end.
(** http.rs:222-260 *)
Definition try_http : bool -> pb_proto pb_http_route -> option (routes http_route) :=
  try_routes try_http_match try_http_filter try_http_retry.
(** grpc.rs:188-205 *)
Definition try_grpc : bool -> pb_proto pb_grpc_route -> option (routes grpc_route) :=
  try_routes try_grpc_match try_grpc_filter try_grpc_retry.

(** lib.rs:634-685 *)
Definition try_protocol (export : bool) (pb : pb_protocol) : option protocol :=
  match pb with
  | Pb_detect timeout http1 http2 opaque =>
      timeout <- need_duration timeout ;;
      pb1 <- http1 ;;
      http1 <- try_http export pb1 ;;
      pb2 <- http2 ;;
      http2 <- try_http export pb2 ;;
      pbo <- opaque ;;
      opaque <- try_opaq pbo ;;
      Some (Detect timeout http1 http2 opaque)
  | Pb_http1 h => h <- try_http export h ;; Some (Http1 h)
  | Pb_http2 h => h <- try_http export h ;; Some (Http2 h)
  | Pb_opaque o => o <- try_opaq o ;; Some (Opaq o)
  | Pb_grpc g => g <- try_grpc export g ;; Some (Grpc g)
  | Pb_tls t => t <- collect (try_tls_route export) t ;; Some (Tls t)
  end.

(** lib.rs:775-788 *)
Definition distribution_backends {F} (d : distribution F) : list backend :=
  match d with
  | Empty => []
  | First_available l => map rb_backend l
  | Random_available l => map (fun wb => rb_backend (fst wb)) l
  end.
(** lib.rs:775-788: `set.extend(..)` *)
Definition fill {F P} (set : list backend) (p : route_policy F P) : list backend :=
  fold_left insert (distribution_backends (rp_distribution p)) set.
(** http.rs:214-220, grpc.rs:207-213 *)
Definition fill_route_backends {M F P} (rts : list (route M (route_policy F P))) (set : list backend) : list backend :=
  fold_left (fun set rt => fold_left (fun set ru => fill set (ru_policy ru)) (rt_rules rt) set) rts set.
(** opaq.rs:76-80 *)
Definition fill_opaq (o : option opaq_policy) (set : list backend) : list backend :=
  match o with Some p => fill set p | None => set end.
(** lib.rs:687-712 *)
Definition fill_protocol (p : protocol) : list backend :=
  match p with
  | Detect _ http1 http2 opaque =>
      fill_opaq opaque (fill_route_backends (rs_routes http2) (fill_route_backends (rs_routes http1) []))
  | Http1 h | Http2 h => fill_route_backends (rs_routes h) []
  | Opaq o => fill_opaq o []
  | Tls t => fold_left (fun set rt => fill set (TlsRouteModel.tr_policy rt)) t []
  | Grpc g => fill_route_backends (rs_routes g) []
  end.

(** lib.rs:616-720 *)
Definition try_from (export : bool) (pb : pb_policy) : option client_policy :=
  parent <- need_meta (pb_parent pb) ;;
  kind <- pb_proxy_protocol pb ;;
  pb <- kind ;;
  protocol <- try_protocol export pb ;;
  Some (ClientPolicy parent protocol (fill_protocol protocol)).
End Conversions.

(** lib.rs:262-316 *)
Definition invalid (timeout : N) : client_policy :=
  let m := Default (bs "invalid"%string) in
  let message := bs "invalid client policy configuration"%string in
  let http := Routes [Route [] [Rule [MatchRequest None [] [] None]
    (RoutePolicy m [Internal_error message] Empty (Params (Timeouts None None None) None false false))]] None in
  ClientPolicy m (Detect timeout http http (Some (RoutePolicy m [Tcp_error message] Empty tt))) [].
(** app/outbound/src/policy/api.rs:88-111: the policy that a message of the control plane is taken for *)
Definition received (L : lib) (timeout : N) (export : bool) (pb : pb_policy) : client_policy :=
  match try_from L export pb with Some p => p | None => invalid timeout end.

(** ** The routers that are built of a policy *)

(** app/outbound/src/http/concrete.rs:33-43.  In opaq/concrete.rs and tls/concrete.rs a balancer has only the two
    times of the load estimator. *)
Inductive dispatch :=
| Balance (addr : name_addr) (l : load)
| Forward_to (addr : sock) (md : metadata)
| Fail_with (message : bytes).
(** app/outbound/src/http/logical.rs:39-46, without the parent and the failure accrual, which all targets of a router
    share *)
Record concrete := Concrete { c_target : dispatch; c_authority : option bytes; c_backend_ref : meta }.

(** app/outbound/src/lib.rs:330-351 *)
Definition endpoint_ref (md : metadata) (port : N) : meta :=
  match assoc (bs "dst_namespace"%string) (m_labels md), assoc (bs "dst_pod"%string) (m_labels md) with
  | Some ns, Some pod => Resource (bs "core"%string) (bs "Pod"%string) pod ns None (Some port)
  | _, _ => Default (bs "unknown"%string)
  end.

(** http/logical/policy/router.rs:147-192; [None] is a panic.  The routers of opaque and of TLS connections
    (opaq/logical/router.rs:65-112, tls/logical/router.rs:69-117) keep only the two times of the load estimator, and
    have no authority: [tcp]. *)
Definition mk_dispatch (tcp : bool) (b : backend) : option concrete :=
  match b_dispatcher b with
  | Balance_p2c l path =>
      match name_addr_from_str path with
      | inl a =>
          Some (Concrete (Balance a (if tcp then let (d, r) := peak_ewma_rtt l in Peak_ewma d r else l))
                         (if tcp then None else Some (as_http_authority a)) (b_meta b))
      | inr _ => None
      end
  | Forward a md =>
      port <- non_zero (s_port a) ;;
      Some (Concrete (Forward_to a md) None (endpoint_ref md port))
  | Fail message => Some (Concrete (Fail_with message) None (Default (bs "fail"%string)))
  end.
(** The target of a route: http/logical/policy/router.rs:194-202 *)
Definition mk_route_backend {F} (tcp : bool) (rb : route_backend F) : option (list F * concrete) :=
  c <- mk_dispatch tcp (rb_backend rb) ;; Some (rb_filters rb, c).
(** http/logical/policy/router.rs:204-219, opaq/logical/router.rs:126-142, tls/logical/router.rs:131-147 *)
Definition mk_distribution {F} (tcp : bool) (d : distribution F) : option (DistributeModel.distribution (list F * concrete)) :=
  match d with
  | Empty => Some DistributeModel.Empty
  | First_available l =>
      keys <- collect (mk_route_backend tcp) l ;; Some (DistributeModel.first_available keys)
  | Random_available l =>
      keys <- collect (fun wb => k <- mk_route_backend tcp (fst wb) ;; Some (k, snd wb)) l ;;
      DistributeModel.random_route keys
  end.
(** http/logical/policy/router.rs:221-246, opaq/logical/router.rs:144-161, tls/logical/router.rs:149-168: what a route
    comes to *)
Record target (F P : Type) := Target {
  ta_meta : meta; ta_filters : list F; ta_distribution : DistributeModel.distribution (list F * concrete); ta_params : P }.
Arguments Target {F P}. Arguments ta_meta {F P}. Arguments ta_filters {F P}. Arguments ta_distribution {F P}.
Arguments ta_params {F P}.
(** `mk_policy`, at the same places *)
Definition mk_policy {F P} (tcp : bool) (p : route_policy F P) : option (target F P) :=
  d <- mk_distribution tcp (rp_distribution p) ;; Some (Target (rp_meta p) (rp_filters p) d (rp_params p)).
(** A router's routes and backends *)
Record router (R : Type) := Router { ro_routes : R; ro_backends : list concrete }.
Arguments Router {R}. Arguments ro_routes {R}. Arguments ro_backends {R}.
(** http/logical/policy/router.rs:248-270 *)
Definition mk_http_router {M F P} (rts : list (route M (route_policy F P))) (backends : list backend)
  : option (router (list (route M (target F P)))) :=
  rts <- collect (fun rt =>
           rules <- collect (fun ru => t <- mk_policy false (ru_policy ru) ;; Some (Rule (ru_matches ru) t)) (rt_rules rt) ;;
           Some (Route (rt_hosts rt) rules)) rts ;;
  bs <- collect (mk_dispatch false) backends ;;
  Some (Router rts bs).
(** opaq/logical/router.rs:163-175 *)
Definition mk_opaq_router (o : option opaq_policy) (backends : list backend)
  : option (router (option (target tcp_filter unit))) :=
  rt <- transpose (mk_policy true) o ;;
  bs <- collect (mk_dispatch true) backends ;;
  Some (Router rt bs).
(** tls/logical/router.rs:170-187 *)
Definition mk_tls_router (rts : list (TlsRouteModel.tls_route tls_policy)) (backends : list backend)
  : option (router (list (TlsRouteModel.tls_route (target tcp_filter bool)))) :=
  rts <- collect (fun rt => t <- mk_policy true (TlsRouteModel.tr_policy rt) ;;
                            Some (TlsRouteModel.TlsRoute (TlsRouteModel.tr_snis rt) t)) rts ;;
  bs <- collect (mk_dispatch true) backends ;;
  Some (Router rts bs).

(** `PartialEq for NameAddr` *)
Definition name_addr_eq (a b : name_addr) : bool := beq (na_name a) (na_name b) && (na_port a =? na_port b).
(** `PartialEq for Dispatch` *)
Definition dispatch_eq (a b : dispatch) : bool :=
  match a, b with
  | Balance x l, Balance y k => name_addr_eq x y && load_eq l k
  | Forward_to x m, Forward_to y n => sock_eq x y && metadata_eq m n
  | Fail_with m, Fail_with n => beq m n
  | _, _ => false
  end.
(** `PartialEq for Concrete`, app/outbound/src/http/logical.rs:38 *)
Definition concrete_eq (a b : concrete) : bool :=
  dispatch_eq (c_target a) (c_target b) && opt_eq beq (c_authority a) (c_authority b)
  && meta_eq (c_backend_ref a) (c_backend_ref b).
(** distribute/src/cache.rs:106-119: whether a router has the service of a target, without which it panics *)
Definition cached (backends : list concrete) (c : concrete) : bool := existsb (concrete_eq c) backends.
