(** What the messages of the control plane say (properties C95 - C99), independently of the functions that convert
    them. *)
From Coq Require Import String List NArith ZArith QArith Bool.
From Flocq Require Import IEEE754.BinarySingleNaN.
From Verif Require Import Bytes NameModel RouteModel RouteSpec.
From Verif Require Import EndpointModel ClientPolicyModel.
From Verif Require ProfileModel EnvModel WindowModel DistributeModel FilterModel TlsRouteModel.
Import ListNotations.
Open Scope N_scope.

(** ** Parts *)

(** A field that may be missing *)
Definition optionally {A B} (R : A -> B -> Prop) (a : option A) (b : option B) : Prop :=
  match a, b with
  | None, None => True
  | Some x, Some y => R x y
  | _, _ => False
  end.
(** A field that must be there *)
Definition required {A B} (R : A -> B -> Prop) (a : option A) (b : B) : Prop := exists x, a = Some x /\ R x b.
(** A field that has a default *)
Definition defaulting {A B} (R : A -> B -> Prop) (default : B) (a : option A) (b : B) : Prop :=
  match a with None => b = default | Some x => R x b end.

(** Seconds and nanoseconds, as nanoseconds *)
Definition duration_says (d : pb_duration) (t : N) : Prop := (fst d * 1000000000 + snd d = Z.of_N t)%Z.

Definition meta_says (pb : pb_metadata) (m : meta) : Prop :=
  match pb with
  | None => False
  | Some (Pb_default n) => m = Default n
  | Some (Pb_resource g k n ns section port) =>
      g <> [] /\ k <> [] /\ n <> [] /\ ns <> [] /\
      exists s p, m = Resource g k n ns s p /\
        (s = None /\ section = [] \/ s = Some section /\ section <> []) /\
        (p = Some port /\ 0 < port < 65536 \/ p = None /\ (port = 0 \/ 65536 <= port))
  end.

Definition backoff_says (pb : pb_backoff) (b : EnvModel.backoff) : Prop :=
  required duration_says (pbo_min pb) (EnvModel.bo_min b) /\
  required duration_says (pbo_max pb) (EnvModel.bo_max b) /\
  EnvModel.bo_min b <= EnvModel.bo_max b /\ 0 < EnvModel.bo_max b /\
  EnvModel.bo_jitter b = pbo_jitter pb /\ exists q, pbo_jitter pb = EnvModel.Fin q /\ (0 <= q <= 100)%Q.

(** ** Matches *)

Section Says.
Variable L : lib.

Definition path_says (pb : option pb_path) (path : bytes) : Prop :=
  match pb with
  | None => False
  | Some (Pb_exact_path p) => path = p
  | Some (Pb_prefix_path p) => prefix_accepts p path
  | Some (Pb_regex_path re) => exists r, l_regex L re = Some r /\ regex_spans r path
  end.
Definition header_says (pb : pb_named) (hs : list (bytes * bytes)) : Prop :=
  exists n, l_header_name L (pbn_name pb) = Some n /\
  match pbn_value pb with
  | None => False
  | Some (Pb_exact_value v) => exists w, l_header_value L v = Some w /\ In (n, w) hs
  | Some (Pb_regex_value re) =>
      exists r v, l_regex L re = Some r /\ In (n, v) hs /\ printable v /\ regex_spans r v
  end.
Definition query_says (pb : pb_named) (q : option (list (bytes * bytes))) : Prop :=
  exists qs, q = Some qs /\
  match pbn_value pb with
  | None => False
  | Some (Pb_exact_value v) => In (pbn_name pb, v) qs
  | Some (Pb_regex_value re) => exists r v, l_regex L re = Some r /\ In (pbn_name pb, v) qs /\ regex_spans r v
  end.
(** Whether a request is meant by a match of a message *)
Definition http_says (pb : pb_http_match) (req : request) : Prop :=
  (forall m, pbm_method pb = Some m -> l_method L m = Some (rq_method req)) /\
  (forall p, pbm_path pb = Some p -> path_says p (rq_path req)) /\
  (forall h, In h (pbm_headers pb) -> header_says h (rq_headers req)) /\
  (forall q, In q (pbm_query pb) -> query_says q (rq_query req)).
Definition grpc_says (pb : pb_grpc_match) (req : request) : Prop :=
  rq_method req = POST /\
  (exists service method s m, rpc_path (rq_path req) service method /\ pbg_rpc pb = Some (s, m) /\
     (s = [] \/ service = s) /\ (m = [] \/ method = m)) /\
  (forall h, In h (pbg_headers pb) -> header_says h (rq_headers req)).

(** What matches are ranked by, most significant first *)
Definition http_weight (pb : pb_http_match) (req : request) (r : list N) : Prop :=
  exists w,
    match pbm_path pb with
    | None => w = 1
    | Some None => False
    | Some (Some (Pb_exact_path p)) => w = len p
    | Some (Some (Pb_regex_path _)) => w = len (rq_path req)
    | Some (Some (Pb_prefix_path p)) =>
        (p = [47] /\ w = 1) \/ (p <> [47] /\ exists q, strips_slashes p q /\ w = len q)
    end /\
    r = [w; N.of_nat (List.length (pbm_headers pb)); N.of_nat (List.length (pbm_query pb));
         match pbm_method pb with Some _ => 1 | None => 0 end].
Definition grpc_weight (pb : pb_grpc_match) (req : request) (r : list N) : Prop :=
  exists s m, pbg_rpc pb = Some (s, m) /\ r = [len s; len m; N.of_nat (List.length (pbg_headers pb))].

(** The hosts of a route of a message *)
Definition hosts_of (hs : list (option pb_name_match)) : list match_host :=
  flat_map (fun h =>
    match h with
    | None => []
    | Some (Pb_exact_name n) => [HExact n]
    | Some (Pb_suffix_name labels) => [HSuffix labels]
    end) hs.
(** The routes of a message; what is found is a rule and the metadata of its route. *)
Definition routes_of {M F C} (rts : list (pb_route M F C)) : list (route M (option pb_metadata * pb_rule M F C)) :=
  map (fun rt => Route (hosts_of (pbt_hosts rt))
                       (map (fun ru => Rule (pbl_matches ru) (pbt_metadata rt, ru)) (pbt_rules rt))) rts.

(** ** Filters *)

Definition ratio_says (pb : option (N * N)) (i : inject_failure) : Prop :=
  match pb with
  | None => if_numerator i = 1 /\ if_denominator i = 1
  | Some (n, d) => if_numerator i = n /\ if_denominator i = d /\ l_ratio L n d = true
  end.
Definition pair_says (h nv : bytes * bytes) : Prop :=
  l_header_name L (fst h) = Some (fst nv) /\ l_header_value L (snd h) = Some (snd nv).
Definition pairs_say (hs : option (list (bytes * bytes))) (l : list (bytes * bytes)) : Prop :=
  match hs with None => l = [] | Some hs => Forall2 pair_says hs l end.
Definition modifier_says (pb : pb_modifier) (m : FilterModel.modify_header) : Prop :=
  pairs_say (pbh_add pb) (FilterModel.mh_add m) /\ pairs_say (pbh_set pb) (FilterModel.mh_set m) /\
  Forall2 (fun h n => l_header_name L h = Some n) (pbh_remove pb) (FilterModel.mh_remove m).
Definition redirect_says (pb : pb_redirect) (r : FilterModel.redirect) : Prop :=
  optionally (fun s t => l_scheme L s = Some t) (pbd_scheme pb) (FilterModel.rd_scheme r) /\
  pbd_port pb < 65536 /\
  match FilterModel.rd_authority r with
  | None => pbd_host pb = [] /\ pbd_port pb = 0
  | Some (FilterModel.APort p) => pbd_host pb = [] /\ pbd_port pb = p /\ p <> 0
  | Some (FilterModel.AHost a) => pbd_host pb <> [] /\ pbd_port pb = 0 /\ l_authority L (pbd_host pb) = Some a
  | Some (FilterModel.AExact a) =>
      pbd_host pb <> [] /\ pbd_port pb <> 0 /\ l_authority L (pbd_host pb ++ [58] ++ to_dec (pbd_port pb)) = Some a
  end /\
  match FilterModel.rd_path r with
  | None => pbd_path pb = None \/ pbd_path pb = Some None
  | Some (FilterModel.ReplaceFullPath p) => pbd_path pb = Some (Some (Pb_full p)) /\ exists t, p = 47 :: t
  | Some (FilterModel.ReplacePrefixMatch p) => pbd_path pb = Some (Some (Pb_prefix p)) /\ exists t, p = 47 :: t
  end /\
  match FilterModel.rd_status r with
  | None => pbd_status pb = 0
  | Some s => pbd_status pb = s /\ 100 <= s < 1000
  end.
Definition http_filter_says (pb : option pb_http_filter) (f : http_filter) : Prop :=
  match pb, f with
  | Some (Pb_http_failure x), Inject_failure i =>
      if_status i = pbf_status x /\ 100 <= if_status i < 1000 /\ if_message i = pbf_message x /\ ratio_says (pbf_ratio x) i
  | Some (Pb_request_headers x), Request_headers m => modifier_says x m
  | Some (Pb_response_headers x), Response_headers m => modifier_says x m
  | Some (Pb_redirect_to x), Redirect_to r => redirect_says x r
  | _, _ => False
  end.
Definition grpc_filter_says (pb : option pb_grpc_filter) (f : grpc_filter) : Prop :=
  match pb, f with
  | Some (Pb_grpc_failure x), Grpc_failure i =>
      if_status i = pbf_status x /\ if_status i < 65536 /\ if_message i = pbf_message x /\ ratio_says (pbf_ratio x) i
  | Some (Pb_grpc_headers x), Grpc_headers m => modifier_says x m
  | _, _ => False
  end.
Definition tcp_filter_says (pb : option pb_tcp_filter) (f : tcp_filter) : Prop :=
  match pb, f with
  | Some (Pb_invalid x), Invalid y => x = y
  | Some Pb_forbidden, Forbidden => True
  | _, _ => False
  end.

(** ** Backends *)

Definition load_says (pb : pb_load) (l : load) : Prop :=
  match pb, l with
  | Pb_peak_ewma rtt decay, Peak_ewma d r => required duration_says rtt r /\ required duration_says decay d
  | Pb_penalty_peak_ewma rtt decay penalty max_retry_after penalty_decay, Penalty_peak_ewma d r p q m =>
      defaulting duration_says 30000000 rtt r /\ defaulting duration_says 10000000000 decay d /\
      defaulting duration_says 5000000000 penalty p /\ defaulting duration_says 10000000000 penalty_decay q /\
      defaulting duration_says 300000000000 max_retry_after m
  | _, _ => False
  end.
Definition dispatcher_says (m : meta) (pb : option pb_dispatcher) (d : dispatcher) : Prop :=
  match pb, d with
  | Some (Pb_balancer discovery l), Balance_p2c l' path => discovery = Some (Some path) /\ required load_says l l'
  | Some (Pb_forward ep), Forward a md =>
      to_addr_meta (l_url L) (l_override L) duration ep [] = Some (a, md)
  | None, Fail message =>
      message = bs "backend for "%string ++ kind m ++ bs " "%string ++ namespace m ++
                (match namespace m with [] => [] | _ => bs "/"%string end) ++ name m ++ bs " has no dispatcher"%string
  | _, _ => False
  end.
Definition backend_says (pb : pb_backend) (b : backend) : Prop :=
  required meta_says (pbb_metadata pb) (b_meta b) /\ dispatcher_says (b_meta b) (pbb_kind pb) (b_dispatcher b) /\
  required (fun q q' => q_capacity q' = pbq_capacity q /\ required duration_says (pbq_failfast q) (q_failfast q'))
    (pbb_queue pb) (b_queue b).

Section Distributions.
Context {F G : Type}.
Variable filter_says : F -> G -> Prop.
Definition route_backend_says (pb : pb_route_backend F) (b : route_backend G) : Prop :=
  required backend_says (pbr_backend pb) (rb_backend b) /\ Forall2 filter_says (pbr_filters pb) (rb_filters b).
Definition distribution_says (pb : option (pb_distribution F)) (d : distribution G) : Prop :=
  match pb, d with
  | Some Pb_empty, Empty => True
  | Some (Pb_first l), First_available l' => l <> [] /\ Forall2 route_backend_says l l'
  | Some (Pb_random l), Random_available l' =>
      l <> [] /\ Forall2 (fun wb bw => fst wb = snd bw /\ required route_backend_says (snd wb) (fst bw)) l l'
  | _, _ => False
  end.
End Distributions.

(** ** Parameters *)

Definition http_retry_says (pb : pb_retry pb_ranges) (r : retry (list (N * N))) : Prop :=
  rt_max_retries r = pby_max_retries pb /\ rt_max_retries r < 65536 /\
  rt_max_request_bytes r = pby_max_request_bytes pb /\
  pby_conditions pb = Some (rt_conditions r) /\
  (forall a b, In (a, b) (rt_conditions r) -> 1 <= a <= b /\ b <= 599) /\
  optionally duration_says (pby_timeout pb) (rt_timeout r) /\ optionally backoff_says (pby_backoff pb) (rt_backoff r).
(** The codes that are retried, in ascending order *)
Definition codes_of (c : pb_codes) : list N :=
  filter (fun code =>
    match code with
    | 1 => pbc_cancelled c | 4 => pbc_deadline c | 8 => pbc_exhausted c | 13 => pbc_internal c
    | _ => pbc_unavailable c
    end) [1; 4; 8; 13; 14].
Definition grpc_retry_says (pb : pb_retry pb_codes) (r : retry (list N)) : Prop :=
  rt_max_retries r = pby_max_retries pb /\ rt_max_request_bytes r = pby_max_request_bytes pb /\
  required (fun c l => l = codes_of c) (pby_conditions pb) (rt_conditions r) /\
  optionally duration_says (pby_timeout pb) (rt_timeout r) /\ optionally backoff_says (pby_backoff pb) (rt_backoff r).

(** The timeouts of a rule; its old field for the timeout of requests, which must be valid, counts when the new one is
    missing. *)
Definition timeouts_say (pb : option pb_timeouts) (old : option pb_duration) (t : timeouts) : Prop :=
  let field f := match pb with Some p => f p | None => None end in
  optionally duration_says (field pbt_response) (to_response t) /\
  optionally duration_says (field pbt_idle) (to_idle t) /\
  (forall d, old = Some d -> exists n, duration_says d n) /\
  match field pbt_request with
  | Some d => exists n, duration_says d n /\ to_request t = Some n
  | None => optionally duration_says old (to_request t)
  end.

(** ** Rules, routes, policies *)

(** That a match is acceptable *)
Definition path_valid (pb : option pb_path) (p : match_path) : Prop :=
  match pb, p with
  | Some (Pb_exact_path x), PExact y => x = y
  | Some (Pb_prefix_path x), PPrefix y => x = y
  | Some (Pb_regex_path re), PRegex r => l_regex L re = Some r
  | _, _ => False
  end.
Definition header_valid (pb : pb_named) (h : match_header) : Prop :=
  match pbn_value pb, h with
  | Some (Pb_exact_value v), MHExact n w => l_header_name L (pbn_name pb) = Some n /\ l_header_value L v = Some w
  | Some (Pb_regex_value re), MHRegex n r => l_header_name L (pbn_name pb) = Some n /\ l_regex L re = Some r
  | _, _ => False
  end.
Definition query_valid (pb : pb_named) (q : match_query) : Prop :=
  pbn_name pb <> [] /\
  match pbn_value pb, q with
  | Some (Pb_exact_value v), MQExact n w => n = pbn_name pb /\ w = v
  | Some (Pb_regex_value re), MQRegex n r => n = pbn_name pb /\ l_regex L re = Some r
  | _, _ => False
  end.
Definition http_match_valid (pb : pb_http_match) (m : match_request) : Prop :=
  optionally path_valid (pbm_path pb) (mr_path m) /\
  Forall2 header_valid (pbm_headers pb) (mr_headers m) /\ Forall2 query_valid (pbm_query pb) (mr_query m) /\
  optionally (fun x y => l_method L x = Some y) (pbm_method pb) (mr_method m).
Definition grpc_match_valid (pb : pb_grpc_match) (m : match_grpc) : Prop :=
  required (fun sm r =>
      (fst sm = [] /\ rpc_service r = None \/ fst sm <> [] /\ rpc_service r = Some (fst sm)) /\
      (snd sm = [] /\ rpc_method r = None \/ snd sm <> [] /\ rpc_method r = Some (snd sm)))
    (pbg_rpc pb) (mg_rpc m) /\
  Forall2 header_valid (pbg_headers pb) (mg_headers m).
Definition host_valid (pb : option pb_name_match) (h : match_host) : Prop :=
  match pb, h with
  | Some (Pb_exact_name x), HExact y => x = y
  | Some (Pb_suffix_name x), HSuffix y => x = y
  | _, _ => False
  end.
Definition sni_valid (pb : option pb_name_match) (h : TlsRouteModel.match_sni) : Prop :=
  match pb, h with
  | Some (Pb_exact_name x), TlsRouteModel.SExact y => x = y
  | Some (Pb_suffix_name x), TlsRouteModel.SSuffix y => x = y
  | _, _ => False
  end.

Section Rules.
Context {M M' F F' C C' : Type}.
Variable match_valid : M -> M' -> Prop.
Variable filter_says : option F -> F' -> Prop.
Variable retry_says : pb_retry C -> retry C' -> Prop.
Variable export : bool.
(** The policy of a rule *)
Definition policy_says (md : option pb_metadata) (pb : pb_rule M F C) (p : route_policy F' (params C')) : Prop :=
  required meta_says md (rp_meta p) /\
  Forall2 filter_says (pbl_filters pb) (rp_filters p) /\
  required (distribution_says filter_says) (pbl_backends pb) (rp_distribution p) /\
  timeouts_say (pbl_timeouts pb) (pbl_request_timeout pb) (pa_timeouts (rp_params p)) /\
  optionally retry_says (pbl_retry pb) (pa_retry (rp_params p)) /\
  pa_allow_headers (rp_params p) = pbl_allow_headers pb /\ pa_export_labels (rp_params p) = export.
Definition rule_says (md : option pb_metadata) (pb : pb_rule M F C) (r : rule M' (route_policy F' (params C'))) : Prop :=
  Forall2 match_valid (pbl_matches pb) (ru_matches r) /\ policy_says md pb (ru_policy r).
Definition route_says (pb : pb_route M F C) (rt : route M' (route_policy F' (params C'))) : Prop :=
  (exists m, required meta_says (pbt_metadata pb) m) /\
  Forall2 host_valid (pbt_hosts pb) (rt_hosts rt) /\ Forall2 (rule_says (pbt_metadata pb)) (pbt_rules pb) (rt_rules rt).
End Rules.

(** A threshold, as basis points; C99 says what [from_fraction] is. *)
Definition accrual_says (pb : option pb_accrual) (a : accrual) : Prop :=
  match pb, a with
  | Some (Pb_consecutive n b), Consecutive n' b' => n = n' /\ required backoff_says b b'
  | Some (Pb_unified x decay min_requests n b), Unified t w min_requests' n' b' =>
      Bleb (WindowModel.f64_of_N 0) x = true /\ Bleb x (WindowModel.f64_of_N 1) = true /\ t = from_fraction x /\
      defaulting duration_says 10000000000 decay w /\ (t = 0 \/ 10000000 <= w) /\
      min_requests = min_requests' /\ min_requests <= 1000000 /\ n = n' /\ required backoff_says b b'
  | _, _ => False
  end.
Definition http_route_says (export : bool) : pb_http_route -> http_route -> Prop :=
  route_says http_match_valid http_filter_says http_retry_says export.
Definition grpc_route_says (export : bool) : pb_grpc_route -> grpc_route -> Prop :=
  route_says grpc_match_valid grpc_filter_says grpc_retry_says export.
Definition routes_say {R R'} (route_says : R -> R' -> Prop) (pb : pb_proto R) (r : routes R') : Prop :=
  Forall2 route_says (pbp_routes pb) (rs_routes r) /\ optionally accrual_says (pbp_accrual pb) (rs_accrual r).

(** The policy of an opaque or a TLS route, which has exactly one rule *)
Definition tcp_route_says {P} (ps : P) (pb : pb_tcp_route) (p : route_policy tcp_filter P) : Prop :=
  required meta_says (pbx_metadata pb) (rp_meta p) /\
  exists r, pbx_rules pb = [r] /\ required (distribution_says tcp_filter_says) (pbx_backends r) (rp_distribution p) /\
    Forall2 tcp_filter_says (pbx_filters r) (rp_filters p) /\ rp_params p = ps.
(** There is at most one opaque route. *)
Definition opaq_says (pb : list pb_tcp_route) (o : option opaq_policy) : Prop :=
  match o with
  | None => pb = []
  | Some p => exists r, pb = [r] /\ tcp_route_says tt r p
  end.
Definition tls_route_says (export : bool) (pb : pb_tcp_route) (rt : TlsRouteModel.tls_route tls_policy) : Prop :=
  Forall2 sni_valid (pbx_snis pb) (TlsRouteModel.tr_snis rt) /\ tcp_route_says export pb (TlsRouteModel.tr_policy rt).
Definition protocol_says (export : bool) (pb : pb_protocol) (p : protocol) : Prop :=
  match pb, p with
  | Pb_detect timeout http1 http2 opaque, Detect t h1 h2 o =>
      required duration_says timeout t /\ required (routes_say (http_route_says export)) http1 h1 /\
      required (routes_say (http_route_says export)) http2 h2 /\ required opaq_says opaque o
  | Pb_http1 pb, Http1 h => routes_say (http_route_says export) pb h
  | Pb_http2 pb, Http2 h => routes_say (http_route_says export) pb h
  | Pb_grpc pb, Grpc g => routes_say (grpc_route_says export) pb g
  | Pb_opaque pb, Opaq o => opaq_says pb o
  | Pb_tls pb, Tls t => Forall2 (tls_route_says export) pb t
  | _, _ => False
  end.
Definition client_policy_says (export : bool) (pb : pb_policy) (parent : meta) (p : protocol) : Prop :=
  required meta_says (pb_parent pb) parent /\ exists k, pb_proxy_protocol pb = Some (Some k) /\ protocol_says export k p.
End Says.

(** ** Lookups *)

(** The HTTP routes of a message and of the policy, by the version that a client speaks, if that is known *)
Inductive http_part (two : bool) : pb_protocol -> protocol -> pb_proto pb_http_route -> routes http_route -> Prop :=
| Part_detect timeout h1 h2 o timeout' h1' h2' o' pb :
    (if two then h2 else h1) = Some pb ->
    http_part two (Pb_detect timeout h1 h2 o) (Detect timeout' h1' h2' o') pb (if two then h2' else h1')
| Part_http1 pb h : two = false -> http_part two (Pb_http1 pb) (Http1 h) pb h
| Part_http2 pb h : two = true -> http_part two (Pb_http2 pb) (Http2 h) pb h.

(** The routes of TLS connections of a message *)
Definition snis_of (hs : list (option pb_name_match)) : list TlsRouteModel.match_sni :=
  flat_map (fun h =>
    match h with
    | None => []
    | Some (Pb_exact_name n) => [TlsRouteModel.SExact n]
    | Some (Pb_suffix_name labels) => [TlsRouteModel.SSuffix labels]
    end) hs.
Definition tls_routes_of (rts : list pb_tcp_route) : list (TlsRouteModel.tls_route pb_tcp_route) :=
  map (fun rt => TlsRouteModel.TlsRoute (snis_of (pbx_snis rt)) rt) rts.

(** ** Backends and routers *)

(** The backends of the routes of a policy *)
Definition in_distribution {F} (b : backend) (d : distribution F) : Prop :=
  match d with
  | Empty => False
  | First_available l => exists rb, In rb l /\ rb_backend rb = b
  | Random_available l => exists rb w, In (rb, w) l /\ rb_backend rb = b
  end.
Definition in_policy {F P} (b : backend) (p : route_policy F P) : Prop := in_distribution b (rp_distribution p).
Definition in_http_routes {M F P} (b : backend) (rts : list (route M (route_policy F P))) : Prop :=
  exists rt ru, In rt rts /\ In ru (rt_rules rt) /\ in_policy b (ru_policy ru).
Definition in_opaq (b : backend) (o : option opaq_policy) : Prop := exists p, o = Some p /\ in_policy b p.
Definition in_protocol (b : backend) (p : protocol) : Prop :=
  match p with
  | Detect _ h1 h2 o => in_http_routes b (rs_routes h1) \/ in_http_routes b (rs_routes h2) \/ in_opaq b o
  | Http1 h | Http2 h => in_http_routes b (rs_routes h)
  | Grpc g => in_http_routes b (rs_routes g)
  | Opaq o => in_opaq b o
  | Tls t => exists rt, In rt t /\ in_policy b (TlsRouteModel.tr_policy rt)
  end.
(** Backends that the proxy takes for the same: of the same group, kind and name, queue and dispatcher *)
Definition same_backend (a b : backend) : Prop :=
  group (b_meta a) = group (b_meta b) /\ kind (b_meta a) = kind (b_meta b) /\ name (b_meta a) = name (b_meta b) /\
  b_queue a = b_queue b /\ b_dispatcher a = b_dispatcher b.

(** That a backend can be used: a balancer has the address of a name, an endpoint a port *)
Definition usable (b : backend) : Prop :=
  match b_dispatcher b with
  | Balance_p2c _ path => exists a, name_addr_from_str path = inl a
  | Forward a _ => s_port a <> 0
  | Fail _ => True
  end.
(** That a distribution can be used: of several weights, some are not 0 and their sum is less than 2^32 *)
Definition weights_valid {F} (d : distribution F) : Prop :=
  match d with
  | Random_available l =>
      (List.length l < 2)%nat \/
      (exists rb w, In (rb, w) l /\ w <> 0) /\ DistributeModel.sum (map snd l) < 4294967296
  | _ => True
  end.
Definition policy_usable {F P} (p : route_policy F P) : Prop :=
  weights_valid (rp_distribution p) /\ forall b, in_policy b p -> usable b.

(** That all policies of a protocol can be used *)
Definition all_http {M F P} (rts : list (route M (route_policy F P))) : Prop :=
  forall rt ru, In rt rts -> In ru (rt_rules rt) -> policy_usable (ru_policy ru).
Definition protocol_usable (p : protocol) : Prop :=
  match p with
  | Detect _ h1 h2 o => all_http (rs_routes h1) /\ all_http (rs_routes h2) /\ forall p, o = Some p -> policy_usable p
  | Http1 h | Http2 h => all_http (rs_routes h)
  | Grpc g => all_http (rs_routes g)
  | Opaq o => forall p, o = Some p -> policy_usable p
  | Tls t => forall rt, In rt t -> policy_usable (TlsRouteModel.tr_policy rt)
  end.
(** That none of the routers of a policy panics when it is built *)
Definition routers_build (cp : client_policy) : Prop :=
  let bs := cp_backends cp in
  match cp_protocol cp with
  | Detect _ h1 h2 o =>
      mk_http_router (rs_routes h1) bs <> None /\ mk_http_router (rs_routes h2) bs <> None /\ mk_opaq_router o bs <> None
  | Http1 h | Http2 h => mk_http_router (rs_routes h) bs <> None
  | Grpc g => mk_http_router (rs_routes g) bs <> None
  | Opaq o => mk_opaq_router o bs <> None
  | Tls t => mk_tls_router t bs <> None
  end.

(** What is sent to a backend's dispatcher.  Opaque and TLS connections ([tcp]) are balanced by round-trip times
    alone. *)
Definition dispatched (tcp : bool) (b : backend) (c : concrete) : Prop :=
  match b_dispatcher b with
  | Balance_p2c l path =>
      exists a, name_addr_from_str path = inl a /\ c_backend_ref c = b_meta b /\
        (if tcp then
           c_authority c = None /\
           exists decay rtt, c_target c = Balance a (Peak_ewma decay rtt) /\
             (l = Peak_ewma decay rtt \/ exists p q m, l = Penalty_peak_ewma decay rtt p q m)
         else c_authority c = Some (as_http_authority a) /\ c_target c = Balance a l)
  | Forward a md => c_target c = Forward_to a md /\ c_authority c = None /\ s_port a <> 0
  | Fail message => c_target c = Fail_with message /\ c_authority c = None
  end.
Definition routed {F} (tcp : bool) (rb : route_backend F) (k : list F * concrete) : Prop :=
  fst k = rb_filters rb /\ dispatched tcp (rb_backend rb) (snd k).
(** What a distribution becomes: one of a single backend needs no weights. *)
Definition distributed {F} (tcp : bool) (d : distribution F) (d' : DistributeModel.distribution (list F * concrete)) : Prop :=
  match d with
  | Empty | First_available [] => d' = DistributeModel.Empty
  | First_available l => exists l', d' = DistributeModel.First_available l' /\ Forall2 (routed tcp) l l'
  | Random_available l =>
      exists l', Forall2 (fun bw kw => snd bw = snd kw /\ routed tcp (fst bw) (fst kw)) l l' /\
        (((List.length l < 2)%nat /\ d' = DistributeModel.First_available (map fst l')) \/
         ((2 <= List.length l)%nat /\ d' = DistributeModel.Random_available l'))
  end.
Definition becomes {F P} (tcp : bool) (p : route_policy F P) (t : target F P) : Prop :=
  ta_meta t = rp_meta p /\ ta_filters t = rp_filters p /\ ta_params t = rp_params p /\
  distributed tcp (rp_distribution p) (ta_distribution t).

(** The targets of a distribution *)
Definition distributes_to {F} (c : concrete) (d : DistributeModel.distribution (list F * concrete)) : Prop :=
  match d with
  | DistributeModel.Empty => False
  | DistributeModel.First_available l => exists fs, In (fs, c) l
  | DistributeModel.Random_available l => exists fs w, In ((fs, c), w) l
  end.
(** The targets of the routes of a router *)
Definition http_target {M F P} (c : concrete) (r : router (list (route M (target F P)))) : Prop :=
  exists rt ru, In rt (ro_routes r) /\ In ru (rt_rules rt) /\ distributes_to c (ta_distribution (ru_policy ru)).
Definition opaq_target (c : concrete) (r : router (option (target tcp_filter unit))) : Prop :=
  exists t, ro_routes r = Some t /\ distributes_to c (ta_distribution t).
Definition tls_target (c : concrete) (r : router (list (TlsRouteModel.tls_route (target tcp_filter bool)))) : Prop :=
  exists rt, In rt (ro_routes r) /\ distributes_to c (ta_distribution (TlsRouteModel.tr_policy rt)).
(** Targets that are the same to a router: the same but for the namespace, section and port of the reference *)
Definition same_target (a b : concrete) : Prop :=
  c_target a = c_target b /\ c_authority a = c_authority b /\
  group (c_backend_ref a) = group (c_backend_ref b) /\ kind (c_backend_ref a) = kind (c_backend_ref b) /\
  name (c_backend_ref a) = name (c_backend_ref b).

(** Lookups that find the same, but for what is made of it *)
Definition found {K P Q} (R : P -> Q -> Prop) (a : option (K * P)) (b : option (K * Q)) : Prop :=
  match a, b with
  | Some (k, p), Some (k', q) => k = k' /\ R p q
  | None, None => True
  | _, _ => False
  end.
(** Policies that fail all requests or connections: they have no backends and begin with a filter that is an error. *)
Definition fails_requests (p : http_policy) : Prop :=
  rp_distribution p = Empty /\ rp_filters p = [Internal_error (bs "invalid client policy configuration"%string)].
Definition fails_connections (p : opaq_policy) : Prop :=
  rp_distribution p = Empty /\ rp_filters p = [Tcp_error (bs "invalid client policy configuration"%string)].
