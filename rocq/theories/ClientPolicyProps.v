(** The theorems about the outbound policies that the control plane sends (properties C95 - C99). *)
From Coq Require Import String List NArith ZArith QArith Bool Reals Lra.
From Flocq Require Import Core IEEE754.BinarySingleNaN.
From Verif Require Import Bytes NameModel RouteModel RouteSpec.
From Verif Require Import EndpointModel ClientPolicyModel ClientPolicySpec ClientPolicyProofs.
From Verif Require Import ClientPolicyMatchProofs ClientPolicyRouterProofs ClientPolicyThresholdProofs.
From Verif Require WindowModel WindowFloatProofs TlsRouteModel TlsRouteSpec EnvModel ProfileModel DistributeModel FilterModel.
Import ListNotations.
Open Scope N_scope.

(** ** Messages for the examples *)
Definition ex_lib : lib :=
  Lib (fun _ => None) (fun n => Some (map (fun b => if (65 <=? b) && (b <=? 90) then b + 32 else b) n)) Some
      (fun m => match m with Some (ProfileModel.Unregistered m) => Some m | _ => None end)
      (fun s => match s with Some (Pb_unregistered s) => Some s | _ => None end)
      (fun _ => None) (fun n d => n <=? d) Some Some.
Definition ex_meta (n ns : bytes) : option pb_metadata :=
  Some (Some (Pb_resource (bs "core"%string) (bs "Service"%string) n ns [] 80)).
Definition ex_balance (path : bytes) : option pb_dispatcher :=
  Some (Pb_balancer (Some (Some path)) (Some (Pb_peak_ewma (Some (0, 30000000)%Z) (Some (10, 0)%Z)))).
Definition ex_backend {F} (n ns path : bytes) : pb_route_backend (option F) :=
  PbRouteBackend (Some (PbBackend (ex_meta n ns) (Some (PbQueue 100 (Some (3, 0)%Z))) (ex_balance path))) [].
Definition ex_weights (a b : N) : option (option (pb_distribution (option pb_http_filter))) :=
  Some (Some (Pb_random [
    (a, Some (ex_backend (bs "web"%string) (bs "ns"%string) (bs "web.ns.svc:80"%string)));
    (b, Some (ex_backend (bs "new"%string) (bs "ns"%string) (bs "new.ns.svc:80"%string)))])).
Definition ex_backoff : pb_backoff := PbBackoff (Some (1, 0)%Z) (Some (60, 0)%Z) (EnvModel.Fin (1 # 2)).
Definition ex_retry : pb_retry pb_ranges := PbRetry 3 65536 (Some ex_backoff) (Some (1, 0)%Z) (Some [(500, 504); (429, 429)]).
Definition ex_rule (path : bytes) d : pb_rule pb_http_match pb_http_filter pb_ranges :=
  PbRule [PbHttpMatch (Some (Some (Pb_prefix_path path))) [] [] None] [] d
         (Some (10, 0)%Z) (Some (PbTimeouts None (Some (5, 0)%Z) None)) (Some ex_retry) true.
Definition ex_http_route (path : bytes) d : pb_http_route :=
  PbRoute (ex_meta (bs "route"%string) (bs "ns"%string)) [Some (Pb_suffix_name [bs "com"%string; bs "example"%string])]
          [ex_rule path d].
Definition ex_accrual (x : WindowModel.f64) : option (option pb_accrual) :=
  Some (Some (Pb_unified x None 20 7 (Some ex_backoff))).
Definition ex_http : pb_proto pb_http_route :=
  PbProto [ex_http_route (bs "/"%string) (ex_weights 1 0); ex_http_route (bs "/new"%string) (ex_weights 1 9)]
          (ex_accrual (WindowModel.as_fraction 9000)).
Definition ex_policy (h : pb_proto pb_http_route) : pb_policy :=
  PbPolicy (ex_meta (bs "web"%string) (bs "ns"%string)) (Some (Some (Pb_http2 h))).
Definition ex_request (path : bytes) : request := Request (bs "GET"%string) (Some (bs "www.example.com"%string)) path None [].

(** ** C95 *)

(** The policy that an HTTP request takes is that of the first of the best rules of the message. *)
Theorem C95_http :
  forall L two export pb cp k hpb r req,
    try_from L export pb = Some cp -> pb_proxy_protocol pb = Some (Some k) -> http_part two k (cp_protocol cp) hpb r ->
    well_formed (routes_of (pbp_routes hpb)) ->
    match http_find (rs_routes r) req with
    | Some (_, p) => exists md ru,
        first_best (http_says L) http_weight [1; 0; 0; 0] (routes_of (pbp_routes hpb)) req (md, ru) /\
        policy_says L (http_filter_says L) http_retry_says export md ru p
    | None => no_rule_applies (http_says L) http_weight [1; 0; 0; 0] (routes_of (pbp_routes hpb)) req
    end.
Proof. exact http_takes. Qed.
Print Assumptions C95_http.
Example C95_http_nontrivial :
  exists cp r, try_from ex_lib true (ex_policy ex_http) = Some cp /\
    http_part true (Pb_http2 ex_http) (cp_protocol cp) ex_http r /\ well_formed (routes_of (pbp_routes ex_http)) /\
    (exists k p d, http_find (rs_routes r) (ex_request (bs "/new/x")) = Some (k, p) /\
       rp_distribution p = Random_available d /\ map snd d = [1; 9] /\
       to_request (pa_timeouts (rp_params p)) = Some 10000000000 /\ to_response (pa_timeouts (rp_params p)) = Some 5000000000) /\
    (exists k p d, http_find (rs_routes r) (ex_request (bs "/old")) = Some (k, p) /\
       rp_distribution p = Random_available d /\ map snd d = [1; 0]) /\
    http_find (rs_routes r) (Request (bs "GET") (Some (bs "example.org")) (bs "/old") None []) = None.
Proof.
  eexists. eexists. split; [vm_compute; reflexivity|]. split; [apply Part_http2; reflexivity|]. split.
  - intros rt m H J. cbn in H. destruct H as [<-|[<-|[]]]; cbn in J; destruct J as [<-|[]]; exists (bs "example.com"); vm_compute; repeat split.
  - split; [|split].
    + eexists. eexists. eexists. vm_compute. repeat split.
    + eexists. eexists. eexists. vm_compute. repeat split.
    + vm_compute. reflexivity.
Qed.

(** So is that of a gRPC request. *)
Theorem C95_grpc :
  forall L export parent pb cp req,
    try_from L export (PbPolicy parent (Some (Some (Pb_grpc pb)))) = Some cp -> well_formed (routes_of (pbp_routes pb)) ->
    exists r, cp_protocol cp = Grpc r /\
    match grpc_find (rs_routes r) req with
    | Some (_, p) => exists md ru,
        first_best (grpc_says L) grpc_weight [0; 0; 0] (routes_of (pbp_routes pb)) req (md, ru) /\
        policy_says L (grpc_filter_says L) grpc_retry_says export md ru p
    | None => no_rule_applies (grpc_says L) grpc_weight [0; 0; 0] (routes_of (pbp_routes pb)) req
    end.
Proof. exact grpc_takes. Qed.
Print Assumptions C95_grpc.
Definition ex_grpc : pb_proto pb_grpc_route :=
  PbProto [PbRoute (ex_meta (bs "route"%string) (bs "ns"%string)) []
             [PbRule [PbGrpcMatch (Some (bs "pkg.Svc"%string, [])) [PbNamed (bs "X-A"%string) (Some (Pb_exact_value (bs "1"%string)))]]
                [Some (Pb_grpc_failure (PbFailure 14 (bs "gone"%string) (Some (1, 2))))]
                (Some (Some (Pb_first [ex_backend (bs "web"%string) (bs "ns"%string) (bs "web.ns.svc:80"%string)])))
                None None (Some (PbRetry 70000 0 None None (Some (PbCodes true false false false true)))) false]] None.
Example C95_grpc_nontrivial :
  exists cp r, try_from ex_lib false (PbPolicy (ex_meta (bs "web") (bs "ns")) (Some (Some (Pb_grpc ex_grpc)))) = Some cp /\
    cp_protocol cp = Grpc r /\ well_formed (routes_of (pbp_routes ex_grpc)) /\
    (exists k p y, grpc_find (rs_routes r) (Request (bs "POST") None (bs "/pkg.Svc/Get") None [(bs "x-a", bs "1")]) = Some (k, p) /\
       pa_retry (rp_params p) = Some y /\ rt_conditions y = [1; 14] /\ rt_max_retries y = 70000) /\
    grpc_find (rs_routes r) (Request (bs "POST") None (bs "/pkg.Svc/Get") None []) = None.
Proof.
  eexists. eexists. split; [vm_compute; reflexivity|]. split; [reflexivity|]. split.
  - intros rt m H J. cbn in H. destruct H as [<-|[]]. destruct J.
  - split; [eexists; eexists; eexists; vm_compute; repeat split|vm_compute; reflexivity].
Qed.

(** And that of a TLS connection *)
Theorem C95_tls :
  forall L export parent pb cp sni,
    try_from L export (PbPolicy parent (Some (Some (Pb_tls pb)))) = Some cp ->
    exists t, cp_protocol cp = Tls t /\
    match TlsRouteModel.tls_select t sni with
    | Some p => exists rt, TlsRouteSpec.tls_first_best (tls_routes_of pb) sni rt /\ tcp_route_says L export rt p
    | None => forall rt r, In rt (tls_routes_of pb) -> ~ TlsRouteSpec.tls_applies rt sni r
    end.
Proof. exact tls_takes. Qed.
Print Assumptions C95_tls.
Definition ex_tls : list pb_tcp_route :=
  [PbTcpRoute (ex_meta (bs "all"%string) (bs "ns"%string)) [] [PbTcpRule (Some (Some Pb_empty)) [Some Pb_forbidden]];
   PbTcpRoute (ex_meta (bs "web"%string) (bs "ns"%string)) [Some (Pb_exact_name (bs "example.com"%string))]
     [PbTcpRule (Some (Some (Pb_first [ex_backend (bs "web"%string) (bs "ns"%string) (bs "web.ns.svc:443"%string)]))) []]].
Example C95_tls_nontrivial :
  exists cp t, try_from ex_lib true (PbPolicy (ex_meta (bs "web") (bs "ns")) (Some (Some (Pb_tls ex_tls)))) = Some cp /\
    cp_protocol cp = Tls t /\
    (exists p, TlsRouteModel.tls_select t (bs "example.com") = Some p /\ rp_filters p = [] /\ name (rp_meta p) = bs "web") /\
    (exists p, TlsRouteModel.tls_select t (bs "example.org") = Some p /\ rp_filters p = [Forbidden] /\ rp_distribution p = Empty).
Proof.
  eexists. eexists. split; [vm_compute; reflexivity|]. split; [reflexivity|].
  split; eexists; vm_compute; repeat split.
Qed.

(** The requests that a match of a message stands for *)
Theorem C95_match :
  forall L pb m req, try_http_match L pb = Some m ->
    ((exists s, http_match m req = Some s) <-> http_says L pb req).
Proof. exact http_match_means. Qed.
Print Assumptions C95_match.
Example C95_match_nontrivial :
  exists m s, try_http_match ex_lib (PbHttpMatch (Some (Some (Pb_exact_path (bs "/a")))) [PbNamed (bs "X") (Some (Pb_exact_value (bs "1")))]
                [PbNamed (bs "q") (Some (Pb_exact_value (bs "2")))] (Some (Some (ProfileModel.Unregistered (bs "PUT"))))) = Some m /\
    http_match m (Request (bs "PUT") None (bs "/a") (Some [(bs "q", bs "2")]) [(bs "x", bs "1")]) = Some s.
Proof. eexists. eexists. vm_compute. split; reflexivity. Qed.
Theorem C95_match_grpc :
  forall L pb m req, try_grpc_match L pb = Some m ->
    ((exists s, grpc_match_request m req = Some s) <-> grpc_says L pb req).
Proof. exact grpc_match_means. Qed.
Print Assumptions C95_match_grpc.

(** ** C96 *)

(** A message is accepted exactly if it says what a policy is, which is then what the proxy has. *)
Theorem C96_accepted :
  forall L export pb m p,
    (exists bs, try_from L export pb = Some (ClientPolicy m p bs)) <-> client_policy_says L export pb m p.
Proof. exact policy_iff. Qed.
Print Assumptions C96_accepted.
Example C96_accepted_nontrivial :
  exists m p bs, try_from ex_lib true (ex_policy ex_http) = Some (ClientPolicy m p bs) /\ List.length bs = 2%nat.
Proof. eexists. eexists. eexists. vm_compute. split; reflexivity. Qed.
(** Of two opaque routes none is taken. *)
Example C96_refused_nontrivial :
  try_from ex_lib true (PbPolicy (ex_meta (bs "web") (bs "ns")) (Some (Some (Pb_opaque ex_tls)))) = None.
Proof. reflexivity. Qed.

(** Settings of failure accrual *)
Theorem C96_accrual : forall pb a, try_accrual pb = Some a <-> accrual_says pb a.
Proof. exact accrual_says_iff. Qed.
Print Assumptions C96_accrual.
Example C96_accrual_nontrivial :
  try_accrual (Some (Pb_unified (WindowModel.as_fraction 9000) None 20 7 (Some ex_backoff)))
  = Some (Unified 9000 10000000000 20 7 (EnvModel.Backoff 1000000000 60000000000 (EnvModel.Fin (1 # 2)))).
Proof. vm_compute. reflexivity. Qed.

(** What is retried *)
Theorem C96_retry_statuses :
  forall pb r s, try_http_retry pb = Some r ->
    (status_ranges_contain (rt_conditions r) s = true <->
     exists ranges a b, pby_conditions pb = Some ranges /\ In (a, b) ranges /\ a <= s <= b).
Proof. exact retry_statuses. Qed.
Print Assumptions C96_retry_statuses.
Example C96_retry_statuses_nontrivial :
  exists r, try_http_retry ex_retry = Some r /\ status_ranges_contain (rt_conditions r) 503 = true /\
    status_ranges_contain (rt_conditions r) 429 = true /\ status_ranges_contain (rt_conditions r) 499 = false.
Proof. eexists. vm_compute. repeat split. Qed.
Theorem C96_retry_codes :
  forall pb r code, try_grpc_retry pb = Some r ->
    (codes_contain (rt_conditions r) code = true <->
     exists c, pby_conditions pb = Some c /\
       (code = 1 /\ pbc_cancelled c = true \/ code = 4 /\ pbc_deadline c = true \/ code = 8 /\ pbc_exhausted c = true \/
        code = 13 /\ pbc_internal c = true \/ code = 14 /\ pbc_unavailable c = true)).
Proof. exact retry_codes. Qed.
Print Assumptions C96_retry_codes.
Example C96_retry_codes_nontrivial :
  exists r, try_grpc_retry (PbRetry 1 0 None None (Some (PbCodes false true false false false))) = Some r /\
    codes_contain (rt_conditions r) 4 = true /\ codes_contain (rt_conditions r) 14 = false.
Proof. eexists. vm_compute. repeat split. Qed.

(** ** C97 *)

(** The backends of a policy are those of its routes, each once. *)
Theorem C97_backends :
  forall L export pb cp, try_from L export pb = Some cp ->
    (forall b, In b (cp_backends cp) -> in_protocol b (cp_protocol cp)) /\
    (forall b, in_protocol b (cp_protocol cp) -> exists b', In b' (cp_backends cp) /\ same_backend b b') /\
    (forall l a m b n, cp_backends cp = l ++ a :: m ++ b :: n -> ~ same_backend a b).
Proof. exact policy_backends. Qed.
Print Assumptions C97_backends.
Example C97_backends_nontrivial :
  exists cp a b, try_from ex_lib true (ex_policy ex_http) = Some cp /\ cp_backends cp = [a; b] /\
    name (b_meta a) = bs "web" /\ name (b_meta b) = bs "new".
Proof. eexists. eexists. eexists. vm_compute. repeat split. Qed.

(** Backends of different namespaces may be taken for one. *)
Definition ex_namespaces : pb_proto pb_http_route :=
  PbProto [ex_http_route (bs "/"%string) (Some (Some (Pb_first [
    ex_backend (bs "web"%string) (bs "one"%string) (bs "web.svc:80"%string);
    ex_backend (bs "web"%string) (bs "two"%string) (bs "web.svc:80"%string)])))] None.
Theorem C97_namespaces_refuted :
  ~ forall L export pb cp b, try_from L export pb = Some cp -> in_protocol b (cp_protocol cp) -> In b (cp_backends cp).
Proof.
  intros H. destruct (try_from ex_lib true (ex_policy ex_namespaces)) as [cp|] eqn:E; [|vm_compute in E; discriminate].
  pose proof (fun b => H ex_lib true (ex_policy ex_namespaces) cp b E) as K. vm_compute in E. injection E as <-. revert K. clear H.
  match goal with |- context [cp_protocol (ClientPolicy _ (Http2 {| rs_routes := [{| rt_rules := [{| ru_policy := {| rp_distribution := First_available [_; ?x] |} |}] |}] |}) _)] =>
    intros K; specialize (K (rb_backend x)) end.
  assert (J : In (rb_backend _) _) by (apply K; eexists; eexists; split; [left; reflexivity|]; split; [left; reflexivity|];
    eexists; split; [right; left; reflexivity|reflexivity]).
  cbn in J. destruct J as [J|[]]. discriminate J.
Qed.
Print Assumptions C97_namespaces_refuted.

(** A router looks up what the policy says, *)
Theorem C97_http_router :
  forall F P (rts : list (route match_request (route_policy F P))) bs ro req, mk_http_router rts bs = Some ro ->
    found (becomes false) (http_find rts req) (http_find (ro_routes ro) req).
Proof. exact @http_router_find. Qed.
Print Assumptions C97_http_router.
Theorem C97_grpc_router :
  forall F P (rts : list (route match_grpc (route_policy F P))) bs ro req, mk_http_router rts bs = Some ro ->
    found (becomes false) (grpc_find rts req) (grpc_find (ro_routes ro) req).
Proof. exact @grpc_router_find. Qed.
Print Assumptions C97_grpc_router.
Theorem C97_opaque_router :
  forall o bs ro, mk_opaq_router o bs = Some ro -> optionally (becomes true) o (ro_routes ro).
Proof. exact opaq_router_find. Qed.
Print Assumptions C97_opaque_router.
Theorem C97_tls_router :
  forall rts bs ro sni, mk_tls_router rts bs = Some ro ->
    optionally (becomes true) (TlsRouteModel.tls_select rts sni) (TlsRouteModel.tls_select (ro_routes ro) sni).
Proof. exact tls_router_find. Qed.
Print Assumptions C97_tls_router.
Example C97_router_nontrivial :
  exists cp h ro k t c f, try_from ex_lib true (ex_policy ex_http) = Some cp /\ cp_protocol cp = Http2 h /\
    mk_http_router (rs_routes h) (cp_backends cp) = Some ro /\
    http_find (ro_routes ro) (ex_request (bs "/new/x")) = Some (k, t) /\
    ta_distribution t = DistributeModel.Random_available [f; (([], c), 9)] /\ c_authority c = Some (bs "new.ns.svc").
Proof. repeat eexists; vm_compute; reflexivity. Qed.
Example C97_tcp_router_nontrivial :
  exists cp t ro x, try_from ex_lib true (PbPolicy (ex_meta (bs "web") (bs "ns")) (Some (Some (Pb_tls ex_tls)))) = Some cp /\
    cp_protocol cp = Tls t /\ mk_tls_router t (cp_backends cp) = Some ro /\
    TlsRouteModel.tls_select (ro_routes ro) (bs "example.com") = Some x /\
    exists c, ta_distribution x = DistributeModel.First_available [([], c)] /\ tls_target c ro.
Proof.
  eexists. eexists. eexists. eexists. split; [vm_compute; reflexivity|]. split; [reflexivity|]. split; [vm_compute; reflexivity|].
  split; [vm_compute; reflexivity|]. eexists. split; [vm_compute; reflexivity|]. eexists. split; [right; left; reflexivity|]. eexists. left. reflexivity.
Qed.

(** and has a service for each target, so that looking one up never panics. *)
Theorem C97_http_cached :
  forall M F P L export pb cp (rts : list (route M (route_policy F P))) ro c,
    try_from L export pb = Some cp -> (forall b, in_http_routes b rts -> in_protocol b (cp_protocol cp)) ->
    mk_http_router rts (cp_backends cp) = Some ro -> http_target c ro ->
    cached (ro_backends ro) c = true.
Proof. exact @http_cached. Qed.
Print Assumptions C97_http_cached.
Theorem C97_opaque_cached :
  forall L export pb cp o ro c,
    try_from L export pb = Some cp -> (forall b, in_opaq b o -> in_protocol b (cp_protocol cp)) ->
    mk_opaq_router o (cp_backends cp) = Some ro -> opaq_target c ro -> cached (ro_backends ro) c = true.
Proof. exact opaq_cached. Qed.
Print Assumptions C97_opaque_cached.
Theorem C97_tls_cached :
  forall L export pb cp t ro c,
    try_from L export pb = Some cp -> cp_protocol cp = Tls t ->
    mk_tls_router t (cp_backends cp) = Some ro -> tls_target c ro -> cached (ro_backends ro) c = true.
Proof. exact tls_cached. Qed.
Print Assumptions C97_tls_cached.
Theorem C97_cached : forall bs c, cached bs c = true <-> exists c', In c' bs /\ same_target c c'.
Proof. exact cached_means. Qed.
Print Assumptions C97_cached.

(** ** C98 *)

(** Which policies' routers are built without a panic *)
Theorem C98_builds :
  forall L export pb cp, try_from L export pb = Some cp -> (routers_build cp <-> protocol_usable (cp_protocol cp)).
Proof. exact builds_iff. Qed.
Print Assumptions C98_builds.
Example C98_builds_nontrivial :
  exists cp, try_from ex_lib true (ex_policy ex_http) = Some cp /\ routers_build cp.
Proof. eexists. split; [vm_compute; reflexivity|]. vm_compute. discriminate. Qed.

(** A message is accepted whose weights are all 0, and the proxy panics. *)
Theorem C98_zero_weights_refuted :
  ~ forall L export pb cp, try_from L export pb = Some cp -> routers_build cp.
Proof.
  intros H. specialize (H ex_lib true (ex_policy (PbProto [ex_http_route (bs "/") (ex_weights 0 0)] None))).
  destruct (try_from _ _ _) as [cp|] eqn:E; [|vm_compute in E; discriminate]. specialize (H cp eq_refl). vm_compute in E. injection E as <-.
  apply H. vm_compute. reflexivity.
Qed.
Print Assumptions C98_zero_weights_refuted.
(** So does a message with a destination without a port, *)
Theorem C98_destination_refuted :
  exists pb cp, try_from ex_lib true (ex_policy pb) = Some cp /\ ~ routers_build cp /\
    forall rt ru, In rt (pbp_routes pb) -> In ru (pbt_rules rt) ->
      exists b, pbl_backends ru = Some (Some (Pb_first [b])) /\ b = ex_backend (bs "web") (bs "ns") (bs "web.ns.svc").
Proof.
  exists (PbProto [ex_http_route (bs "/") (Some (Some (Pb_first [ex_backend (bs "web") (bs "ns") (bs "web.ns.svc")])))] None).
  eexists. split; [vm_compute; reflexivity|]. split.
  - intros H. apply H. vm_compute. reflexivity.
  - intros rt ru [<-|[]] [<-|[]]. eexists. split; reflexivity.
Qed.
Print Assumptions C98_destination_refuted.

(** In place of a message that is refused there is a policy that fails all requests and connections; its routers are
    built without a panic. *)
Theorem C98_refused :
  forall L timeout export pb, try_from L export pb = None -> received L timeout export pb = invalid timeout.
Proof. exact (fun L timeout export pb H => match H in _ = o return match o with Some p => p | None => invalid timeout end = invalid timeout -> received L timeout export pb = invalid timeout with eq_refl => fun K => K end eq_refl). Qed.
Print Assumptions C98_refused.
Theorem C98_invalid :
  forall timeout req,
    match cp_protocol (invalid timeout) with
    | Detect t h1 h2 (Some o) =>
        t = timeout /\ h1 = h2 /\
        (exists k p, http_find (rs_routes h1) req = Some (k, p) /\ fails_requests p) /\ fails_connections o
    | _ => False
    end.
Proof. exact invalid_http. Qed.
Print Assumptions C98_invalid.
Theorem C98_invalid_builds : forall timeout, routers_build (invalid timeout).
Proof. exact invalid_builds. Qed.
Print Assumptions C98_invalid_builds.

(** ** C99 *)

(** A threshold is at most 100%, whatever the number. *)
Theorem C99_range : forall x, from_fraction x <= 10000.
Proof. exact threshold_range. Qed.
Print Assumptions C99_range.

(** It is the nearest in hundredths of a percent. *)
Theorem C99_nearest :
  forall x, Bleb (WindowModel.f64_of_N 0) x = true -> Bleb x (WindowModel.f64_of_N 1) = true ->
    (Rabs (WindowFloatProofs.RN (from_fraction x) - 10000 * B2R x) <= / 2 + / 100000000000)%R.
Proof. exact threshold_near. Qed.
Print Assumptions C99_nearest.
Example C99_nearest_nontrivial :
  exists x, Bleb (WindowModel.f64_of_N 0) x = true /\ Bleb x (WindowModel.f64_of_N 1) = true /\ from_fraction x = 3333.
Proof. exists (WindowModel.f64_div (WindowModel.f64_of_N 1) (WindowModel.f64_of_N 3)). vm_compute. repeat split. Qed.

(** One that is a number of hundredths of a percent is kept. *)
Theorem C99_round_trip : forall bp, bp <= 10000 -> from_fraction (WindowModel.as_fraction bp) = bp.
Proof. exact threshold_round_trip. Qed.
Print Assumptions C99_round_trip.

(** A rate of successes that is less than the control plane's threshold by 0.006% trips, one greater by it does not. *)
Theorem C99_trips :
  forall x s t, Bleb (WindowModel.f64_of_N 0) x = true -> Bleb x (WindowModel.f64_of_N 1) = true ->
    s <= t -> 0 < t <= 10 * 4294967295 ->
    ((WindowFloatProofs.RN s / WindowFloatProofs.RN t <= B2R x - 6 / 100000)%R ->
     WindowModel.f64_lt (WindowModel.f64_div (WindowModel.f64_of_N s) (WindowModel.f64_of_N t))
                        (WindowModel.as_fraction (from_fraction x)) = true) /\
    ((B2R x + 6 / 100000 <= WindowFloatProofs.RN s / WindowFloatProofs.RN t)%R ->
     WindowModel.f64_lt (WindowModel.f64_div (WindowModel.f64_of_N s) (WindowModel.f64_of_N t))
                        (WindowModel.as_fraction (from_fraction x)) = false).
Proof. exact threshold_trips. Qed.
Print Assumptions C99_trips.

(** A threshold that is not 0 may become 0, with which nothing trips. *)
Theorem C99_positive_refuted :
  exists x, Bltb (WindowModel.f64_of_N 0) x = true /\ from_fraction x = 0.
Proof. exists (WindowModel.f64_div (WindowModel.f64_of_N 1) (WindowModel.f64_of_N 32768)). vm_compute. split; reflexivity. Qed.
Print Assumptions C99_positive_refuted.
