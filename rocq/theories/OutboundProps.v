(** Properties C116 (the way of an outbound request) and C117 (its retries). *)
From Coq Require Import String List NArith Bool.
From Verif Require Import Bytes RouteModel RouteSpec RouteMatchProofs FilterModel TraceModel ReplayModel PeekModel RetryModel
  RetrySpec NameModel ClientPolicyModel OutboundModel OutboundSpec OutboundProofs.
From Verif Require DistributeModel DistributeSpec.
Import ListNotations.
Open Scope N_scope.

(** ** C116 *)
(** A request that no rule applies to is not sent anywhere. *)
Theorem C116_http_none : forall pq_valid routes req u b hint trials, well_formed routes ->
  (http_call pq_valid routes req u b hint trials = No_route <->
   no_rule_applies http_accepts http_rank http_default_rank routes req).
Proof. exact http_none. Qed.
Print Assumptions C116_http_none.
Theorem C116_grpc_none : forall routes req b hint trials, well_formed routes ->
  (grpc_call routes req b hint trials = No_route <->
   no_rule_applies grpc_accepts grpc_rank grpc_default_rank routes req).
Proof. exact grpc_none. Qed.
Print Assumptions C116_grpc_none.

(** Any other request takes the first best rule's way.  In each attempt, from the same headers, the filters of the rule
    come first, then a choice among its backends, then the filters of the backend, on the way back in the reverse order;
    the client gets what the last attempt came to. *)
Theorem C116_http : forall pq_valid routes req u b hint trials m a, well_formed routes -> all_valid routes ->
  http_call pq_valid routes req u b hint trials = Routed m a ->
  exists h rm t, http_find routes req = Some ((h, rm), t) /\
    first_best http_accepts http_rank http_default_rank routes req t /\ m = ta_meta t /\
    call_ok (http_passes pq_valid u rm) http_amends (pa_allow_headers (ta_params t)) t (rq_headers req) trials a.
Proof.
  exact (fun v routes req u b hint trials m a W V H =>
    match http_routed v routes req u b hint trials m a W V H with
    | ex_intro _ h (ex_intro _ rm (ex_intro _ t (conj F (conj B (conj M (conj C _)))))) =>
        ex_intro _ h (ex_intro _ rm (ex_intro _ t (conj F (conj B (conj M C)))))
    end).
Qed.
Print Assumptions C116_http.
Theorem C116_grpc : forall routes req b hint trials m a, well_formed routes -> all_valid routes ->
  grpc_call routes req b hint trials = Routed m a ->
  exists h t, grpc_find routes req = Some (h, t) /\
    first_best grpc_accepts grpc_rank grpc_default_rank routes req t /\ m = ta_meta t /\
    call_ok grpc_passes grpc_amends (pa_allow_headers (ta_params t)) t (rq_headers req) trials a.
Proof.
  exact (fun routes req b hint trials m a W V H =>
    match grpc_routed routes req b hint trials m a W V H with
    | ex_intro _ h (ex_intro _ t (conj F (conj B (conj M (conj C _))))) =>
        ex_intro _ h (ex_intro _ t (conj F (conj B (conj M C))))
    end).
Qed.
Print Assumptions C116_grpc.

(** A backend that gets a request is one of the rule's, has weight and is ready; load is shed only when there is none. *)
Theorem C116_http_chosen : forall pq_valid routes req u b hint trials m a, well_formed routes -> all_valid routes ->
  http_call pq_valid routes req u b hint trials = Routed m a ->
  exists t, first_best http_accepts http_rank http_default_rank routes req t /\
    forall k r, nth_error (an_seen a) k = Some r -> well_chosen t (trials k) r.
Proof.
  exact (fun v routes req u b hint trials m a W V H =>
    match http_routed v routes req u b hint trials m a W V H with
    | ex_intro _ h (ex_intro _ rm (ex_intro _ t (conj F (conj B (conj M (conj C (conj D _))))))) => ex_intro _ t (conj B D)
    end).
Qed.
Print Assumptions C116_http_chosen.
Theorem C116_grpc_chosen : forall routes req b hint trials m a, well_formed routes -> all_valid routes ->
  grpc_call routes req b hint trials = Routed m a ->
  exists t, first_best grpc_accepts grpc_rank grpc_default_rank routes req t /\
    forall k r, nth_error (an_seen a) k = Some r -> well_chosen t (trials k) r.
Proof.
  exact (fun routes req b hint trials m a W V H =>
    match grpc_routed routes req b hint trials m a W V H with
    | ex_intro _ h (ex_intro _ t (conj F (conj B (conj M (conj C (conj D _)))))) => ex_intro _ t (conj B D)
    end).
Qed.
Print Assumptions C116_grpc_chosen.

(** A failure that is to be injected into all requests always is, one that is to be injected into none never. *)
Theorem C116_injected : forall i draw,
  (if_numerator i = if_denominator i -> happens i draw) /\
  (if_numerator i = 0 -> if_denominator i <> 0 -> ~ happens i draw).
Proof. exact (fun i draw => conj (injected_always i draw) (injected_never i draw)). Qed.
Print Assumptions C116_injected.

(** The routes that are built of a policy are all valid. *)
Theorem C116_built : forall M F P (rts : list (route M (route_policy F P))) backends r,
  mk_http_router rts backends = Some r -> all_valid (ro_routes r).
Proof. exact @built. Qed.
Print Assumptions C116_built.

(** ** C117 *)
(** A request is tried once and then again at most as often as the policy of its route and its headers says; only after a
    backend's answer that calls for it, and never after a refusal by a filter or when load was shed; and as long as its
    body can be sent again. *)
Theorem C117_http : forall pq_valid routes req u b hint trials m a, well_formed routes -> all_valid routes ->
  http_call pq_valid routes req u b hint trials = Routed m a ->
  exists t, first_best http_accepts http_rank http_default_rank routes req t /\
    retries_ok (fst (fst (set_request_extensions (http_retry (ta_params t)) (rq_headers req)))) a.
Proof.
  exact (fun v routes req u b hint trials m a W V H =>
    match http_routed v routes req u b hint trials m a W V H with
    | ex_intro _ h (ex_intro _ rm (ex_intro _ t (conj F (conj B (conj M (conj C (conj D (conj R _)))))))) => ex_intro _ t (conj B R)
    end).
Qed.
Print Assumptions C117_http.
Theorem C117_grpc : forall routes req b hint trials m a, well_formed routes -> all_valid routes ->
  grpc_call routes req b hint trials = Routed m a ->
  exists t, first_best grpc_accepts grpc_rank grpc_default_rank routes req t /\
    retries_ok (fst (fst (set_request_extensions (grpc_retry (ta_params t)) (rq_headers req)))) a.
Proof.
  exact (fun routes req b hint trials m a W V H =>
    match grpc_routed routes req b hint trials m a W V H with
    | ex_intro _ h (ex_intro _ t (conj F (conj B (conj M (conj C (conj D (conj R _))))))) => ex_intro _ t (conj B R)
    end).
Qed.
Print Assumptions C117_grpc.

(** A case: the rule adds a header to requests and to responses; its first backend adds one more; it answers with 503,
    which is retried, and the other backend answers with 200. *)
Definition backend_named (n : string) : concrete :=
  Concrete (Balance (NameAddr (bs n) 80) (Peak_ewma 1 1)) None (Default (bs n)).
Definition adds (n v : string) : modify_header := ModifyHeader [(bs n, bs v)] [] [].
Definition demo_target : target http_filter (ClientPolicyModel.params (list (N * N))) :=
  Target (Default (bs "web"%string))
    [Request_headers (adds "a" "1"); Response_headers (adds "r" "1"); Inject_failure (InjectFailure 500 [] 0 1)]
    (DistributeModel.Random_available
       [(([Request_headers (adds "b" "2"); Response_headers (adds "s" "2")], backend_named "one"), 1);
        (([], backend_named "two"), 3)])
    (ClientPolicyModel.Params (ClientPolicyModel.Timeouts None None None)
       (Some (Retry 2 1000 [(500, 599)] None None)) true false).
Definition demo_routes := [Route [] [Rule [MatchRequest (Some (PPrefix (bs "/web"%string))) [] [] None] demo_target]].
Definition demo_req : RouteModel.request :=
  RouteModel.Request (bs "GET"%string) (Some (bs "web"%string)) (bs "/web/x"%string) None
    [(bs "l5d-timeout"%string, bs "1s"%string); (bs "x"%string, bs "y"%string)].
Definition demo_uri : uri := Uri None None (bs "/web/x"%string) None.
(** Whether the backends are ready, and what is drawn, in attempt [k] *)
Definition demo_trials (shed : bool) (k : nat) : trial :=
  match k with
  | O => Trial (fun _ => 7) (fun _ => 7) (fun _ => true) (fun _ => 0) [Poll 0; Drop 0]
           (fun c hs => Ok (RetryModel.Response 503 [(bs "q"%string, bs "0"%string)] PeekModel.Empty))
  | _ => Trial (fun _ => 7) (fun _ => 7) (fun _ => negb shed) (fun _ => 1) [Poll 1; Drop 1]
           (fun c hs => Ok (RetryModel.Response 200 [] PeekModel.Empty))
  end.
Definition demo_sees (shed : bool) : list result :=
  [Reached (backend_named "one") [(bs "x"%string, bs "y"%string); (bs "a"%string, bs "1"%string); (bs "b"%string, bs "2"%string)]
     (Ok (RetryModel.Response 503 [(bs "q"%string, bs "0"%string); (bs "s"%string, bs "2"%string); (bs "r"%string, bs "1"%string)] PeekModel.Empty));
   if shed then Shed
   else Reached (backend_named "two") [(bs "x"%string, bs "y"%string); (bs "a"%string, bs "1"%string)]
          (Ok (RetryModel.Response 200 [(bs "r"%string, bs "1"%string)] PeekModel.Empty))].
Example C116_case :
  well_formed demo_routes /\ all_valid demo_routes /\
  exists a, http_call (fun _ => true) demo_routes demo_req demo_uri [] 0 (demo_trials false) = Routed (Default (bs "web")) a /\
    an_seen a = demo_sees false /\ an_given a = Ok (RetryModel.Response 200 [(bs "r", bs "1")] PeekModel.Empty) /\
    m_requests (an_metrics a) = 1.
Proof.
  split; [|split].
  - intros rt m [<-|[]] [].
  - intros rt ru [<-|[]] [<-|[]]. split; reflexivity || discriminate.
  - eexists. split; [vm_compute; reflexivity|]. split; [vm_compute; reflexivity|]. split; vm_compute; reflexivity.
Qed.
(** A gRPC case: the first backend refuses every request. *)
Definition demo_grpc : target grpc_filter (ClientPolicyModel.params (list N)) :=
  Target (Default (bs "svc"%string)) [Grpc_headers (adds "a" "1")]
    (DistributeModel.First_available [([Grpc_failure (InjectFailure 14 [] 1 1)], backend_named "one"); ([], backend_named "two")])
    (ClientPolicyModel.Params (ClientPolicyModel.Timeouts None None None)
       (Some (Retry 2 1000 [14] None None)) true false).
Example C116_grpc_case :
  exists a, grpc_call [Route [] [Rule [] demo_grpc]] demo_req [] 0 (demo_trials false) = Routed (Default (bs "svc")) a /\
    an_seen a = [Refused (Some (backend_named "one")) (Grpc_injected 14 [])] /\ m_requests (an_metrics a) = 0.
Proof. eexists. split; [vm_compute; reflexivity|]. split; vm_compute; reflexivity. Qed.
Example C117_case : retries_ok (fst (fst (set_request_extensions (http_retry (ta_params demo_target)) (rq_headers demo_req))))
  (Answer (demo_sees false) (Ok (RetryModel.Response 200 [(bs "r", bs "1")] PeekModel.Empty)) (Metrics 1 1 0 0) true).
Proof.
  destruct C116_case as (W & V & _).
  destruct (C117_http (fun _ => true) demo_routes demo_req demo_uri [] 0 (demo_trials false) (Default (bs "web"))
    (Answer (demo_sees false) (Ok (RetryModel.Response 200 [(bs "r", bs "1")] PeekModel.Empty)) (Metrics 1 1 0 0) true) W V) as (t & B & R).
  - vm_compute. reflexivity.
  - destruct B as (bf & rt & af & rb & ru & ra & r & E & Er & <- & _).
    destruct bf as [|x bf]; [|destruct bf; discriminate]. injection E as <- _.
    destruct rb as [|y rb]; [|destruct rb; discriminate]. injection Er as <- _. exact R.
Qed.

(** The retries never report that a service was not ready: *)
Theorem C117_no_overflow : forall pq_valid routes req u b hint trials m a, well_formed routes -> all_valid routes ->
  http_call pq_valid routes req u b hint trials = Routed m a -> m_overflow (an_metrics a) = 0.
Proof.
  exact (fun v routes req u b hint trials m a W V H =>
    match http_routed v routes req u b hint trials m a W V H with
    | ex_intro _ h (ex_intro _ rm (ex_intro _ t (conj F (conj B (conj M (conj C (conj D (conj _ Ov)))))))) => Ov
    end).
Qed.
Print Assumptions C117_no_overflow.
(** if there is no backend to send a retry to, the client loses the answer that it could have had. *)
Theorem C117_kept_refuted : exists routes req u b hint trials m a c sent rsp,
  well_formed routes /\ all_valid routes /\
  http_call (fun _ => true) routes req u b hint trials = Routed m a /\
  an_seen a = [Reached c sent (Ok rsp); Shed] /\ an_given a = Err [LoadShed].
Proof.
  exists demo_routes, demo_req, demo_uri, [], 0, (demo_trials true). do 5 eexists.
  split; [exact (proj1 C116_case)|]. split; [exact (proj1 (proj2 C116_case))|].
  split; [vm_compute; reflexivity|]. split; [vm_compute; reflexivity|vm_compute; reflexivity].
Qed.
Print Assumptions C117_kept_refuted.

(** How often, for how long and upon what a request is retried, and how long it may take, is what the route says, unless
    the route heeds headers that say otherwise and the request has them. *)
Theorem C117_settings_http : forall pa hs, unconfigured pa hs ->
  let '(p, x, hs') := set_request_extensions (http_retry pa) hs in
  settings Some (fun _ => None) pa p x /\ (pa_allow_headers pa = false -> hs' = hs).
Proof. exact (route_settings Some (fun _ => None)). Qed.
Print Assumptions C117_settings_http.
Theorem C117_settings_grpc : forall pa hs, unconfigured pa hs ->
  let '(p, x, hs') := set_request_extensions (grpc_retry pa) hs in
  settings (fun _ => None) Some pa p x /\ (pa_allow_headers pa = false -> hs' = hs).
Proof. exact (route_settings (fun _ => None) Some). Qed.
Print Assumptions C117_settings_grpc.
Definition demo_params : ClientPolicyModel.params (list (N * N)) :=
  ClientPolicyModel.Params (ClientPolicyModel.Timeouts (Some 3000000000) (Some 2500000) None)
    (Some (Retry 2 1000 [(500, 599)] (Some 1500000) None)) true false.
Example C117_settings_case :
  unconfigured demo_params [(bs "x", bs "y")] /\
  exists p, fst (set_request_extensions (http_retry demo_params) [(bs "x", bs "y")]) =
    (Some p, Ext (Some 1) (Some (RetryModel.Timeouts (Some 1) (Some 3000) (Some 2) None))) /\ p_max_retries p = 2.
Proof.
  split.
  - right. intros n v [[= <- <-]|[]] I. cbv in I. repeat (destruct I as [I|I]; [discriminate|]). exact I.
  - eexists. split; vm_compute; reflexivity.
Qed.
