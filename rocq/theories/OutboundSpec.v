(** What C116 and C117 say *)
From Coq Require Import List NArith Bool.
From Verif Require Import Bytes RouteModel FilterModel TraceModel ReplayModel PeekModel RetryModel ClientPolicyModel
  OutboundModel FilterSpec RetrySpec.
From Verif Require DistributeModel DistributeSpec.
Import ListNotations.
Open Scope N_scope.

(** An injected failure happens for its share of the 2^64 numbers that may be drawn, and always if its share is one. *)
Definition happens (i : inject_failure) (draw : N) : Prop :=
  if_numerator i = if_denominator i \/ (draw + 1) * if_denominator i <= if_numerator i * 2 ^ 64.

(** What a list of filters does to a request, one after the other: the headers with which it goes on, or the refusal.
    [n] numbers have been drawn before. *)
Inductive http_passes (pq_valid : bytes -> bool) (u : uri) (rm : request_match) (draws : nat -> N)
  : nat -> list http_filter -> headers -> headers + refusal -> Prop :=
| hp_done : forall n hs, http_passes pq_valid u rm draws n [] hs (inl hs)
| hp_fail : forall n i fs hs, happens i (draws n) ->
    http_passes pq_valid u rm draws n (Inject_failure i :: fs) hs (inr (Injected (if_status i) (if_message i)))
| hp_no_fail : forall n i fs hs r, ~ happens i (draws n) -> http_passes pq_valid u rm draws (S n) fs hs r ->
    http_passes pq_valid u rm draws n (Inject_failure i :: fs) hs r
| hp_redirect : forall n rd x fs hs, redirect_apply pq_valid rd u rm = ROk (Some x) ->
    http_passes pq_valid u rm draws n (Redirect_to rd :: fs) hs (inr (Redirected x))
| hp_bad_redirect : forall n rd e fs hs, redirect_apply pq_valid rd u rm = RErr e ->
    http_passes pq_valid u rm draws n (Redirect_to rd :: fs) hs (inr (Bad_redirect e))
| hp_panic : forall n rd fs hs, redirect_apply pq_valid rd u rm = RPanic ->
    http_passes pq_valid u rm draws n (Redirect_to rd :: fs) hs (inr Panicked)
| hp_no_redirect : forall n rd fs hs r, redirect_apply pq_valid rd u rm = ROk None ->
    http_passes pq_valid u rm draws n fs hs r -> http_passes pq_valid u rm draws n (Redirect_to rd :: fs) hs r
| hp_request : forall n m fs hs r, http_passes pq_valid u rm draws n fs (modify_apply m hs) r ->
    http_passes pq_valid u rm draws n (Request_headers m :: fs) hs r
| hp_response : forall n m fs hs r, http_passes pq_valid u rm draws n fs hs r ->
    http_passes pq_valid u rm draws n (Response_headers m :: fs) hs r
| hp_internal : forall n m fs hs, http_passes pq_valid u rm draws n (Internal_error m :: fs) hs (inr (Invalid_policy m)).
Inductive grpc_passes (draws : nat -> N) : nat -> list grpc_filter -> headers -> headers + refusal -> Prop :=
| gp_done : forall n hs, grpc_passes draws n [] hs (inl hs)
| gp_fail : forall n i fs hs, happens i (draws n) ->
    grpc_passes draws n (Grpc_failure i :: fs) hs (inr (Grpc_injected (if_status i) (if_message i)))
| gp_no_fail : forall n i fs hs r, ~ happens i (draws n) -> grpc_passes draws (S n) fs hs r ->
    grpc_passes draws n (Grpc_failure i :: fs) hs r
| gp_headers : forall n m fs hs r, grpc_passes draws n fs (modify_apply m hs) r ->
    grpc_passes draws n (Grpc_headers m :: fs) hs r
| gp_internal : forall n m fs hs, grpc_passes draws n (Grpc_error m :: fs) hs (inr (Invalid_policy m)).

(** The filters that change the headers of a response, and what they come to *)
Definition response_filters (fs : list http_filter) : list modify_header :=
  flat_map (fun f => match f with Response_headers m => [m] | _ => [] end) fs.
Definition http_amends (fs : list http_filter) (hs hs' : headers) : Prop :=
  hs' = fold_left (fun hs m => modify_apply m hs) (response_filters fs) hs.
(** gRPC routes have no such filters. *)
Definition grpc_amends (fs : list grpc_filter) (hs hs' : headers) : Prop := hs' = hs.

Section Tried.
  Context {F P : Type}.
  Variable passes : (nat -> N) -> nat -> list F -> headers -> headers + refusal -> Prop.
  Variable amends : list F -> headers -> headers -> Prop.

  (** A response keeps its status and body; an error is not touched. *)
  Inductive amended (fs : list F) : outcome -> outcome -> Prop :=
  | am_ok : forall s hs hs' b, amends fs hs hs' -> amended fs (Ok (Response s hs b)) (Ok (Response s hs' b))
  | am_err : forall e, amended fs (Err e) (Err e).
  (** An error of a backend keeps its causes. *)
  Inductive traced : outcome -> outcome -> Prop :=
  | tc_ok : forall r, traced (Ok r) (Ok r)
  | tc_err : forall e, traced (Err e) (Err (Other 0 :: e)).

  Definition ready_of (tr : trial) (i : nat) : DistributeModel.readiness :=
    if tr_ready tr i then DistributeModel.Is_ready else DistributeModel.Is_pending.
  (** What a poll of the distribution chooses, if anything (DistributeSpec) *)
  Definition picks {K} (d : DistributeModel.distribution K) (tr : trial) (x : option nat) : Prop :=
    match d with
    | DistributeModel.Empty => x = None
    | DistributeModel.First_available keys => exists l, DistributeSpec.first_poll (List.length keys) (ready_of tr) l x
    | DistributeModel.Random_available keys =>
        exists l, DistributeSpec.random_poll (map snd keys) (ready_of tr) (tr_draws tr) l x
    end.
  Definition backend_at {K} (d : DistributeModel.distribution K) (i : nat) (k : K) : Prop :=
    match d with
    | DistributeModel.Empty => False
    | DistributeModel.First_available keys => nth_error keys i = Some k
    | DistributeModel.Random_available keys => exists w, nth_error keys i = Some (k, w)
    end.

  (** One attempt to send a request with headers [hs] by a route *)
  Inductive tried (t : target F P) (tr : trial) (hs : headers) : result -> Prop :=
  | tr_refused : forall e, passes (tr_route tr) 0%nat (ta_filters t) hs (inr e) -> tried t tr hs (Refused None e)
  | tr_shed : forall hs1, passes (tr_route tr) 0%nat (ta_filters t) hs (inl hs1) ->
      picks (ta_distribution t) tr None -> tried t tr hs Shed
  | tr_backend_refused : forall hs1 i fs c e,
      passes (tr_route tr) 0%nat (ta_filters t) hs (inl hs1) ->
      picks (ta_distribution t) tr (Some i) -> backend_at (ta_distribution t) i (fs, c) ->
      passes (tr_backend tr) 0%nat fs hs1 (inr e) -> tried t tr hs (Refused (Some c) e)
  | tr_reached : forall hs1 hs2 i fs c o1 o2 o,
      passes (tr_route tr) 0%nat (ta_filters t) hs (inl hs1) ->
      picks (ta_distribution t) tr (Some i) -> backend_at (ta_distribution t) i (fs, c) ->
      passes (tr_backend tr) 0%nat fs hs1 (inl hs2) ->
      amended fs (tr_answer tr c hs2) o1 -> traced o1 o2 -> amended (ta_filters t) o2 o ->
      tried t tr hs (Reached c hs2 o).
End Tried.

(** A backend has some weight and is ready. *)
Definition available {K} (d : DistributeModel.distribution K) (tr : trial) (i : nat) : Prop :=
  (exists w, DistributeSpec.weight_of d i = Some w /\ w <> 0) /\ tr_ready tr i = true.

(** The headers with which a request goes to the filters: those that configure the proxy are taken off if the route
    heeds them ([own_headers], C15). *)
Definition goes_on (heeds : bool) (hs hs' : headers) : Prop :=
  if heeds
  then (forall n v, In (n, v) hs' <-> In (n, v) hs /\ ~ In n own_headers) /\
       forall n, ~ In n own_headers -> filter (fun kv => beq (fst kv) n) hs' = filter (fun kv => beq (fst kv) n) hs
  else hs' = hs.

(** What a client sees of the last attempt *)
Definition client_sees (r : result) (o : outcome) : Prop :=
  match r with
  | Refused _ _ => exists e, o = Err e /\ ~ In LoadShed e
  | Shed => o = Err [LoadShed]
  | Reached _ _ o' => o = o'
  end.

(** A call of a route: every attempt starts from the same headers, and the client gets what the last one came to. *)
Definition call_ok {F P} (passes : (nat -> N) -> nat -> list F -> headers -> headers + refusal -> Prop)
    (amends : list F -> headers -> headers -> Prop) (heeds : bool) (t : target F P) (hs : headers) (trials : nat -> trial)
    (a : answer) : Prop :=
  exists hs0, goes_on heeds hs hs0 /\
    (forall k r, nth_error (an_seen a) k = Some r -> tried passes amends t (trials k) hs0 r) /\
    exists before r, an_seen a = before ++ [r] /\ client_sees r (an_given a).

(** The limit of retries; none without a policy *)
Definition retry_limit (p : option policy) : nat :=
  match p with Some p => N.to_nat (p_max_retries p) | None => 0 end.
(** An attempt that the policy wants retried: a backend was reached, and its answer calls for it (C14). *)
Definition calls_for_retry (p : option policy) (r : result) : Prop :=
  exists p' c sent o, p = Some p' /\ r = Reached c sent o /\
    match o with Ok rsp => wants_retry p' rsp | Err e => retryable_cause e end.
(** How often a request is tried *)
Definition retries_ok (p : option policy) (a : answer) : Prop :=
  (length (an_seen a) <= 1 + retry_limit p)%nat /\
  (forall before r after, an_seen a = before ++ r :: after -> after <> [] -> calls_for_retry p r) /\
  (forall before r, an_seen a = before ++ [r] -> calls_for_retry p r ->
     an_again a = false \/ length (an_seen a) = (1 + retry_limit p)%nat) /\
  m_requests (an_metrics a) + 1 = N.of_nat (length (an_seen a)).

(** Every rule's distribution is one that can be made (C27). *)
Definition all_valid {M F P} (routes : list (route M (target F P))) : Prop :=
  forall rt ru, In rt routes -> In ru (rt_rules rt) -> DistributeSpec.valid (ta_distribution (ru_policy ru)).
(** An attempt that reaches a backend, or its filters, chose one that has weight and is ready; one is shed only if there is
    none. *)
Definition well_chosen {F P} (t : target F P) (tr : trial) (r : result) : Prop :=
  match r with
  | Refused None _ => True
  | Shed => forall i, ~ available (ta_distribution t) tr i
  | Refused (Some c) _ | Reached c _ _ =>
      exists i fs, backend_at (ta_distribution t) i (fs, c) /\ available (ta_distribution t) tr i
  end.

(** A route's own settings hold: it does not heed the headers that configure the proxy, or the request has none of them. *)
Definition unconfigured {C} (pa : ClientPolicyModel.params C) (hs : headers) : Prop :=
  pa_allow_headers pa = false \/ forall n v, In (n, v) hs -> ~ In n own_headers.
(** Nanoseconds, as milliseconds *)
Definition in_ms (t u : option N) : Prop :=
  match t, u with
  | Some t, Some u => u * 1000000 <= t < (u + 1) * 1000000
  | None, None => True
  | _, _ => False
  end.
(** The retries of a route with such a policy *)
Definition settled {C} (http : C -> option (list (N * N))) (grpc : C -> option (list N)) (r : ClientPolicyModel.retry C) (p : policy) : Prop :=
  p_max_retries p = rt_max_retries r /\ p_max_bytes p = rt_max_request_bytes r /\ in_ms (rt_timeout r) (p_timeout p) /\
  p_http p = http (rt_conditions r) /\ p_grpc p = grpc (rt_conditions r).
(** The settings of the requests of a route *)
Definition settings {C} (http : C -> option (list (N * N))) (grpc : C -> option (list N)) (pa : ClientPolicyModel.params C)
    (p : option policy) (x : ext) : Prop :=
  match ClientPolicyModel.pa_retry pa, p with
  | None, None => True
  | Some r, Some p => settled http grpc r p
  | _, _ => False
  end /\
  x_attempt x = Some 1 /\
  exists t, x_timeouts x = Some t /\
    to_headers t = match p with Some p => p_timeout p | None => None end /\
    in_ms (to_request (pa_timeouts pa)) (to_limit t) /\ in_ms (to_response (pa_timeouts pa)) (to_end t) /\
    in_ms (ClientPolicyModel.to_idle (pa_timeouts pa)) (RetryModel.to_idle t).
