(** The way of an outbound HTTP request through the route that a client policy gives it: linkerd/app/outbound/src/http/logical/policy/{router,route}.rs,
    route/{filters,backend}.rs, with linkerd/stack/src/loadshed.rs and linkerd/http/retry/src/lib.rs (RetryModel).
    Paths without a directory are in linkerd/app/outbound/src/http/logical/policy. *)
From Coq Require Import List NArith Bool.
From Verif Require Import Bytes RouteModel FilterModel TraceModel ReplayModel PeekModel RetryModel ClientPolicyModel.
From Verif Require DistributeModel EnvModel.
Import ListNotations.
Open Scope N_scope.

(** route/filters.rs:43-75: how the filters refuse a request.  [Panicked]: a redirect of a CONNECT request
    (FilterModel). *)
Inductive refusal :=
| Injected (status : N) (message : bytes)
| Grpc_injected (code : N) (message : bytes)
| Redirected (r : redirection)
| Bad_redirect (e : redirect_error)
| Invalid_policy (message : bytes)
| Panicked.

(** linkerd/http/route/src/http/filter/inject_failure.rs:27-37 and 62-67 with `rand`'s `Bernoulli`: [draw] is a u64.  The
    ratio is exact here; `rand` rounds it to a double. *)
Definition fails (i : inject_failure) (draw : N) : bool :=
  (if_numerator i =? if_denominator i) || ((draw + 1) * if_denominator i <=? if_numerator i * 2 ^ 64).

(** What happens by chance and from outside during an attempt: the numbers drawn for injected failures by the route's
    filters and by the backend's, which backends are ready, the numbers drawn to choose one, what is done with the bodies
    of the request, and how a backend answers a request with such headers.  That a backend's readiness fails is left out. *)
Record trial := Trial {
  tr_route : nat -> N; tr_backend : nat -> N; tr_ready : nat -> bool; tr_draws : nat -> N; tr_ops : list op;
  tr_answer : concrete -> headers -> outcome }.
(** What an attempt comes to: [Refused] by the filters of the route or of a backend; [Shed] for want of a ready backend;
    or [Reached]: the backend, the headers that it gets and what comes back from the route's filters. *)
Inductive result :=
| Refused (by_backend : option concrete) (r : refusal)
| Shed
| Reached (c : concrete) (sent : headers) (o : outcome).

Section Filters.
  Variable pq_valid : bytes -> bool.

  (** route/filters.rs:82-122; [n] counts the numbers drawn *)
  Fixpoint http_request (u : uri) (rm : request_match) (draws : nat -> N) (n : nat) (fs : list http_filter) (hs : headers)
    : headers + refusal :=
    match fs with
    | [] => inl hs
    | Inject_failure i :: fs =>
        if fails i (draws n) then inr (Injected (if_status i) (if_message i)) else http_request u rm draws (S n) fs hs
    | Redirect_to r :: fs =>
        match redirect_apply pq_valid r u rm with
        | ROk (Some x) => inr (Redirected x)
        | RErr e => inr (Bad_redirect e)
        | ROk None => http_request u rm draws n fs hs
        | RPanic => inr Panicked
        end
    | Request_headers m :: fs => http_request u rm draws n fs (modify_apply m hs)
    | Internal_error msg :: _ => inr (Invalid_policy msg)
    | Response_headers _ :: fs => http_request u rm draws n fs hs
    end.
  (** route/filters.rs:124-140 *)
  Fixpoint http_response (fs : list http_filter) (hs : headers) : headers :=
    match fs with
    | [] => hs
    | Response_headers m :: fs => http_response fs (modify_apply m hs)
    | _ :: fs => http_response fs hs
    end.
  (** route/filters.rs:142-166 *)
  Fixpoint grpc_request (draws : nat -> N) (n : nat) (fs : list grpc_filter) (hs : headers) : headers + refusal :=
    match fs with
    | [] => inl hs
    | Grpc_failure i :: fs =>
        if fails i (draws n) then inr (Grpc_injected (if_status i) (if_message i)) else grpc_request draws (S n) fs hs
    | Grpc_headers m :: fs => grpc_request draws n fs (modify_apply m hs)
    | Grpc_error msg :: _ => inr (Invalid_policy msg)
    end.
  (** route/filters.rs:168-181 *)
  Definition grpc_response (fs : list grpc_filter) (hs : headers) : headers := hs.
End Filters.

Section Route.
  Context {F : Type}.
  (** `filters::Apply`: route/filters.rs:77-80 *)
  Variable on_request : (nat -> N) -> nat -> list F -> headers -> headers + refusal.
  Variable on_response : list F -> headers -> headers.

  (** The backends of a distribution, in its order: linkerd/distribute/src/params.rs:13-27 *)
  Definition backends {K} (d : DistributeModel.distribution K) : list K :=
    match d with
    | DistributeModel.Empty => []
    | DistributeModel.First_available keys => keys
    | DistributeModel.Random_available keys => map fst keys
    end.
  (** The backend that a distribution service chooses when it is polled.  A route's service is made anew for each call
      (linkerd/router/src/lib.rs:134-146), and one that was called is like a new one before the next attempt
      (linkerd/http/retry/src/lib.rs:286, 308; DistributeModel). *)
  Definition choose {K} (d : DistributeModel.distribution K) (tr : trial) : option nat :=
    DistributeModel.d_ready
      (DistributeModel.poll_ready (DistributeModel.new d)
         (fun i => if tr_ready tr i then DistributeModel.Is_ready else DistributeModel.Is_pending) (tr_draws tr)).
  (** `ApplyFilters` on a response: route/filters.rs:248-267 *)
  Definition filtered (fs : list F) (o : outcome) : outcome :=
    match o with
    | Ok r => Ok (Response (rs_status r) (on_response fs (rs_headers r)) (rs_body r))
    | Err e => Err e
    end.
  (** route/backend.rs:26-33 and 105-113: errors are wrapped in a `BackendError`, here [Other 0] *)
  Definition wrapped (o : outcome) : outcome := match o with Ok r => Ok r | Err e => Err (Other 0 :: e) end.
  (** route/backend.rs:95-116 with route/filters.rs:234-243 *)
  Definition backend_call (fs : list F) (c : concrete) (tr : trial) (hs : headers) : result :=
    match on_request (tr_backend tr) 0 fs hs with
    | inr e => Refused (Some c) e
    | inl hs => Reached c hs (wrapped (filtered fs (tr_answer tr c hs)))
    end.
  (** route.rs:118-131, beneath the retries: the route's filters, then linkerd/stack/src/loadshed.rs:64-95, then the
      distribution over backends *)
  Definition attempt {P} (t : target F P) (tr : trial) (hs : headers) : result :=
    match on_request (tr_route tr) 0 (ta_filters t) hs with
    | inr e => Refused None e
    | inl hs =>
        match choose (ta_distribution t) tr with
        | None => Shed
        | Some i =>
            match nth_error (backends (ta_distribution t)) i with
            | None => Shed
            | Some (fs, c) =>
                match backend_call fs c tr hs with
                | Reached c hs o => Reached c hs (filtered (ta_filters t) o)
                | r => r
                end
            end
        end
    end.
  (** What the retries see of an attempt: none of the refusals has a cause that they know; [Other 1] is any of them *)
  Definition as_outcome (r : result) : outcome :=
    match r with
    | Refused None _ => Err [Other 1]
    | Refused (Some _) _ => Err [Other 0; Other 1]
    | Shed => Err [LoadShed]
    | Reached _ _ o => o
    end.

  (** What is seen of a call of a route: its attempts, its result, the counters of its retries, and whether the body could
      be sent once more: it was kept from the start, read to its end and not too large *)
  Record answer := Answer { an_seen : list result; an_given : outcome; an_metrics : metrics; an_again : bool }.
  (** The services beneath the retries are always ready: linkerd/stack/src/loadshed.rs:64-85 *)
  Definition turn_of {P} (t : target F P) (trials : nat -> trial) (hs : headers) (k : nat) : turn :=
    Turn Ready (tr_ops (trials k)) (as_outcome (attempt t (trials k) hs)).
  (** route.rs:132-137: the extensions, then the retries, whose requests all have the same headers (C14_same_request).
      The request's method, URI and version are copied and not written here. *)
  Definition route_call {P} (retry_params : P -> RetryModel.params) (t : target F P) (hs : headers) (b : body) (hint : N)
      (trials : nat -> trial) : answer :=
    let '(policy, x, hs) := set_request_extensions (retry_params (ta_params t)) hs in
    match call (option_map (fun p => (is_retryable p, set_extensions p, N.to_nat (p_max_retries p), p_max_bytes p)) policy)
               (turn_of t trials hs) (RetryModel.Request [] [] 0 hs x 0) b hint with
    | None => Answer [attempt t (trials 0%nat) hs] (as_outcome (attempt t (trials 0%nat) hs)) no_metrics false
    | Some d =>
        Answer (map (fun k => attempt t (trials k) hs) (seq 0 (length (d_attempts d)))) (d_outcome d) (d_metrics d)
          (match is_capped (d_world d) (length (d_attempts d)) with Some false => true | _ => false end)
    end.
End Route.

(** Times are whole milliseconds in RetryModel. *)
Definition ms (t : N) : N := t / millis.
(** route.rs:207-223 and 272-288 *)
Definition retry_of {C} (http : C -> option (list (N * N))) (grpc : C -> option (list N)) (pa : ClientPolicyModel.params C)
  : RetryModel.params :=
  RetryModel.Params
    (option_map (fun r => RetryModel.Policy (option_map ms (rt_timeout r)) (http (rt_conditions r)) (grpc (rt_conditions r))
                   (rt_max_retries r) (rt_max_request_bytes r)
                   (option_map (fun b => (ms (EnvModel.bo_min b), ms (EnvModel.bo_max b))) (rt_backoff r)))
                (ClientPolicyModel.pa_retry pa))
    (option_map ms (to_request (pa_timeouts pa))) (option_map ms (to_response (pa_timeouts pa)))
    (option_map ms (ClientPolicyModel.to_idle (pa_timeouts pa))) (pa_allow_headers pa).
(** route.rs:207-223 *)
Definition http_retry : ClientPolicyModel.params (list (N * N)) -> RetryModel.params := retry_of Some (fun _ => None).
(** route.rs:272-288 *)
Definition grpc_retry : ClientPolicyModel.params (list N) -> RetryModel.params := retry_of (fun _ => None) Some.

(** What a router does with a request: no route, or the route's metadata and what comes of it *)
Inductive called := No_route | Routed (m : meta) (a : answer).
(** router.rs:292-309 with linkerd/router/src/lib.rs:134-146 *)
Definition http_call (pq_valid : bytes -> bool) (routes : list (route match_request (target http_filter (ClientPolicyModel.params (list (N * N))))))
    (req : RouteModel.request) (u : uri) (b : body) (hint : N) (trials : nat -> trial) : called :=
  match http_find routes req with
  | None => No_route
  | Some ((_, rm), t) =>
      Routed (ta_meta t)
        (route_call (http_request pq_valid u rm) http_response http_retry t (rq_headers req) b hint trials)
  end.
(** router.rs:313-330 with linkerd/router/src/lib.rs:134-146 *)
Definition grpc_call (routes : list (route match_grpc (target grpc_filter (ClientPolicyModel.params (list N)))))
    (req : RouteModel.request) (b : body) (hint : N) (trials : nat -> trial) : called :=
  match grpc_find routes req with
  | None => No_route
  | Some (_, t) =>
      Routed (ta_meta t) (route_call grpc_request grpc_response grpc_retry t (rq_headers req) b hint trials)
  end.
