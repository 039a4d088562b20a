(** Properties C14 (retries) and C15 (per-request configuration). *)
From Coq Require Import String List NArith ZArith.
From Verif Require Import Bytes FilterModel TraceModel ReplayModel ReplaySpec PeekModel RetryModel RetrySpec
  RetryProofs RetryParseProofs.
Import ListNotations.
Open Scope N_scope.

(** ** C14 *)
(** In all of these, [retryable] and [set_ext] are any policy, [env] is any behaviour
    of the inner service: its readiness, its answers and what it does with the
    bodies; [b] and [limit] are any body and buffer limit.  The request's body is the
    initial body. *)

(** A request is sent at least once and at most 1 + limit times. *)
Theorem C14_at_most_limit :
  forall retryable set_ext max env b limit q, q_body q = 0%nat ->
    (1 <= length (d_attempts (send_req_with_retries retryable set_ext max env (init b limit) q)) <= S max)%nat.
Proof. exact at_most. Qed.
Print Assumptions C14_at_most_limit.

(** A further attempt is made only after an answer that the policy declares retryable;
    the answers are those of the service, in order. *)
Theorem C14_only_if_retryable :
  forall retryable set_ext max env b limit q, q_body q = 0%nat ->
    let l := d_attempts (send_req_with_retries retryable set_ext max env (init b limit) q) in
    (forall i a, nth_error l i = Some a -> at_outcome a = t_outcome (env i)) /\
    (forall i a, nth_error l i = Some a -> (S i < length l)%nat -> retryable (at_outcome a) = true).
Proof.
  exact (fun r s max env b limit q Hq =>
    conj (outcomes r s max env b limit q Hq) (only_retryable r s max env b limit q Hq)).
Qed.
Print Assumptions C14_only_if_retryable.

(** The client is given the answer of the last attempt, or, when the service fails
    instead of becoming ready for a further one, that failure. *)
Theorem C14_last_answer :
  forall retryable set_ext max env b limit q, q_body q = 0%nat ->
    let d := send_req_with_retries retryable set_ext max env (init b limit) q in
    last_answer (d_attempts d) = Some (d_outcome d) \/
    exists e o, d_outcome d = Err e /\ t_ready (env (length (d_attempts d))) = ReadyErr e /\
      last_answer (d_attempts d) = Some o /\ retryable o = true /\ (length (d_attempts d) <= max)%nat.
Proof. exact answered. Qed.
Print Assumptions C14_last_answer.

(** Nothing else stops it: a retryable answer is followed by another attempt if the
    limit is not reached, the service is ready and the body can be replayed. *)
Theorem C14_retried_when_allowed :
  forall retryable set_ext max env b limit q, q_body q = 0%nat ->
    let d := send_req_with_retries retryable set_ext max env (init b limit) q in
    forall o, last_answer (d_attempts d) = Some o -> retryable o = true -> (length (d_attempts d) <= max)%nat ->
      t_ready (env (length (d_attempts d))) = Ready ->
      is_capped (d_world d) (length (d_attempts d)) <> Some false.
Proof. exact stops. Qed.
Print Assumptions C14_retried_when_allowed.

(** Every attempt has the same method, URI, version and headers. *)
Theorem C14_same_request :
  forall retryable set_ext max env b limit q, q_body q = 0%nat ->
    let d := send_req_with_retries retryable set_ext max env (init b limit) q in
    forall i a, nth_error (d_attempts d) i = Some a ->
      q_method (at_req a) = q_method q /\ q_uri (at_req a) = q_uri q /\ q_version (at_req a) = q_version q /\
      q_headers (at_req a) = q_headers q /\ q_body (at_req a) = i /\
      q_ext (at_req a) = Nat.iter i set_ext (q_ext q).
Proof. exact same_request. Qed.
Print Assumptions C14_same_request.

(** The body of every attempt that begins after something was read gives a prefix of
    the request's data, and all of it with the trailers if it is read to the end. *)
Theorem C14_same_body :
  forall retryable set_ext max env b limit q, q_body q = 0%nat ->
    let t := all_events (d_attempts (send_req_with_retries retryable set_ext max env (init b limit) q)) in
    forall i, started_late b i t ->
      (exists r, body_data b = data_of i t ++ r) /\
      (ended i t -> data_of i t = body_data b /\
         trailers_of i t = match body_trailers b with Some x => [x] | None => [] end) /\
      (trailers_of i t = [] \/
         trailers_of i t = match body_trailers b with Some x => [x] | None => [] end /\ data_of i t = body_data b).
Proof. exact same_body. Qed.
Print Assumptions C14_same_body.

(** No attempt is made once more than the limit has been read from the body. *)
Theorem C14_not_beyond_buffer :
  forall retryable set_ext max env b limit q, q_body q = 0%nat ->
    let l := d_attempts (send_req_with_retries retryable set_ext max env (init b limit) q) in
    forall i j, (0 < i < length l)%nat -> started_late b j (all_events (firstn i l)) ->
      len (data_of j (all_events (firstn i l))) <= limit.
Proof. exact within_limit. Qed.
Print Assumptions C14_not_beyond_buffer.

(** The metrics count the retries, whether the last retry succeeded, and why it ended. *)
Theorem C14_metrics :
  forall retryable set_ext max env b limit q, q_body q = 0%nat ->
    let d := send_req_with_retries retryable set_ext max env (init b limit) q in
    m_requests (d_metrics d) + 1 = N.of_nat (length (d_attempts d)) /\
    m_successes (d_metrics d) =
      match rev (d_attempts d) with
      | a :: _ :: _ => match at_outcome a with Ok _ => if retryable (at_outcome a) then 0 else 1 | Err _ => 0 end
      | _ => 0
      end /\
    m_limit_exceeded (d_metrics d) + m_overflow (d_metrics d) <= 1 /\
    (m_limit_exceeded (d_metrics d) = 1 -> length (d_attempts d) = S max /\
       exists o, last_answer (d_attempts d) = Some o /\ retryable o = true) /\
    (m_overflow (d_metrics d) = 1 -> t_ready (env (length (d_attempts d))) = NotReady /\
       last_answer (d_attempts d) = Some (d_outcome d)).
Proof. exact counts. Qed.
Print Assumptions C14_metrics.

(** Nothing panics if the service lets go of the body of every attempt that is to be
    retried before it answers. *)
Theorem C14_no_panic_partial :
  forall retryable set_ext max env b limit q, q_body q = 0%nat ->
    (forall k, retryable (t_outcome (env k)) = true -> In (Drop k) (t_ops (env k))) ->
    forall i, ~ In (i, PPanic)
      (all_events (d_attempts (send_req_with_retries retryable set_ext max env (init b limit) q))).
Proof. exact no_panic. Qed.
Print Assumptions C14_no_panic_partial.

(** The policy of a route: which answers are retried. *)
Theorem C14_policy_responses : forall p r, is_retryable p (Ok r) = true <-> wants_retry p r.
Proof. exact retryable_response_iff. Qed.
Print Assumptions C14_policy_responses.

Theorem C14_policy_errors : forall p e, is_retryable p (Err e) = true <-> retryable_cause e.
Proof. exact retryable_error_iff. Qed.
Print Assumptions C14_policy_errors.

(** Attempts are numbered; the timeout on response headers holds while retries are
    left and is lifted for the last one. *)
Theorem C14_attempt_extensions :
  forall p t i, (1 <= i)%nat ->
    Nat.iter i (set_extensions p) (Ext (Some 1) (Some t)) =
    Ext (Some (N.min (N.of_nat i + 1) u16_max))
        (Some (if N.min (N.of_nat i + 1) u16_max <=? p_max_retries p then t
               else Timeouts None (to_end t) (to_idle t) (to_limit t))).
Proof. exact extensions_after. Qed.
Print Assumptions C14_attempt_extensions.

Definition a_request : request :=
  Request (bs "POST") (bs "/x") 2 [(bs "a", bs "b")] (Ext (Some 1) (Some (Timeouts (Some 5) None None None))) 0.
Definition a_policy : policy := Policy (Some 5) (Some [(500, 599)]) (Some [14]) 2 100 None.
Definition ok_response : outcome := Ok (Response 200 [] Empty).
Definition unavailable : outcome := Ok (Response 200 [] (Unary None (Some (inl [(bs "grpc-status", bs "14")])))).
Definition run_policy (env : nat -> turn) (b : body) : done :=
  send_req_with_retries (is_retryable a_policy) (set_extensions a_policy) 2 env (init b 100) a_request.

(** The first attempt fails fast without reading the body; the second one, which
    reads it, is given the first chunk twice. *)
Theorem C14_duplicated_body_refuted :
  exists env b, let d := run_policy env b in
    length (d_attempts d) = 2%nat /\ d_outcome d = ok_response /\
    ended 1 (all_events (d_attempts d)) /\ body_data b = bs "hi" /\
    data_of 1 (all_events (d_attempts d)) = bs "hihi".
Proof.
  exists (fun k => match k with
    | O => Turn Ready [Drop 0] (Err [FailFast])
    | _ => Turn Ready [Poll 1; Poll 1; Poll 1; Drop 1] ok_response
    end), [IData (bs "hi")].
  vm_compute. repeat split. do 2 right. left. reflexivity.
Qed.
Print Assumptions C14_duplicated_body_refuted.

(** A service that keeps the unread body of a failed attempt makes two bodies race:
    one of them panics. *)
Theorem C14_no_panic_refuted :
  exists env b, let d := run_policy env b in In (1%nat, PPanic) (all_events (d_attempts d)).
Proof.
  exists (fun k => match k with
    | O => Turn Ready [Drop 0] (Err [FailFast])
    | 1%nat => Turn Ready [] unavailable
    | _ => Turn Ready [Poll 2; Poll 1] ok_response
    end), [IData (bs "hi")].
  vm_compute. right. left. reflexivity.
Qed.
Print Assumptions C14_no_panic_refuted.

(** The client is not always given the answer of the last attempt. *)
Theorem C14_last_answer_refuted :
  exists env b, let d := run_policy env b in
    last_answer (d_attempts d) = Some unavailable /\ d_outcome d = Err [Other 7].
Proof.
  exists (fun k => match k with
    | O => Turn Ready [Drop 0] unavailable
    | _ => Turn (ReadyErr [Other 7]) [] ok_response
    end), [IData (bs "hi")].
  vm_compute. auto.
Qed.
Print Assumptions C14_last_answer_refuted.

(** A case for all of them: two retries, the second one succeeds. *)
Definition demo_env (k : nat) : turn :=
  match k with
  | O => Turn Ready [Poll 0; Drop 0] (Ok (Response 503 [] Empty))
  | 1%nat => Turn Ready [Poll 1; Poll 1; Drop 1] unavailable
  | _ => Turn Ready [Poll 2; Poll 2; Poll 2; Drop 2] ok_response
  end.
Example C14_demo :
  let d := run_policy demo_env [IData (bs "he"); IData (bs "llo"); ITrailers []] in
  length (d_attempts d) = 3%nat /\ d_outcome d = ok_response /\
  data_of 2 (all_events (d_attempts d)) = bs "hello" /\ d_metrics d = Metrics 2 1 0 0 /\
  started_late [IData (bs "he"); IData (bs "llo"); ITrailers []] 2 (all_events (d_attempts d)) /\
  (forall k, is_retryable a_policy (t_outcome (demo_env k)) = true -> In (Drop k) (t_ops (demo_env k))).
Proof.
  repeat (split; [vm_compute; reflexivity|]). split.
  - right. right. vm_compute. eexists [_], _, 0%nat, _. split; [reflexivity|]. split; [|split; [left; reflexivity|discriminate]].
    intros p [H|[]]. discriminate.
  - intros [|[|k]]; cbn; [auto|auto|]. vm_compute. discriminate.
Qed.
Example C14_demo_stopped :
  let d := run_policy (fun k => Turn (match k with O => Ready | _ => NotReady end) [Poll 0; Drop 0] unavailable) [IData (bs "he")] in
  d_outcome d = unavailable /\ d_metrics d = Metrics 0 0 0 1.
Proof. vm_compute. auto. Qed.
Example C14_demo_policy :
  wants_retry a_policy (Response 200 [] (Unary None (Some (inl [(bs "grpc-status", bs "14")])))) /\
  retryable_cause [Other 1; TimeoutHeaders] /\ ~ retryable_cause [FailFast; LoadShed].
Proof.
  split; [apply C14_policy_responses; vm_compute; reflexivity|].
  split; [apply (C14_policy_errors a_policy); vm_compute; reflexivity|].
  intros [H _]. apply H. right. now left.
Qed.

(** ** C15 *)
(** A duration is read exactly if it is written as a number with a unit. *)
Theorem C15_durations : forall v ms, parse_duration v = Some ms <-> duration_text v ms.
Proof. exact parse_duration_iff. Qed.
Print Assumptions C15_durations.

(** A list of HTTP conditions selects exactly the codes that one of its items names. *)
Theorem C15_http_conditions :
  forall s l c, items s l ->
    (in_ranges (parse_http_conditions s) c = true <-> exists t, In t l /\ condition t c).
Proof. exact http_conditions_iff. Qed.
Print Assumptions C15_http_conditions.

Theorem C15_grpc_conditions :
  forall s l c, items s l ->
    (in_codes (parse_grpc_conditions s) c = true <-> exists t, In t l /\ grpc_name t c).
Proof. exact grpc_conditions_iff. Qed.
Print Assumptions C15_grpc_conditions.

(** Every value is a list of items. *)
Theorem C15_items_exist : forall s, exists l, items s l.
Proof. exact (fun s => ex_intro _ _ (items_split s)). Qed.
Print Assumptions C15_items_exist.

(** If the route allows it, these headers and no others are removed before the
    request goes on. *)
Theorem C15_headers_removed :
  forall pa hs, pa_allow pa = true ->
    let '(_, _, hs') := set_request_extensions pa hs in
    (forall n v, In (n, v) hs' <-> In (n, v) hs /\ ~ In n own_headers) /\
    forall n, ~ In n own_headers -> filter (fun kv => beq (fst kv) n) hs' = filter (fun kv => beq (fst kv) n) hs.
Proof. exact headers_removed. Qed.
Print Assumptions C15_headers_removed.

(** Otherwise neither the headers nor the configured policy change. *)
Theorem C15_not_allowed :
  forall pa hs, pa_allow pa = false ->
    set_request_extensions pa hs =
    (pa_retry pa,
     Ext (Some 1) (Some (Timeouts (bind (pa_retry pa) p_timeout) (pa_response pa) (pa_idle pa) (pa_request pa))),
     hs).
Proof. exact not_allowed. Qed.
Print Assumptions C15_not_allowed.

(** What the headers configure: the first value of each, where it is well formed,
    takes the place of the route's setting. *)
Theorem C15_configuration :
  forall pa hs, pa_allow pa = true ->
    let v n := hm_get hs n in
    let http := bind (v (bs "l5d-retry-http")) (fun v => option_map parse_http_conditions (to_str v)) in
    let grpc := bind (v (bs "l5d-retry-grpc")) (fun v => option_map parse_grpc_conditions (to_str v)) in
    let limit := bind (v (bs "l5d-retry-limit")) (fun v => bind (to_str v) (parse_uint u64_max)) in
    let timeout := bind (v (bs "l5d-retry-timeout")) parse_duration in
    let '(retry, x, hs') := set_request_extensions pa hs in
    hs' = fold_left hm_remove own_headers hs /\
    retry = (match pa_retry pa with
      | Some r => Some (Policy (or timeout (p_timeout r)) (or http (p_http r)) (or grpc (p_grpc r))
                   (match limit with Some l => l | None => p_max_retries r end) (p_max_bytes r) (p_backoff r))
      | None => match http, grpc, limit, timeout with
          | None, None, None, None => None
          | _, _, _, _ => Some (Policy timeout http grpc (match limit with Some l => l | None => 1 end) 65536 (Some (25, 250)))
          end
      end) /\
    x = Ext (Some 1) (Some (Timeouts (bind retry p_timeout)
          (or (bind (v (bs "l5d-response-timeout")) parse_duration) (pa_response pa)) (pa_idle pa)
          (or (bind (v (bs "l5d-request-timeout")) parse_duration)
              (or (bind (v (bs "l5d-timeout")) parse_duration) (pa_request pa))))).
Proof. exact configured. Qed.
Print Assumptions C15_configuration.

Example C15_demo :
  duration_text (bs " 10s ") 10000 /\ duration_text (bs "0") 0 /\
  ~ (exists ms, duration_text (bs "10") ms) /\ ~ (exists ms, duration_text (bs "18446744073709551615s") ms) /\
  ~ (exists ms, duration_text (bs "1.5s") ms) /\
  condition (bs "5XX") 503 /\ condition (bs "500-502") 501 /\ ~ condition (bs "502-500") 501 /\
  items (bs "5xx,404") [bs "5xx"; bs "404"].
Proof.
  repeat match goal with |- _ /\ _ => split end.
  - apply C15_durations. vm_compute. reflexivity.
  - apply C15_durations. vm_compute. reflexivity.
  - intros [ms H]. apply C15_durations in H. vm_compute in H. discriminate.
  - intros [ms H]. apply C15_durations in H. vm_compute in H. discriminate.
  - intros [ms H]. apply C15_durations in H. vm_compute in H. discriminate.
  - apply http_condition_iff. exists 500, 599. vm_compute. repeat split; discriminate.
  - apply http_condition_iff. exists 500, 502. vm_compute. repeat split; discriminate.
  - intros H. apply http_condition_iff in H as (lo & hi & H & _). vm_compute in H. discriminate.
  - exact (items_split (bs "5xx,404")).
Qed.
Example C15_demo_headers :
  let '(retry, _, hs') := set_request_extensions (Params None None None None true)
     [(bs "l5d-retry-http", bs "5xx"); (bs "x", bs "y"); (bs "l5d-timeout", bs "1s")] in
  hs' = [(bs "x", bs "y")] /\ retry = Some (Policy None (Some [(500, 599)]) None 1 65536 (Some (25, 250))).
Proof. vm_compute. auto. Qed.
