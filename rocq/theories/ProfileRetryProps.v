(** Property C78: the retries of service profiles. *)
From Coq Require Import String List NArith.
From Verif Require Import Bytes FilterModel TraceModel ReplayModel ReplaySpec PeekModel RetryModel RetrySpec ProfileRetryModel ProfileRetrySpec ProfileRetryProofs.
From Verif Require ClassifyModel ProfileModel.
Import ListNotations.
Open Scope nat_scope.

(** In all of these the turns [t :: ts] are anything that happens so far: what the service does and answers, how it becomes
    ready and what the budget grants; [b] is any body and [limit] any limit on what is buffered. *)

(** Requests are forwarded as they are, once and without the budget, exactly if their route has no retries or they are
    known to have a body of more than 64 KiB; *)
Theorem C78_forwarded : forall route ts q b hint, call route ts q b hint = None <->
  ProfileModel.r_retries route = None \/ (65536 < hint)%N.
Proof. exact not_wrapped. Qed.
Print Assumptions C78_forwarded.
(** of others, up to 64 KiB are buffered. *)
Theorem C78_buffered : forall route ts q b hint d, call route ts q b hint = Some d ->
  d = call_retry (ProfileModel.r_classes route) ts (init b 65536) q.
Proof. exact wrapped. Qed.
Print Assumptions C78_buffered.

(** Every attempt gets the answer of its turn.  A request is attempted again only after a response, not an error,
    that is a failure by the classes of its route, and only if the budget grants it and the service is ready. *)
Theorem C78_only_failures : forall cs t ts b limit q, q_body q = 0 ->
  let l := d_attempts (call_retry cs (t :: ts) (init b limit) q) in
  (1 <= length l) /\
  (forall i a, nth_error l i = Some a -> exists t', nth_error (t :: ts) i = Some t' /\ at_outcome a = t_outcome t') /\
  (forall i a, nth_error l i = Some a -> S i < length l -> exists r, at_outcome a = Ok r /\ failed cs (q_headers q) r) /\
  (forall i, 0 < i < length l -> exists t', nth_error (t :: ts) i = Some t' /\ t_grant t' = true /\ t_ready t' = None).
Proof. exact only_failures. Qed.
Print Assumptions C78_only_failures.

(** Every retry costs a withdrawal.  The call ends with the last answer and a deposit, if that is not to be retried;
    with the last answer, if the budget does not grant another attempt; or with the error of a service that does not
    become ready. *)
Theorem C78_budget : forall cs t ts b limit q, q_body q = 0 ->
  let d := call_retry cs (t :: ts) (init b limit) q in
  exists e, d_budget d = repeat (Withdraw true) (length (d_attempts d) - 1) ++ e /\ ending cs (q_headers q) d e.
Proof. exact budget_used. Qed.
Print Assumptions C78_budget.

(** So if the budget, of which each grant takes [cost] and to which each deposit adds [gain], never lends more than
    [reserve], then the retries of any number of calls are bounded by their number. *)
Theorem C78_bounded : forall ds reserve gain cost,
  (forall d, In d ds -> exists cs t ts b limit q, q_body q = 0 /\ d = call_retry cs (t :: ts) (init b limit) q) ->
  sum (fun d => granted (d_budget d)) ds * cost <= reserve + sum (fun d => deposits (d_budget d)) ds * gain ->
  (sum (fun d => length (d_attempts d)) ds - length ds) * cost <= reserve + length ds * gain.
Proof. exact bounded. Qed.
Print Assumptions C78_bounded.

(** Every attempt has the same method, URI, version and headers. *)
Theorem C78_same_request : forall cs t ts b limit q, q_body q = 0 ->
  forall i a, nth_error (d_attempts (call_retry cs (t :: ts) (init b limit) q)) i = Some a ->
  q_method (at_req a) = q_method q /\ q_uri (at_req a) = q_uri q /\ q_version (at_req a) = q_version q /\
  q_headers (at_req a) = q_headers q /\ q_body (at_req a) = i.
Proof. exact same_requests. Qed.
Print Assumptions C78_same_request.

(** The body of every attempt that begins after something was read gives a prefix of the request's data, and all of
    it with the trailers if it is read to the end. *)
Theorem C78_same_body : forall cs t ts b limit q, q_body q = 0 ->
  let tr := all_events (d_attempts (call_retry cs (t :: ts) (init b limit) q)) in
  forall i, started_late b i tr ->
    (exists r, body_data b = data_of i tr ++ r) /\
    (ended i tr -> data_of i tr = body_data b /\
       trailers_of i tr = match body_trailers b with Some x => [x] | None => [] end).
Proof. exact same_bodies. Qed.
Print Assumptions C78_same_body.

(** No attempt is made once more than the limit has been read from the body. *)
Theorem C78_not_beyond_buffer : forall cs t ts b limit q, q_body q = 0 ->
  let l := d_attempts (call_retry cs (t :: ts) (init b limit) q) in
  forall i j, 0 < i < length l -> started_late b j (all_events (firstn i l)) ->
  (len (data_of j (all_events (firstn i l))) <= limit)%N.
Proof. exact within. Qed.
Print Assumptions C78_not_beyond_buffer.

Definition a_request : request := Request (bs "POST"%string) (bs "/x"%string) 2 [(bs "a"%string, bs "b"%string)] (Ext None None) 0.
Definition status (n : N) : outcome := Ok (Response n [] Empty).

(** Refuted: every attempt is given the same body.  A service that answers 503 without reading the body is given, next time,
    its first chunk twice. *)
Theorem C78_duplicated_body_refuted : exists ts b, let d := call_retry [] ts (init b 65536) a_request in
  d_outcome d = Some (status 200) /\ length (d_attempts d) = 2 /\ ended 1 (all_events (d_attempts d)) /\
  body_data b = bs "hi" /\ data_of 1 (all_events (d_attempts d)) = bs "hihi".
Proof.
  exists [Turn true None [Drop 0] (status 503); Turn true None [Poll 1; Poll 1; Poll 1; Drop 1] (status 200)], [IData (bs "hi")].
  vm_compute. repeat split. do 2 right. left. reflexivity.
Qed.
Print Assumptions C78_duplicated_body_refuted.

(** Refuted: the client is given the last answer. *)
Theorem C78_last_answer_refuted : exists ts b, let d := call_retry [] ts (init b 65536) a_request in
  last_answer (d_attempts d) = Some (status 503) /\ d_outcome d = Some (Err [Other 7]).
Proof.
  exists [Turn true None [Poll 0; Poll 0; Drop 0] (status 503); Turn true (Some [Other 7]) [] (status 200)], [IData (bs "hi")].
  vm_compute. auto.
Qed.
Print Assumptions C78_last_answer_refuted.

(** A case for all of them: one retry is granted, the other is not. *)
Example C78_case : let d := call_retry [ClassifyModel.RClass true (ClassifyModel.Status 404 404)]
    [Turn true None [Poll 0; Poll 0; Drop 0] (status 404); Turn true None [Poll 1; Poll 1; Poll 1; Drop 1] (status 503); Turn false None [] (status 200)]
    (init [IData (bs "he"); IData (bs "llo")] 65536) a_request in
  d_outcome d = Some (status 503) /\ length (d_attempts d) = 2 /\ d_budget d = [Withdraw true; Withdraw false] /\
  data_of 1 (all_events (d_attempts d)) = bs "hello" /\
  started_late [IData (bs "he"); IData (bs "llo")] 1 (all_events (d_attempts d)) /\
  failed [ClassifyModel.RClass true (ClassifyModel.Status 404 404)] [] (Response 404 [] Empty).
Proof.
  split; [vm_compute; reflexivity|]. split; [vm_compute; reflexivity|]. split; [vm_compute; reflexivity|]. split; [vm_compute; reflexivity|]. split.
  - right. right. exists [(0, PData (bs "he")); (0, PData (bs "llo"))]. do 3 eexists. split; [vm_compute; reflexivity|]. split; [|split; [left; reflexivity|discriminate]].
    intros p [E|[E|[]]]; discriminate.
  - apply failed_iff. vm_compute. reflexivity.
Qed.
