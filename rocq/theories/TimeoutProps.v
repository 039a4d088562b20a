(** C36 deadlines and C37 idleness of a request and its response *)
From Coq Require Import List NArith.
From Verif Require Import TimeoutModel TimeoutSpec TimeoutProofs.
Import ListNotations.
Open Scope N_scope.

(** Waiting for a response fails at the earliest deadline that applies, and not before; until
    then it is woken at that deadline. *)
Theorem C36_headers : forall t es a o b, (forall h e, response_headers t = Some h -> response_end t = Some e -> h <= e) ->
  trace t es = a ++ (Poll_response Response_pending, o) :: b -> awaiting a ->
  headers_answer (earliest (all_due t (flushed a))) a o.
Proof. exact all_headers_answered. Qed.
Print Assumptions C36_headers.
(** Without the hypothesis: for the deadlines without the response's end, if there is a
    timeout for headers *)
Theorem C36_headers_partial : forall t es a o b, trace t es = a ++ (Poll_response Response_pending, o) :: b -> awaiting a ->
  headers_answer (earliest (headers_due t (flushed a))) a o.
Proof. exact headers_answered. Qed.
Print Assumptions C36_headers_partial.
(** With a response timeout shorter than that for headers, a response may be waited for longer
    than it allows. *)
Theorem C36_end_refuted : exists t es a ws b f e, trace t es = a ++ (Poll_response Response_pending, Pending ws) :: b /\
  awaiting a /\ flushed a = Some f /\ response_end t = Some e /\ f + e < clock a.
Proof.
  exists (Timeouts (Some 10) (Some 5) None None), [Poll_request (Body_ready true); Tick 7; Poll_response Response_pending],
    [(Poll_request (Body_ready true), Passed); (Tick 7, Nothing)], [10], [], 0, 5.
  split; [vm_compute; reflexivity|]. split; [intros r o [H|[H|[]]]; discriminate|]. repeat split.
Qed.
Print Assumptions C36_end_refuted.
(** The earliest deadline is one of them, and no other is earlier. *)
Theorem C36_earliest : forall l, match earliest l with
  | Some x => In x l /\ forall y, In y l -> fst x <= fst y
  | None => l = [] end.
Proof. exact earliest_spec. Qed.
Print Assumptions C36_earliest.
(** Reading a response fails (once) at the earliest of the stream's deadline and the response
    timeout, which starts when the request was flushed, or with the headers if they came first;
    otherwise when idle. *)
Theorem C36_body : forall t es h a o b,
  trace t es = (h ++ (Poll_response Response_ok, Passed) :: a) ++ (Poll_body Body_pending, o) :: b ->
  body_answer t (earliest (response_due t (start_of h))) (response_fired a) (h ++ (Poll_response Response_ok, Passed) :: a) o.
Proof. exact body_answered. Qed.
Print Assumptions C36_body.
(** Sending a request fails (once) at the stream's deadline, and otherwise when idle. *)
Theorem C36_request : forall t es a o b, trace t es = a ++ (Poll_request Body_pending, o) :: b ->
  (forall o', ~ In (Drop_request, o') a) ->
  body_answer t (earliest (request_due t)) (request_fired a) a o.
Proof. exact request_answered. Qed.
Print Assumptions C36_request.
(** What is ready is passed on, even after a deadline. *)
Theorem C36_request_ready : forall t es a n o b, trace t es = a ++ (Poll_request (Body_ready n), o) :: b -> (forall o', ~ In (Drop_request, o') a) -> o = Passed.
Proof. exact request_passed. Qed.
Print Assumptions C36_request_ready.
Theorem C36_response_ready : forall t es a r o b, trace t es = a ++ (Poll_response r, o) :: b -> awaiting a -> r <> Response_pending -> o = Passed.
Proof. exact response_passed. Qed.
Print Assumptions C36_response_ready.
Theorem C36_body_ready : forall t es a n o b, trace t es = a ++ (Poll_body (Body_ready n), o) :: b -> In (Poll_response Response_ok, Passed) a -> o = Passed.
Proof. exact body_passed. Qed.
Print Assumptions C36_body_ready.
(** Idleness is reported only when nothing was received in either direction for the timeout.
    That it is reported then is part of [C36_body] and [C36_request]. *)
Theorem C37_only : forall t es a e i b, trace t es = a ++ (e, Timed_out (Idle i)) :: b -> idle t = Some i /\ idle_for i a.
Proof. exact idle_only. Qed.
Print Assumptions C37_only.

(** A request sent in two parts, with the response's headers in between, and then a pause *)
Definition example_timeouts := Timeouts (Some 10) (Some 30) (Some 8) (Some (50, 50)).
Definition example_events :=
  [Poll_request (Body_ready false); Poll_response Response_pending; Tick 4; Poll_request Body_pending; Tick 2;
   Poll_request (Body_ready true); Tick 5; Poll_response Response_pending; Tick 1; Poll_response Response_ok;
   Poll_body Body_pending; Tick 6; Poll_body (Body_ready false); Tick 7; Poll_body Body_pending; Tick 1; Poll_body Body_pending].
Example example_trace : map snd (trace example_timeouts example_events) =
  [Passed; Pending [50]; Nothing; Pending [50; 8]; Nothing;
   Passed; Nothing; Pending [16]; Nothing; Passed;
   Pending [36; 20]; Nothing; Passed; Nothing; Pending [36; 26]; Nothing; Timed_out (Idle 8)].
Proof. vm_compute. reflexivity. Qed.
Example example_headers : map snd (trace example_timeouts
  [Poll_response Response_pending; Tick 3; Drop_request; Tick 1; Poll_response Response_pending; Tick 10; Poll_response Response_pending]) =
  [Pending [50]; Nothing; Nothing; Nothing; Pending [14]; Nothing; Timed_out (Headers 10)].
Proof. vm_compute. reflexivity. Qed.
(** Frames keep coming: the response times out 30 after the request was flushed. *)
Example example_body : map snd (trace example_timeouts
  ([Poll_request (Body_ready true); Poll_response Response_ok] ++
   concat (repeat [Tick 6; Poll_body (Body_ready false)] 5) ++ [Poll_body Body_pending; Poll_body Body_pending])) =
  [Passed; Passed] ++ concat (repeat [Nothing; Passed] 5) ++ [Timed_out (Response 30); Pending [38]].
Proof. vm_compute. reflexivity. Qed.
