(** What C36 and C37 say *)
From Coq Require Import List NArith Bool.
From Verif Require Import TimeoutModel.
Import ListNotations.
Open Scope N_scope.

Definition entry := (event * output)%type.
Definition ticks (x : entry) : N := match fst x with Tick d => d | _ => 0 end.
(** The time that passed since the call *)
Definition clock (tr : list entry) : N := fold_right (fun x n => ticks x + n) 0 tr.

(** ** Deadlines *)
(** When the end of the request's body was read *)
Fixpoint ended (t : N) (tr : list entry) : option N :=
  match tr with
  | [] => None
  | (Poll_request (Body_ready true), Passed) :: _ => Some t
  | x :: tr => ended (t + ticks x) tr
  end.
(** When the response was first polled after the request's body was dropped, or now *)
Fixpoint noticed (dropped : bool) (t : N) (tr : list entry) : option N :=
  match tr with
  | [] => if dropped then Some t else None
  | (Drop_request, _) :: tr => noticed true t tr
  | (Poll_response r, o) :: tr => if dropped then Some t else noticed dropped t tr
  | x :: tr => noticed dropped (t + ticks x) tr
  end.
(** When the request was flushed, for the response *)
Definition flushed (tr : list entry) : option N :=
  match ended 0 tr with Some t => Some t | None => noticed false 0 tr end.

Definition opt {A B} (o : option A) (f : A -> B) : list B := match o with Some a => [f a] | None => [] end.
(** What may time out while waiting for the response: the lifetime; the response's headers
    after the request was flushed; its end, if there is no timeout for headers *)
Definition headers_due (t : timeouts) (flushed : option N) : list (N * error) :=
  opt (limit t) (fun l => (fst l, Lifetime (snd l))) ++
  match flushed with
  | None => []
  | Some f =>
      match response_headers t with
      | Some h => [(f + h, Headers h)]
      | None => opt (response_end t) (fun e => (f + e, Response e))
      end
  end.
(** while reading the response, which started at [start]; while sending the request *)
Definition response_due (t : timeouts) (start : N) : list (N * error) :=
  opt (limit t) (fun l => (fst l, Lifetime (snd l))) ++ opt (response_end t) (fun e => (start + e, Response e)).
Definition request_due (t : timeouts) : list (N * error) := opt (limit t) (fun l => (fst l, Lifetime (snd l))).
(** The earliest of them; the first if there are several *)
Fixpoint earliest (l : list (N * error)) : option (N * error) :=
  match l with
  | [] => None
  | x :: l => match earliest l with Some y => if fst y <? fst x then Some y else Some x | None => Some x end
  end.
(** Response headers came after [h]: when the response's timeout starts *)
Definition start_of (h : list entry) : N := match flushed h with Some f => f | None => clock h end.

(** ** Activity *)
Definition active (x : entry) : bool :=
  match x with
  | (Poll_request (Body_ready _), Passed) | (Poll_body (Body_ready _), Passed) | (Poll_response Response_ok, Passed) => true
  | _ => false
  end.
(** The call, a frame of either body, or the response's headers at [t] *)
Definition activity_at (t : N) (tr : list entry) : Prop :=
  t = 0 \/ exists a x b, tr = a ++ x :: b /\ active x = true /\ t = clock a.
Definition idle_for (i : N) (tr : list entry) : Prop := forall t, activity_at t tr -> t + i <= clock tr.

(** ** What polling a pending body returns, after [tr] *)
Definition is_deadline (e : error) : bool := match e with Idle _ => false | _ => true end.
Inductive body_answer (t : timeouts) (due : option (N * error)) (fired : Prop) (tr : list entry) : output -> Prop :=
| at_deadline : forall d e, ~ fired -> due = Some (d, e) -> d <= clock tr ->
    body_answer t due fired tr (Timed_out e)
| when_idle : forall i, (fired \/ forall d e, due = Some (d, e) -> clock tr < d) ->
    idle t = Some i -> idle_for i tr -> body_answer t due fired tr (Timed_out (Idle i))
| pending : forall wakes, (fired \/ forall d e, due = Some (d, e) -> clock tr < d) ->
    (forall i, idle t = Some i -> ~ idle_for i tr) ->
    (* it is woken in time, and not at once *)
    (forall w, In w wakes -> clock tr < w) ->
    (forall d e, ~ fired -> due = Some (d, e) -> In d wakes) ->
    (forall i, idle t = Some i -> exists w a, In w wakes /\ activity_at a tr /\ w <= a + i) ->
    body_answer t due fired tr (Pending wakes).
Definition request_fired (tr : list entry) : Prop :=
  exists e, In (Poll_request Body_pending, Timed_out e) tr /\ is_deadline e = true.
Definition response_fired (tr : list entry) : Prop :=
  exists e, In (Poll_body Body_pending, Timed_out e) tr /\ is_deadline e = true.
(** What polling for a pending response returns, after [tr] *)
Inductive headers_answer (due : option (N * error)) (tr : list entry) : output -> Prop :=
| headers_late : forall d e, due = Some (d, e) -> d <= clock tr -> headers_answer due tr (Timed_out e)
| headers_wait : forall d e, due = Some (d, e) -> clock tr < d -> headers_answer due tr (Pending [d])
| headers_free : due = None -> headers_answer due tr (Pending []).
(** The response was neither received nor given up. *)
Definition awaiting (tr : list entry) : Prop :=
  forall r o, In (Poll_response r, o) tr -> exists wakes, o = Pending wakes.
(** Every timeout that the user would expect to apply while waiting for the response *)
Definition all_due (t : timeouts) (flushed : option N) : list (N * error) :=
  opt (limit t) (fun l => (fst l, Lifetime (snd l))) ++
  match flushed with
  | None => []
  | Some f => opt (response_headers t) (fun h => (f + h, Headers h)) ++ opt (response_end t) (fun e => (f + e, Response e))
  end.
