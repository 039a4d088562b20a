(** C130: a service that is made again after it failed. *)
From Coq Require Import List Arith.
From Verif Require Import ReconnectModel ReconnectSpec ReconnectProofs.
Import ListNotations.

(** The first service fails twice to connect, the third time it is ready; then it fails, and is made again. *)
Definition some_rounds : list asked :=
  [Nobody; Service A_pending; Service (A_err true); Timer M_pending; Timer M_some; Service (A_err true); Timer M_some;
   Service A_ok; Service A_ok; Service (A_err true); Timer M_some].
Example C130_case : exists r, rounds new some_rounds = Some (r, None) /\
  e_seen r = [Made 0; Gave_up 0; Waited 0 1; Made 1; Gave_up 1; Waited 0 2; Made 2; Up 2; Gave_up 2; Waited 2 1; Made 3] /\
  waits (e_seen r) = [(2, 1)].
Proof. eexists. split; [vm_compute; reflexivity|]. split; reflexivity. Qed.

(** When it says that it is ready, a request does not panic, and it goes to the service that was made last, which has been ready
    and was not given up. *)
Theorem C130_ready : forall l r, rounds new l = Some (r, Some Ready) ->
  exists k before, call r = Some k /\ e_seen r = before ++ [Made k; Up k].
Proof. exact no_panic. Qed.
Print Assumptions C130_ready.
Example C130_ready_case : exists r, rounds new (firstn 9 some_rounds) = Some (r, Some Ready) /\ call r = Some 2.
Proof. eexists. split; vm_compute; reflexivity. Qed.

(** The first service is made at once; every other one after the one before it was given up, and a wait after that. *)
Theorem C130_after_a_wait : forall l r x before k after, rounds new l = Some (r, x) -> e_seen r = before ++ Made k :: after ->
  (k = 0 /\ before = []) \/ exists before' j b n, k = S j /\ before = before' ++ [Gave_up j; Waited b n].
Proof. exact after_a_wait. Qed.
Print Assumptions C130_after_a_wait.

(** Until a service is ready, the waits are those of one backoff, in order, when backoffs do not end. *)
Theorem C130_backs_off : forall l r x, ~ In (Timer M_none) l -> rounds new l = Some (r, x) ->
  exists b n, waits (e_seen r) = map (pair b) (seq 1 n).
Proof. exact one_backoff. Qed.
Print Assumptions C130_backs_off.
Example C130_backs_off_case : exists r, rounds new (firstn 7 some_rounds) = Some (r, None) /\ waits (e_seen r) = [(0, 1); (0, 2)].
Proof. eexists. split; vm_compute; reflexivity. Qed.

(** An error is returned only when a service failed with one that there is no recovery from. *)
Theorem C130_errors : forall l r, rounds new l = Some (r, Some Error) -> exists l', l = l' ++ [Service (A_err false)].
Proof. exact errors. Qed.
Print Assumptions C130_errors.

(** What the service says is what is returned, unless it failed with an error from which there is recovery: then it goes on,
    and waits for the timer without an error. *)
Theorem C130_returns : forall l a r x, rounds new (l ++ [Service a]) = Some (r, x) ->
  x = match a with A_pending => Some Not_ready | A_ok => Some Ready | A_err false => Some Error | A_err true => None end.
Proof. exact returns. Qed.
Print Assumptions C130_returns.
Theorem C130_timer : forall l m r x, rounds new (l ++ [Timer m]) = Some (r, x) ->
  x = match m with M_pending => Some Not_ready | _ => None end.
Proof. exact asks_timer. Qed.
Print Assumptions C130_timer.
Example C130_returns_case : exists r s, rounds new (firstn 9 some_rounds ++ [Service (A_err false)]) = Some (r, Some Error) /\
  rounds new (firstn 9 some_rounds ++ [Service (A_err true); Timer M_pending]) = Some (s, Some Not_ready).
Proof. do 2 eexists. split; vm_compute; reflexivity. Qed.

(** A service that is ready each time and then fails starts a new backoff each time: it is made again and again after the first
    wait, without bound. *)
Theorem C130_flapping_refuted : forall n, exists l r, rounds new l = Some (r, None) /\
  length (filter (fun e => match e with Waited _ _ => true | _ => false end) (e_seen r)) = n /\
  forall b m, In (Waited b m) (e_seen r) -> m = 1.
Proof. exact flapping. Qed.
Print Assumptions C130_flapping_refuted.
