(** What C21 says, about what is seen of a gate from outside. *)
From Coq Require Import List Arith Bool.
From Verif Require Import GateModel.
Import ListNotations.

(** How clone [i] stands after what was seen: it has no readiness and is not asking;
    its `poll_ready` runs; its last `poll_ready` was pending; it is ready. *)
Inductive standing := Out | Asking | Waiting | May_pass.
Definition turn (i : nat) (s : standing) (e : seen) : standing :=
  match e with
  | Polled j => if j =? i then Asking else s
  | Ready j => if j =? i then May_pass else s
  | Pending j => if j =? i then Waiting else s
  | Failed j => if j =? i then Out else s
  | Pass j _ => if j =? i then Out else s
  | Dropped j => if j =? i then Out else s
  | _ => s
  end.
Definition stands (i : nat) (l : list seen) : standing := fold_left (turn i) l Out.

(** What may be seen next: a request passes only with a readiness, which it uses up. *)
Definition allowed (l : list seen) (e : seen) : Prop :=
  match e with
  | Pass i _ => stands i l = May_pass
  | Ready i | Pending i | Failed i => stands i l = Asking
  | Panic i => stands i l = Out \/ stands i l = Waiting
  | Polled i | Dropped i => stands i l <> Asking
  | _ => True
  end.

Definition is_pass (e : seen) : bool := match e with Pass _ _ => true | _ => false end.
Definition is_set (e : seen) : bool := match e with Set_ _ => true | _ => false end.
Definition is_returned (e : seen) : bool := match e with Returned => true | _ => false end.
Definition count (f : seen -> bool) (l : list seen) : nat := length (filter f l).
(** Every call of `open`, `limit` or `shut` has returned. *)
Definition settled (l : list seen) : Prop := count is_set l = count is_returned l.
Definition no_set (l : list seen) : Prop := count is_set l = 0.

(** Requests that pass (clones that are ready) in [l] after a `poll_ready` that began
    in [l]. *)
Fixpoint fresh (f : seen -> option nat) (polled : list nat) (l : list seen) : nat :=
  match l with
  | [] => 0
  | Polled i :: l => fresh f (i :: polled) l
  | e :: l =>
      match f e with
      | Some i => if existsb (Nat.eqb i) polled then 1 else 0
      | None => 0
      end + fresh f polled l
  end.
Definition passing (e : seen) : option nat := match e with Pass i _ => Some i | _ => None end.
Definition readying (e : seen) : option nat := match e with Ready i => Some i | _ => None end.
Definition fresh_passes : list seen -> nat := fresh passing [].
Definition fresh_readies : list seen -> nat := fresh readying [].

(** Whether a clone exists *)
Definition alive (i : nat) (es : list event) (l : list seen) : Prop :=
  i < S (length (filter (fun e => match e with Clone => true | _ => false end) es)) /\ ~ In (Dropped i) l.

(** The setting in force *)
Definition setting_now (l : list seen) : setting :=
  fold_left (fun s e => match e with Set_ x => x | _ => s end) l To_open.
