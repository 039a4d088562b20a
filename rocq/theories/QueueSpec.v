(** What C24 says *)
From Coq Require Import List Arith NArith Bool.
From Verif Require Import QueueModel.
Import ListNotations.

Definition accepted (l : list event) : list nat := flat_map (fun e => match e with Accepted m _ => [m] | _ => [] end) l.
Definition answered (l : list event) : list nat := flat_map (fun e => match e with Dispatched m _ | Failed m _ _ => [m] | _ => [] end) l.
Definition stopped (l : list event) : bool := existsb (fun e => match e with Stopped => true | _ => false end) l.
(** A client is told that the pool failed with e *)
Definition tells (x : event) (e : N) : Prop := match x with Failed _ (Terminal e') _ | Rejected e' _ => e' = e | _ => False end.
(** What can happen once a client was told that the pool failed with e *)
Definition same_error (e : N) (x : event) : Prop :=
  match x with
  | Dispatched _ _ | Failed _ Fail_fast _ => False
  | Failed _ (Terminal e') _ | Rejected e' _ => e' = e
  | _ => True
  end.
(** What happens without the help of the pool, of discovery and of other clients *)
Definition alone (i : input) : bool := match i with Time _ | Pool_pending | Recv | Continue => true | _ => false end.
Inductive steps (capacity : nat) (timeout : N) : state -> list input -> list event -> state -> Prop :=
| steps_none : forall s, steps capacity timeout s [] [] s
| steps_one : forall s i s1 l1 is l2 s2, step capacity timeout s i = Next s1 l1 -> steps capacity timeout s1 is l2 s2 -> steps capacity timeout s (i :: is) (l1 ++ l2) s2.
