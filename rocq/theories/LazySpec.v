(** Services that are built when they are first used (C152). *)
From Coq Require Import List Arith.
From Verif Require Import LazyModel.
Import ListNotations.

(** How many handles there are after a history: one, and one more for each clone of one that there was *)
Definition grown (n : nat) (o : op) : nat := match o with Clone h => if h <? n then S n else n | _ => n end.
Definition handles (ops : list op) : nat := fold_left grown ops 1.
(** A step uses a handle by polling it, which is what builds a service. *)
Definition polls_one (n : nat) (o : op) : Prop := exists h panics, o = Poll h panics /\ h < n.
(** No step of a history up to which `n` handles were polls any of them. *)
Fixpoint unused (n : nat) (ops : list op) : Prop :=
  match ops with [] => True | o :: ops => ~ polls_one n o /\ unused (grown n o) ops end.
(** Building does not panic. *)
Definition calm (ops : list op) : Prop := forall h, ~ In (Poll h true) ops.
(** What is built, and panics to build *)
Definition builds {T} (e : event T) : bool := match e with Made _ _ | Making_panics => true | _ => false end.
