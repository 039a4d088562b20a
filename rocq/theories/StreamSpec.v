(** What the theorems about log streams say, in terms of histories. *)
From Coq Require Import String List Arith NArith Bool.
From Verif Require Import Bytes StreamModel.
Import ListNotations.
Local Open Scope nat_scope.

(** How many streams have been started. *)
Fixpoint opens (h : list event) : nat :=
  match h with [] => 0 | Open _ :: h => S (opens h) | _ :: h => opens h end.

(** Stream [i] is started with filter [f], and [h] happens since. *)
Definition since (all : list event) (i : nat) (f : N) (h : list event) : Prop :=
  exists before, all = before ++ Open f :: h /\ opens before = i.

(** An interest says no more than what is so: a callsite of no interest is never enabled, and one that
    is always of interest is always enabled. *)
Definition truthful (enabled : N -> N -> N -> bool) (cares : N -> N -> interest) : Prop :=
  forall f meta ctx, (cares f meta = Never -> enabled f meta ctx = false) /\ (cares f meta = Always -> enabled f meta ctx = true).

(** The lines of what is logged and passes the filter. *)
Fixpoint wanted (enabled : N -> N -> N -> bool) (f : N) (h : list event) : list bytes :=
  match h with
  | [] => []
  | Emit meta ctx line :: h => if enabled f meta ctx then line :: wanted enabled f h else wanted enabled f h
  | _ :: h => wanted enabled f h
  end.

(** The lines among frames, and how many lines they report lost. *)
Fixpoint lines (l : list frame) : list bytes :=
  match l with [] => [] | Line x :: l => x :: lines l | Dropped _ :: l => lines l end.
Fixpoint reported (l : list frame) : N :=
  match l with [] => 0%N | Line _ :: l => reported l | Dropped n :: l => (n + reported l)%N end.

(** [kept] is [all] without so many of its elements, in the same order. *)
Inductive without {A} : list A -> list A -> N -> Prop :=
| Wo_nil : without [] [] 0
| Wo_keep x all kept n : without all kept n -> without (x :: all) (x :: kept) n
| Wo_lose x all kept n : without all kept n -> without (x :: all) kept (n + 1).

(** A stream that has not ended. *)
Definition live (s : state) (i : nat) : Prop := exists r, nth_error (st_streams s) i = Some r /\ r_task r <> Ended.

(** What the client of a stream has read. *)
Definition has_read (s : state) (i : nat) : list frame :=
  match nth_error (st_streams s) i with Some r => r_read r | None => [] end.

(** Does the event concern stream [i]?  What is logged concerns all. *)
Definition concerns (i : nat) (e : event) : bool :=
  match e with
  | Open _ => false
  | Emit _ _ _ => true
  | Task j | Read j | Hang_up j => j =? i
  end.

(** So many times the task is polled and the client reads. *)
Fixpoint rounds (i n : nat) : list event :=
  match n with 0 => [] | S n => Task i :: Read i :: rounds i n end.

(** A text that is one line. *)
Definition one_line (l : bytes) : Prop := exists a, l = a ++ [10%N] /\ ~ In 10%N a.
