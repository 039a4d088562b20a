(** What C26 says *)
From Coq Require Import List Arith NArith Bool.
From Verif Require Import CacheModel.
Import ListNotations.

Definition clock_of (eo : event * output) : N := match fst eo with Tick d => d | _ => 0%N end.
(** The time that passed *)
Definition clock (tr : list (event * output)) : N := fold_right (fun eo n => clock_of eo + n)%N 0%N tr.
(** How many handles are held: those given out and cloned, without those dropped.  Only
    a handle that is held can be cloned or dropped. *)
Definition hold (h : nat) (n : nat) (eo : event * output) : nat :=
  match eo with
  | (_, Got (Some (_, Some h'))) => if h =? h' then S n else n
  | (Clone h', _) => if h =? h' then match n with 0 => 0 | _ => S n end else n
  | (Drop h', _) => if h =? h' then pred n else n
  | _ => n
  end.
Definition holders (h : nat) (tr : list (event * output)) : nat := fold_left (hold h) tr 0.
(** Drops that were begun and have not ended *)
Definition drops (h : nat) (p : nat * nat) (eo : event * output) : nat * nat :=
  let (n, d) := p in
  (hold h n eo,
   match fst eo with
   | Drop h' => if h =? h' then match n with 0 => d | _ => S d end else d
   | Release h' => if h =? h' then pred d else d
   | _ => d
   end).
Definition dropping (h : nat) (tr : list (event * output)) : nat := snd (fold_left (drops h) tr (0, 0)).
(** A lookup of [k] gave this *)
Definition looked_up (k : key) (e : event) : Prop := e = Get k \/ exists v, e = Insert k v.
(** Held at every point of [tr] after [before] *)
Definition held_throughout (h : nat) (before tr : list (event * output)) : Prop :=
  forall a b, tr = a ++ b -> 0 < holders h (before ++ a).
Definition unheld_throughout (h : nat) (before tr : list (event * output)) : Prop :=
  forall a b, tr = a ++ b -> holders h (before ++ a) = 0.
Definition never_permanent (k : key) (tr : list (event * output)) : Prop :=
  forall v o, ~ In (Permanent k v, o) tr.
(** A handle was dropped *)
Definition dropped (h : nat) (before tr : list (event * output)) : Prop :=
  exists a o b, tr = a ++ (Drop h, o) :: b /\ 0 < holders h (before ++ a).
(** A value was put in for a key *)
Definition put (k : key) (v : value) (tr : list (event * output)) : Prop :=
  exists e o, In (e, o) tr /\ (e = Insert k v \/ e = Permanent k v).
