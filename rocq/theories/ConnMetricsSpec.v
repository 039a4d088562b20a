(** What the counters of connections should say: from the history alone *)
From Coq Require Import List NArith Bool Arith.
From Verif Require Import ConnMetricsModel.
Import ListNotations.
Open Scope N_scope.

(** How many connections were opened, and their numbers *)
Definition opened (h : list input) : nat := length (filter (fun i => match i with Open _ => true | _ => false end) h).
Definition ids (h : list input) : list nat := seq 0 (opened h).

(** The input ends this connection: an error other than `WouldBlock`, or its drop *)
Definition ends (id : nat) (i : input) : bool :=
  match i with
  | Io j _ (Failed false _) _ => Nat.eqb j id
  | Drop j _ => Nat.eqb j id
  | _ => false
  end.
(** The numbers of errors that have a name: 1 to 131, of which 41 and 58 have none; the others are said to be unknown *)
Definition named (e : N) : N := if (e =? 0) || (131 <? e) || (e =? 41) || (e =? 58) then 0 else e.
(** What ended it, if something did: the error's code, if the system gave one *)
Definition ending (h : list input) (id : nat) : option (option N) :=
  match find (ends id) h with
  | Some (Io _ _ (Failed _ (Some e)) _) => Some (Some (named e))
  | Some _ => Some None
  | None => None
  end.
Definition still_open (h : list input) (id : nat) : bool := match ending h id with None => true | Some _ => false end.
Definition ended_with (h : list input) (e : option N) (id : nat) : bool := match ending h id with None => false | Some e' => eos_eqb e' e end.

(** What was read from it, or written to it, before that *)
Fixpoint until (f : input -> bool) (l : list input) : list input :=
  match l with [] => [] | x :: l => if f x then [] else x :: until f l end.
Definition is_read (id : nat) (i : input) : N := match i with Io j Read (Done n) _ => if Nat.eqb j id then n else 0 | _ => 0 end.
Definition is_write (id : nat) (i : input) : N := match i with Io j Write (Done n) _ => if Nat.eqb j id then n else 0 | _ => 0 end.
Definition sum {A} (f : A -> N) (l : list A) : N := fold_right (fun x n => f x + n) 0 l.
Definition bytes_read (h : list input) (id : nat) : N := sum (is_read id) (until (ends id) h).
Definition bytes_written (h : list input) (id : nat) : N := sum (is_write id) (until (ends id) h).

(** What the counters say about those that ended so *)
Definition close_total (m : metrics) (e : option N) : N :=
  match find (fun x => eos_eqb (fst x) e) (closes m) with Some (_, n) => n | None => 0 end.
(** When the input was *)
Definition time (i : input) : N := match i with Open t | Io _ _ _ t | Drop _ t => t end.
