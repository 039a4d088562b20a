(** What C25 says *)
From Coq Require Import List Arith Bool.
From Verif Require Import GaugeModel.
Import ListNotations.

Definition created (l : list op) : nat := length (filter (fun o => match o with New => true | _ => false end) l).
Definition live (l : list op) (i : nat) : bool :=
  (i <? created l) && negb (existsb (fun o => match o with Drop j => Nat.eqb i j | _ => false end) l).
(** What the endpoint said last, errors aside *)
Definition said (l : list op) (i : nat) : option answer :=
  fold_left (fun x o => match o with
                        | Poll j Ready => if Nat.eqb i j then Some Ready else x
                        | Poll j Pending => if Nat.eqb i j then Some Pending else x
                        | _ => x
                        end) l None.
(** How many endpoints there are that said last that they are ready (pending) *)
Definition ready_endpoints (l : list op) : nat :=
  length (filter (fun i => live l i && match said l i with Some Ready => true | _ => false end) (seq 0 (created l))).
Definition pending_endpoints (l : list op) : nat :=
  length (filter (fun i => live l i && match said l i with Some Pending => true | _ => false end) (seq 0 (created l))).
