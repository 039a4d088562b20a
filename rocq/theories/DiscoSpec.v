(** What C133 says, from the history. *)
From Coq Require Import List Arith NArith Bool.
From Verif Require Import DiscoModel.
Import ListNotations.

(** The keys of the services, in the order in which they were made *)
Definition news (h : list event) : list nat := flat_map (fun e => match e with New k => [k] | _ => [] end) h.
(** The keys that were looked up, in order *)
Definition lookups (s : state) : list nat := map t_key (thunks s).
Definition count (k : nat) (l : list nat) : nat := length (filter (Nat.eqb k) l).
(** The entries that went away *)
Definition evictions (h : list event) : list nat := flat_map (fun e => match e with Evicts k => [k] | _ => [] end) h.
(** How much time has passed *)
Definition clock (h : list event) : N := fold_right (fun e n => match e with Ticks d => d | _ => 0 end + n)%N 0%N h.
(** A service of a key is there. *)
Definition in_use (h : list event) (s : state) (k i : nat) (x : service) : Prop :=
  nth_error (news h) i = Some k /\ nth_error (services s) i = Some x /\ s_dropped x = false.
