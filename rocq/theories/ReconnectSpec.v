(** What C130 says, without the model's rounds. *)
From Coq Require Import List Arith.
From Verif Require Import ReconnectModel.
Import ListNotations.

(** The waits since a service was last ready for the first time *)
Fixpoint waits_since (log : list seen) (acc : list (nat * nat)) : list (nat * nat) :=
  match log with
  | [] => acc
  | Up _ :: log => waits_since log []
  | Waited b n :: log => waits_since log (acc ++ [(b, n)])
  | _ :: log => waits_since log acc
  end.
Definition waits (log : list seen) : list (nat * nat) := waits_since log [].
(** The last service that was made, or that was ready *)
Fixpoint last_made (log : list seen) (k : option nat) : option nat :=
  match log with [] => k | Made j :: log => last_made log (Some j) | _ :: log => last_made log k end.
