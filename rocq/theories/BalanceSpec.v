(** What C138 says *)
From Coq Require Import List NArith ZArith Bool Reals.
From Verif Require Import Bytes ClientPolicyModel EwmaModel BiaserModel BiaserSpec BalanceModel.
Import ListNotations.
Open Scope N_scope.

Definition one_ms : N := 10 ^ 6.
(** A duration in whole milliseconds, and at most 2^32 - 1 of them *)
Definition whole_millis (d : N) : N := N.min (d / one_ms) (2 ^ 32 - 1) * one_ms.
Definition seconds (d : N) : R := (IZR (Z.of_N d) / 10 ^ 9)%R.
(** An endpoint of a backend whose policy has penalties and these durations, after what happened since [t0] *)
Definition penalized (date : bytes -> option N) (decay rtt penalty penalty_decay max : N) (t0 : Z) (l : list event) (b : biaser) : Prop :=
  exists c, new_service (Penalty_peak_ewma decay rtt penalty penalty_decay max) = By_penalty c /\ run date c t0 l b.
(** Nothing was observed after [t] *)
Definition observed_by (l : list event) (t : Z) : Prop := forall id v s, In (Recorded id v s) l -> (s <= t)%Z.
(** What is left of a value after a time, in nanoseconds, with a decay, in nanoseconds *)
Definition faded (x : R) (after : Z) (decay : N) : R := (x * exp (- (IZR after / IZR (Z.of_N decay))))%R.
