(** Specification for C20. *)
From Coq Require Import String List NArith Bool.
From Verif Require Import Bytes RetrySpec.
Import ListNotations.
Open Scope N_scope.

(** The value without the blanks around it. *)
Definition trimmed (v t : bytes) : Prop :=
  exists w1 w2, v = w1 ++ t ++ w2 /\ blanks w1 /\ blanks w2 /\
    (forall c r, t = c :: r -> c <> 32 /\ c <> 9) /\ (forall c r, t = r ++ [c] -> c <> 32 /\ c <> 9).
(** Visible ASCII, blanks and tabs. *)
Definition printable (v : bytes) : Prop := Forall (fun c => 32 <= c < 127 \/ c = 9) v.

(** A decimal number of seconds that fits 64 bits; otherwise a date, of which the
    time left counts. *)
Definition delay_text (date : bytes -> option N) (now max : N) (v : bytes) (d : N) : Prop :=
  exists t, trimmed v t /\
    ((exists secs, number t secs /\ secs < 2 ^ 64 /\ d = N.min (secs * 10 ^ 9) max) \/
     (~ (exists secs, number t secs /\ secs < 2 ^ 64)) /\
     exists at_, date t = Some at_ /\ d = N.min (at_ - now) max).
(** A number of milliseconds below 2^31 that is not negative. *)
Definition pushback_text (max : N) (v : bytes) (d : N) : Prop :=
  exists t ms, trimmed v t /\ ms < 2 ^ 31 /\ d = N.min (ms * 10 ^ 6) max /\
    (number t ms \/ ms = 0 /\ exists z, t = bs "-" ++ z /\ digits z /\ decimal z = 0).
