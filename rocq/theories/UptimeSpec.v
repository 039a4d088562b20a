(** What is logged, and the times of lines (C150). *)
From Coq Require Import String List NArith.
From Verif Require Import Bytes.
From Verif Require RetrySpec EnvSpec LogModel.
From Verif Require Import UptimeModel.
Import ListNotations.
Open Scope N_scope.

(** A setting that is that word, in any case, but for white space around it *)
Definition spells (v : option bytes) (word : bytes) : Prop := exists s t, v = Some s /\ EnvSpec.bare s t /\ lowers t = word.

(** A text that says a time: so many seconds and, with six digits, so many microseconds *)
Definition says (t : bytes) (secs micros : N) : Prop :=
  exists spaces s m, t = bs "["%string ++ repeat 32 spaces ++ s ++ bs "."%string ++ m ++ bs "s]"%string /\
    RetrySpec.digits s /\ RetrySpec.decimal s = secs /\ RetrySpec.digits m /\ RetrySpec.decimal m = micros /\
    List.length m = 6%nat /\ (spaces = 0 \/ spaces + List.length s = 6)%nat.

(** The order of texts, by their bytes, as tools that sort lines use it *)
Inductive before : bytes -> bytes -> Prop :=
| Before_end c s : before [] (c :: s)
| Before_here a b s t : a < b -> before (a :: s) (b :: t)
| Before_next a s t : before s t -> before (a :: s) (a :: t).
