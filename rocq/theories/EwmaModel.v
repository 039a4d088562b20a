(** Model of linkerd/ewma/src/lib.rs.  Simplification: f64 values are real numbers
    plus infinity; rounding and NaN are not modelled.  Instants and durations are
    nanoseconds. *)
From Coq Require Import List ZArith Reals.
Import ListNotations.
Open Scope R_scope.

(** An f64 that is not NaN *)
Inductive value := Inf | Fin (r : R).

(** lib.rs:22-26 *)
Record ewma := Ewma { e_value : value; e_decay : R; e_timestamp : Z }.

(** `Duration::as_secs_f64` *)
Definition secs (ns : Z) : R := IZR ns / 1000000000.
(** lib.rs:19 *)
Definition MIN_DECAY : Z := 1000000%Z.

(** lib.rs:33-39 *)
Definition new (decay ts : Z) : ewma := Ewma Inf (secs (Z.max decay MIN_DECAY)) ts.
(** lib.rs:47-54 *)
Definition new_with_value (decay ts : Z) (initial : R) : ewma :=
  Ewma (Fin initial) (secs (Z.max decay MIN_DECAY)) ts.

(** lib.rs:65-69 *)
Definition reset (e : ewma) (v : R) (ts : Z) : ewma := Ewma (Fin v) (e_decay e) ts.

(** lib.rs:81-89 *)
Definition get_at (e : ewma) (now : Z) : value :=
  match e_value e with
  | Inf => Inf
  | Fin v =>
      if (now <=? e_timestamp e)%Z then Fin v
      else Fin (v * exp (- secs (now - e_timestamp e) / e_decay e))
  end.

(** lib.rs:95-113 *)
Definition add (e : ewma) (v : R) (ts : Z) : ewma :=
  if (ts <=? e_timestamp e)%Z then e
  else match e_value e with
       | Inf => Ewma (Fin v) (e_decay e) ts
       | Fin old =>
           let alpha := 1 - exp (- secs (ts - e_timestamp e) / e_decay e) in
           Ewma (Fin (old * (1 - alpha) + v * alpha)) (e_decay e) ts
       end.

(** lib.rs:122-130 *)
Definition add_peak (e : ewma) (v : R) (ts : Z) : ewma :=
  match get_at e ts with
  | Inf => Ewma (Fin v) (e_decay e) ts
  | Fin p => if Rlt_dec p v then Ewma (Fin v) (e_decay e) ts else add e v ts
  end.

(** lib.rs:65-69, 95-130: the calls that change an average *)
Inductive op := OpAdd (v : R) (ts : Z) | OpPeak (v : R) (ts : Z) | OpReset (v : R) (ts : Z).
(** Helper: the value of a call *)
Definition op_value (o : op) : R := match o with OpAdd v _ | OpPeak v _ | OpReset v _ => v end.
(** lib.rs:65-69, 95-130 *)
Definition apply (e : ewma) (o : op) : ewma :=
  match o with
  | OpAdd v ts => add e v ts
  | OpPeak v ts => add_peak e v ts
  | OpReset v ts => reset e v ts
  end.
(** A history of an average; not code of its own *)
Definition run (e : ewma) (l : list op) : ewma := fold_left apply l e.
