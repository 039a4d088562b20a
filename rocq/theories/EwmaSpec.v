(** Specification for C09. *)
From Coq Require Import List ZArith Reals.
From Verif Require Import EwmaModel.
Import ListNotations.
Open Scope R_scope.

(** An average as the constructors give it, whose initial value, if any, is in
    [lo, hi]. *)
Inductive fresh (lo hi : R) : ewma -> Prop :=
| fresh_new d t : fresh lo hi (new d t)
| fresh_value d t v : lo <= v <= hi -> fresh lo hi (new_with_value d t v).

Definition within (lo hi : R) (v : value) : Prop :=
  match v with Inf => True | Fin r => lo <= r <= hi end.
Definition finite (v : value) : Prop := exists r, v = Fin r.

(** The same sample observed at each of the (increasing) times [ts]. *)
Definition samples (v : R) (ts : list Z) : list op := map (OpAdd v) ts.
Fixpoint increasing (t : Z) (ts : list Z) : Prop :=
  match ts with [] => True | x :: r => (t < x)%Z /\ increasing x r end.
