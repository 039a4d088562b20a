(** What C45 says *)
From Coq Require Import List NArith ZArith QArith Sorted Bool.
From Verif Require Import HistogramModel.
Import ListNotations.
Open Scope N_scope.

(** [a] is below [b]: numbers in their order, then [+Inf].  NaN is nowhere. *)
Inductive below : bucket -> bucket -> Prop :=
| below_inf : forall x, x <> Nan -> below (Le x) Inf
| below_num : forall a b, (a < b)%Q -> below (Le (Finite a)) (Le (Finite b))
| below_large : forall a, below (Le (Finite a)) (Le (Infinite false))
| below_small : forall b, below (Le (Infinite true)) (Le (Finite b))
| below_both : below (Le (Infinite true)) (Le (Infinite false)).
(** An observation is at most the bound. *)
Definition at_most (b : bucket) (v : N) : bool :=
  match b with
  | Inf => true
  | Le (Infinite negative) => negb negative
  | Le (Finite q) => Qle_bool (inject_Z (Z.of_N v)) q
  | Le Nan => false
  end.
Definition count (f : N -> bool) (vs : list N) : N := N.of_nat (length (filter f vs)).
Definition total (vs : list N) : N := fold_right N.add 0 vs.
(** An observation that a float holds exactly *)
Definition precise (v : N) : Prop := v <= 2 ^ 53.
(** The histogram after some observations *)
Definition observed (bs : list bucket) (vs : list N) (h : histogram) : Prop :=
  exists h0, new bs = Some h0 /\ add_all h0 vs = Some h.
Definition value_of (l : line) : N := match l with Bucket_line _ n | Count_line n | Sum_line n => n end.
(** The bucket of an observation: as many bounds as are below it come before. *)
Definition bucket_of (bs : list bucket) (v : N) : nat := length (filter (fun b => negb (at_most b v)) bs).
(** Duration in nanoseconds *)
Definition nanoseconds (d : duration) : N := secs d * 10 ^ 9 + nanos d.
(** [counts] is what a report reads while observations are added: bucket [i] after the first
    [ns i] of them, later buckets not before *)
Definition read_at (bs : list bucket) (vs : list N) (ns : list nat) (counts : list N) : Prop :=
  length ns = length bs /\ length counts = length bs /\
  (forall i j n m, (i <= j)%nat -> nth_error ns i = Some n -> nth_error ns j = Some m -> (n <= m)%nat) /\
  forall i n, nth_error ns i = Some n -> exists h, observed bs (firstn n vs) h /\ nth_error (buckets h) i = nth_error counts i.
