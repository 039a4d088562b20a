(** Specification for C17: what the success-rate window should count. *)
From Coq Require Import List NArith Bool Reals.
Import ListNotations.
Open Scope N_scope.

(** Time is cut into slices of a tenth of the window, counted from [t0]; at time [now]
    the slices 0 to 9 back from the present one are live. *)
Definition slice (t0 width t : N) : N := (t - t0) / width.
Definition live (t0 width now : N) (s : N * bool) : bool :=
  slice t0 width now - slice t0 width (fst s) <? 10.

(** The number of responses, and of successes, of the live slices; a slice counts
    at most 2^32-1 of them. *)
Definition count {A} (f : A -> bool) (h : list A) : N := N.of_nat (length (filter f h)).
Definition cap (n : N) : N := N.min n (2 ^ 32 - 1).
Definition in_slice (t0 width x : N) (s : N * bool) : bool := slice t0 width (fst s) =? x.
(** The sum over the slice of [now] and the nine before it. *)
Definition over_slices (t0 width now : N) (f : N -> N) : N :=
  fold_right (fun k a => (if k <=? slice t0 width now then f (slice t0 width now - k) else 0) + a) 0
    [0;1;2;3;4;5;6;7;8;9].
Definition responses (t0 width now : N) (h : list (N * bool)) : N :=
  over_slices t0 width now (fun x => cap (count (in_slice t0 width x) h)).
Definition successes (t0 width now : N) (h : list (N * bool)) : N :=
  over_slices t0 width now (fun x => cap (count (fun s => in_slice t0 width x s && snd s) h)).
(** No slice has so many. *)
Definition not_crowded (t0 w : N) (h : list (N * bool)) : Prop :=
  forall x, count (in_slice t0 w x) h <= 2 ^ 32 - 1.

(** Times do not go back. *)
Fixpoint ordered (t : N) (h : list (N * bool)) : Prop :=
  match h with
  | [] => True
  | s :: h => t <= fst s /\ ordered (fst s) h
  end.
Definition last_time (t0 : N) (h : list (N * bool)) : N := fst (last h (t0, true)).
