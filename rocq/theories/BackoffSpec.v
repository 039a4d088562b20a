(** What C08 asks of a sequence of polls. *)
From Coq Require Import List NArith.
From Verif Require Import BackoffModel.
Import ListNotations.
Open Scope N_scope.

(** The delay before the [n]-th item, without jitter: doubling from the
    minimum, 32 times at most, never above the maximum. *)
Definition multiplier (n : N) : N := if n <? 32 then 2 ^ n else 2 ^ 32 - 1.
Definition plain_delay (min max n : N) : N := N.min (min * multiplier n) max.

(** Every item comes at least the plain delay after the one before; the stream
    ends only after 2^32-1 items.  [n] is the number of items so far, [last]
    the time of the last one. *)
Inductive paced (min max : N) : N -> N -> list (N * output) -> Prop :=
| paced_nil n last : paced min max n last []
| paced_pending n last t rest :
    paced min max n last rest -> paced min max n last ((t, Pending) :: rest)
| paced_item n last t rest :
    last + plain_delay min max n <= t ->
    paced min max (n + 1) t rest -> paced min max n last ((t, Item) :: rest)
| paced_end n last t rest :
    n = 2 ^ 32 - 1 -> paced min max n last rest -> paced min max n last ((t, End) :: rest)
| paced_panic n last t rest :
    paced min max n last rest -> paced min max n last ((t, Panic) :: rest).

(** A poll is pending only if fewer than [max] nanoseconds passed since the
    first pending poll of the current wait. *)
Definition prompt (max : N) (trace : list (N * output)) : Prop :=
  forall before t0 mid t after,
    trace = before ++ (t0, Pending) :: mid ++ (t, Pending) :: after ->
    (forall o, In o mid -> snd o = Pending) -> t < t0 + max.

Fixpoint clock_from (t : N) (is : list input) : Prop :=
  match is with
  | [] => True
  | i :: is' => t <= in_now i /\ clock_from (in_now i) is'
  end.

(** The longest duration there is, in nanoseconds: [2^64 - 1] seconds and all the nanoseconds below another *)
Definition longest : N := 18446744073709551615999999999.
