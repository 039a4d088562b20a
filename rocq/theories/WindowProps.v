(** C17 *)
From Coq Require Import List NArith Bool Lia.
From Verif Require Import WindowModel WindowSpec WindowProofs.
Import ListNotations.
Open Scope N_scope.

(** The totals after any responses, recorded at times that do not go back; a slice
    is a tenth of the window, which is at least 10 ms. *)
Theorem C17_totals : forall t0 w h, ordered t0 h -> last_time t0 h < 2 ^ 64 ->
  totals (record_all (new w t0) h) =
  (successes t0 (N.max w 10000000 / 10) (last_time t0 h) h, responses t0 (N.max w 10000000 / 10) (last_time t0 h) h).
Proof. exact new_totals. Qed.
Print Assumptions C17_totals.

(** After a reset, what was recorded before does not count. *)
Theorem C17_reset : forall w t0 h0 t1 h1, ordered t0 h0 -> last_time t0 h0 < 2 ^ 64 ->
  ordered t1 h1 -> last_time t1 h1 < 2 ^ 64 ->
  totals (record_all (reset (record_all (new w t0) h0) t1) h1) =
  (successes t1 (N.max w 10000000 / 10) (last_time t1 h1) h1, responses t1 (N.max w 10000000 / 10) (last_time t1 h1) h1).
Proof. exact reset_lengths. Qed.
Print Assumptions C17_reset.

(** Unless a slice has 2^32 responses, these are the plain numbers of live responses. *)
Theorem C17_plain_counts : forall t0 w now h, 0 < w -> ordered t0 h -> last_time t0 h <= now -> not_crowded t0 w h ->
  responses t0 w now h = count (live t0 w now) h /\
  successes t0 w now h = count (fun s => live t0 w now s && snd s) h.
Proof. exact counts_plain. Qed.
Print Assumptions C17_plain_counts.
(** A response is live for nine slices at least and for ten at most. *)
Theorem C17_recent_counts : forall t0 w now s, 0 < w -> t0 <= fst s -> fst s <= now -> now - fst s <= 9 * w ->
  live t0 w now s = true.
Proof. exact live_young. Qed.
Print Assumptions C17_recent_counts.
Theorem C17_old_does_not_count : forall t0 w now s, 0 < w -> t0 <= fst s -> 10 * w <= now - fst s ->
  live t0 w now s = false.
Proof. exact live_old. Qed.
Print Assumptions C17_old_does_not_count.

Definition demo : list (N * bool) :=
  [(0, true); (1000000, false); (9999999, true); (10000000, true); (10999999, false); (25000000, false)].
Example C17_demo : ordered 0 demo /\ last_time 0 demo < 2 ^ 64 /\ not_crowded 0 1000000 demo /\
  totals (record_all (new 0 0) (firstn 4 demo)) = (2, 3) /\
  totals (record_all (new 0 0) (firstn 5 demo)) = (2, 4) /\
  totals (record_all (new 0 0) demo) = (0, 1).
Proof.
  split; [vm_compute; intuition discriminate|]. split; [reflexivity|]. split.
  - intros x. unfold count. apply N.le_trans with (N.of_nat (length demo)).
    + assert (H : forall f (l : list (N * bool)), (length (filter f l) <= length l)%nat).
      { intros f l. induction l as [|y l IH]; cbn; [lia|]. destruct (f y); cbn; lia. }
      specialize (H (in_slice 0 1000000 x) demo). lia.
    + vm_compute. discriminate.
  - vm_compute. auto.
Qed.
