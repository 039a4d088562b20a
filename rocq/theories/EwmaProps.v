(** Property C09: the peak-sensitive moving average. *)
From Coq Require Import List ZArith Reals Lra.
From Verif Require Import EwmaModel EwmaSpec EwmaProofs.
Import ListNotations.
Open Scope R_scope.

(** After any observations the average lies between the smallest and the largest
    of the initial and the observed values. *)
Theorem C09_within_observed :
  forall lo hi e l, fresh lo hi e -> (forall o, In o l -> lo <= op_value o <= hi) ->
    within lo hi (e_value (run e l)).
Proof. exact bounds. Qed.
Print Assumptions C09_within_observed.

(** It is finite for ever from the first accepted observation. *)
Theorem C09_finite_after_sample :
  forall e v ts l, (e_timestamp e < ts)%Z -> finite (e_value (run (add e v ts) l)).
Proof. exact finite_after_observation. Qed.
Print Assumptions C09_finite_after_sample.

Theorem C09_finite_after_peak :
  forall e v ts l, finite (e_value (run (add_peak e v ts) l)).
Proof. exact finite_after_peak. Qed.
Print Assumptions C09_finite_after_peak.

(** A peak is never underestimated, neither by the stored value nor by the
    projection to the time of the peak. *)
Theorem C09_peak_not_below_sample :
  forall lo hi e0 l v ts, fresh lo hi e0 -> 0 <= v ->
    let e := add_peak (run e0 l) v ts in
    exists r p, e_value e = Fin r /\ v <= r /\ get_at e ts = Fin p /\ v <= p.
Proof.
  exact (fun lo hi e0 l v ts H Hv => peak_not_below (run e0 l) v ts (reachable_decay_pos lo hi e0 l H) Hv).
Qed.
Print Assumptions C09_peak_not_below_sample.

(** Projections decay from the stored value towards zero. *)
Theorem C09_projection_bounds :
  forall lo hi e0 l v now, fresh lo hi e0 -> e_value (run e0 l) = Fin v -> 0 <= v ->
    exists p, get_at (run e0 l) now = Fin p /\ 0 <= p <= v /\
      ((now <= e_timestamp (run e0 l))%Z -> p = v) /\
      ((e_timestamp (run e0 l) < now)%Z -> 0 < v -> 0 < p < v).
Proof.
  exact (fun lo hi e0 l v now H => projection (run e0 l) v now (reachable_decay_pos lo hi e0 l H)).
Qed.
Print Assumptions C09_projection_bounds.

Theorem C09_projection_decreases :
  forall lo hi e0 l v now1 now2, fresh lo hi e0 -> e_value (run e0 l) = Fin v -> 0 <= v -> (now1 <= now2)%Z ->
    exists p1 p2, get_at (run e0 l) now1 = Fin p1 /\ get_at (run e0 l) now2 = Fin p2 /\ p2 <= p1.
Proof.
  exact (fun lo hi e0 l v n1 n2 H => projection_decreases (run e0 l) v n1 n2 (reachable_decay_pos lo hi e0 l H)).
Qed.
Print Assumptions C09_projection_decreases.

(** Samples not after the stored time are ignored. *)
Theorem C09_stale_sample_ignored :
  forall e v ts, (ts <= e_timestamp e)%Z -> add e v ts = e.
Proof. exact stale_add_ignored. Qed.
Print Assumptions C09_stale_sample_ignored.

(** But the stored time is not the time of the newest observation: a peak can move
    it back, after which older samples count. *)
Theorem C09_stale_after_peak_refuted :
  exists e v ts, e_timestamp e = 10%Z /\
    let e' := add_peak e v ts in (ts < 10)%Z /\ e_timestamp e' = ts /\
    forall w t, (ts < t < 10)%Z -> e_timestamp (add e' w t) = t.
Proof. exact stale_after_peak_not_ignored. Qed.
Print Assumptions C09_stale_after_peak_refuted.

(** Convergence depends on elapsed time only, not on how often samples arrive. *)
Theorem C09_decay_by_elapsed_time :
  forall lo hi v ts e v0 last, fresh lo hi e -> e_value e = Fin v0 ->
    increasing (e_timestamp e) (ts ++ [last]) ->
    exists r, e_value (run e (samples v (ts ++ [last]))) = Fin r /\
      r - v = (v0 - v) * exp (- secs (last - e_timestamp e) / e_decay e).
Proof.
  exact (fun lo hi v ts e v0 last H => decay_by_time v ts e v0 last (reachable_decay_pos lo hi e [] H)).
Qed.
Print Assumptions C09_decay_by_elapsed_time.

Example C09_demo :
  fresh 0 5 (new_with_value 10 0 1) /\
  (forall o, In o [OpAdd 3 1%Z; OpPeak 5 2%Z; OpAdd 0 3%Z] -> 0 <= op_value o <= 5) /\
  increasing 0 ([1; 4] ++ [9])%Z.
Proof.
  split; [constructor; lra|]. split.
  - intros o [<-|[<-|[<-|[]]]]; cbn; lra.
  - cbn. repeat split; reflexivity.
Qed.
