From Coq Require Import List ZArith Reals Lra Lia.
From Verif Require Import EwmaModel EwmaSpec.
Import ListNotations.
Open Scope R_scope.

Lemma secs_pos n : (0 < n)%Z -> 0 < secs n.
Proof. intros H. unfold secs. apply Rmult_lt_0_compat; [now apply IZR_lt|lra]. Qed.
Lemma decay_pos d : 0 < secs (Z.max d MIN_DECAY).
Proof. apply secs_pos. unfold MIN_DECAY. lia. Qed.

Lemma exp_neg_bounds x : 0 < x -> 0 < exp (- x) < 1.
Proof. intros H. split; [apply exp_pos|]. rewrite <- exp_0. apply exp_increasing. lra. Qed.

Lemma factor e ts : 0 < e_decay e -> (e_timestamp e < ts)%Z ->
  0 < exp (- secs (ts - e_timestamp e) / e_decay e) < 1.
Proof.
  intros Hd Ht. replace (- secs (ts - e_timestamp e) / e_decay e) with (- (secs (ts - e_timestamp e) / e_decay e))
    by (unfold Rdiv; ring).
  apply exp_neg_bounds. apply Rmult_lt_0_compat; [apply secs_pos; lia|now apply Rinv_0_lt_compat].
Qed.

Definition ok (lo hi : R) (e : ewma) : Prop := 0 < e_decay e /\ within lo hi (e_value e).

Lemma convex lo hi a b f : lo <= a <= hi -> lo <= b <= hi -> 0 < f < 1 ->
  lo <= a * (1 - (1 - f)) + b * (1 - f) <= hi.
Proof. intros. split; nra. Qed.

Lemma add_ok lo hi e v ts : ok lo hi e -> lo <= v <= hi -> ok lo hi (add e v ts).
Proof.
  intros [Hd Hw] Hv. unfold add. destruct (ts <=? e_timestamp e)%Z eqn:E; [split; auto|].
  apply Z.leb_gt in E. destruct (e_value e) as [|old] eqn:Ev; split; cbn [e_decay e_value within]; auto.
  apply convex; auto. now apply factor.
Qed.
Lemma peak_ok lo hi e v ts : ok lo hi e -> lo <= v <= hi -> ok lo hi (add_peak e v ts).
Proof.
  intros He Hv. unfold add_peak. destruct (get_at e ts) as [|p]; [split; [apply He|exact Hv]|].
  destruct (Rlt_dec p v); [split; [apply He|exact Hv]|]. now apply add_ok.
Qed.

Lemma run_ok lo hi l : forall e, ok lo hi e -> (forall o, In o l -> lo <= op_value o <= hi) -> ok lo hi (run e l).
Proof.
  induction l as [|o l IH]; intros e He Hl; [exact He|]. cbn [run fold_left]. apply IH.
  - specialize (Hl o (or_introl eq_refl)). destruct o as [v ts|v ts|v ts]; cbn [apply op_value] in *.
    + now apply add_ok. + now apply peak_ok. + split; [apply He|exact Hl].
  - intros o' Ho. apply Hl. now right.
Qed.

Lemma fresh_ok lo hi e : fresh lo hi e -> ok lo hi e.
Proof. intros [d t|d t v Hv]; split; cbn [e_decay e_value within new new_with_value]; auto using decay_pos. Qed.

Theorem bounds lo hi e l : fresh lo hi e -> (forall o, In o l -> lo <= op_value o <= hi) ->
  within lo hi (e_value (run e l)).
Proof. intros He Hl. apply (run_ok lo hi l e (fresh_ok _ _ _ He) Hl). Qed.

Lemma run_decay l : forall e, e_decay (run e l) = e_decay e.
Proof.
  induction l as [|o l IH]; intros e; [reflexivity|]. change (run e (o :: l)) with (run (apply e o) l). rewrite IH.
  destruct o as [v ts|v ts|v ts]; cbn [apply]; unfold add_peak, add, reset;
    repeat match goal with |- context [match ?x with _ => _ end] => destruct x end; reflexivity.
Qed.
Lemma reachable_decay_pos lo hi e l : fresh lo hi e -> 0 < e_decay (run e l).
Proof. intros He. rewrite run_decay. now apply (fresh_ok lo hi). Qed.

Lemma apply_finite e o : finite (e_value e) -> finite (e_value (apply e o)).
Proof.
  intros [r Hr]. destruct o as [v ts|v ts|v ts]; cbn [apply].
  - unfold add. rewrite Hr. destruct (_ <=? _)%Z; [exists r; exact Hr|eexists; reflexivity].
  - unfold add_peak. destruct (get_at e ts); [eexists; reflexivity|].
    destruct (Rlt_dec r0 v); [eexists; reflexivity|].
    unfold add. rewrite Hr. destruct (_ <=? _)%Z; [exists r; exact Hr|eexists; reflexivity].
  - eexists; reflexivity.
Qed.
Lemma run_finite l : forall e, finite (e_value e) -> finite (e_value (run e l)).
Proof. induction l as [|o l IH]; intros e He; [exact He|]. cbn. apply IH. now apply apply_finite. Qed.

(** One later sample, or any peak, makes the average finite, for ever. *)
Theorem finite_after_observation e v ts l :
  (e_timestamp e < ts)%Z -> finite (e_value (run (add e v ts) l)).
Proof.
  intros H. apply run_finite. unfold add. apply Z.leb_gt in H. rewrite H.
  destruct (e_value e); eexists; reflexivity.
Qed.
Theorem finite_after_peak e v ts l : finite (e_value (run (add_peak e v ts) l)).
Proof.
  apply run_finite. unfold add_peak, get_at. destruct (e_value e) as [|r] eqn:Ev; [eexists; reflexivity|].
  assert (Ha : finite (e_value (add e v ts))).
  { unfold add. rewrite Ev. destruct (_ <=? _)%Z; [exists r; exact Ev|eexists; reflexivity]. }
  destruct (ts <=? e_timestamp e)%Z; destruct (Rlt_dec _ v); auto; eexists; reflexivity.
Qed.

Theorem projection e v now : 0 < e_decay e -> e_value e = Fin v -> 0 <= v ->
  exists p, get_at e now = Fin p /\ 0 <= p <= v /\
    ((now <= e_timestamp e)%Z -> p = v) /\ ((e_timestamp e < now)%Z -> 0 < v -> 0 < p < v).
Proof.
  intros Hd Hv Hp. unfold get_at. rewrite Hv. destruct (now <=? e_timestamp e)%Z eqn:E.
  - exists v. split; [reflexivity|]. split; [lra|]. split; [reflexivity|]. apply Z.leb_le in E. lia.
  - apply Z.leb_gt in E. pose proof (factor e now Hd E) as Hf. eexists. split; [reflexivity|].
    split; [nra|]. split; [lia|]. intros _ H. nra.
Qed.

Theorem projection_decreases e v now1 now2 : 0 < e_decay e -> e_value e = Fin v -> 0 <= v ->
  (now1 <= now2)%Z ->
  exists p1 p2, get_at e now1 = Fin p1 /\ get_at e now2 = Fin p2 /\ p2 <= p1.
Proof.
  intros Hd Hv Hp Hn. destruct (projection e v now2 Hd Hv Hp) as (p2 & E2 & Hb2 & _).
  unfold get_at in *. rewrite Hv in *. destruct (now1 <=? e_timestamp e)%Z eqn:E1.
  - exists v, p2. split; [reflexivity|]. split; [exact E2|]. lra.
  - apply Z.leb_gt in E1. destruct (now2 <=? e_timestamp e)%Z eqn:E3; [apply Z.leb_le in E3; lia|].
    eexists _, _. split; [reflexivity|]. split; [reflexivity|].
    apply Rmult_le_compat_l; [exact Hp|].
    assert (Hle : - secs (now2 - e_timestamp e) / e_decay e <= - secs (now1 - e_timestamp e) / e_decay e).
    { unfold Rdiv. apply Rmult_le_compat_r; [left; now apply Rinv_0_lt_compat|]. apply Ropp_le_contravar.
      unfold secs, Rdiv. apply Rmult_le_compat_r; [lra|]. apply IZR_le. lia. }
    destruct Hle as [Hlt|Heq]; [left; now apply exp_increasing|rewrite Heq; lra].
Qed.

Theorem peak_not_below e v ts : 0 < e_decay e -> 0 <= v ->
  exists r p, e_value (add_peak e v ts) = Fin r /\ v <= r /\
    get_at (add_peak e v ts) ts = Fin p /\ v <= p.
Proof.
  intros Hd Hv. unfold add_peak. 
  assert (Hrep : exists r p, e_value (Ewma (Fin v) (e_decay e) ts) = Fin r /\ v <= r /\
     get_at (Ewma (Fin v) (e_decay e) ts) ts = Fin p /\ v <= p).
  { exists v, v. cbn. rewrite Z.leb_refl. repeat split; lra. }
  destruct (get_at e ts) as [|p] eqn:Eg; [exact Hrep|].
  destruct (Rlt_dec p v) as [|Hp]; [exact Hrep|]. apply Rnot_lt_le in Hp. clear Hrep.
  unfold get_at in Eg. destruct (e_value e) as [|old] eqn:Ev; [discriminate|].
  unfold add. rewrite Ev. destruct (ts <=? e_timestamp e)%Z eqn:E.
  - injection Eg as ->. exists p, p. unfold get_at. rewrite Ev, E. repeat split; lra.
  - injection Eg as <-. apply Z.leb_gt in E. pose proof (factor e ts Hd E) as Hf.
    set (f := exp _) in *. eexists _, _. cbn [e_value e_timestamp get_at]. split; [reflexivity|].
    split; [nra|]. unfold get_at. cbn [e_value e_timestamp]. rewrite Z.leb_refl. split; [reflexivity|nra].
Qed.

Theorem stale_add_ignored e v ts : (ts <= e_timestamp e)%Z -> add e v ts = e.
Proof. intros H. unfold add. apply Z.leb_le in H. now rewrite H. Qed.

(** Repeating a sample: only the time that passed matters. *)
Theorem decay_by_time v ts : forall e v0 last,
  0 < e_decay e -> e_value e = Fin v0 -> increasing (e_timestamp e) (ts ++ [last]) ->
  exists r, e_value (run e (samples v (ts ++ [last]))) = Fin r /\
    r - v = (v0 - v) * exp (- secs (last - e_timestamp e) / e_decay e).
Proof.
  induction ts as [|t ts IH]; intros e v0 last Hd Hv Hi.
  - cbn [app samples map run fold_left apply increasing] in *. destruct Hi as [Hi _].
    unfold add. apply Z.leb_gt in Hi. rewrite Hi, Hv. eexists. split; [reflexivity|]. ring.
  - cbn [app samples map run fold_left apply increasing] in *. destruct Hi as [Ht Hi].
    assert (Ea : exists v1, e_value (add e v t) = Fin v1 /\ e_timestamp (add e v t) = t /\ e_decay (add e v t) = e_decay e /\
      v1 - v = (v0 - v) * exp (- secs (t - e_timestamp e) / e_decay e)).
    { unfold add. apply Z.leb_gt in Ht. rewrite Ht, Hv. eexists. cbn. repeat split. ring. }
    destruct Ea as (v1 & E1 & E2 & E3 & E4).
    destruct (IH (add e v t) v1 last) as (r & Hr & Hrv); [now rewrite E3|exact E1|now rewrite E2|].
    exists r. split; [exact Hr|]. rewrite Hrv, E4, E2, E3. rewrite Rmult_assoc, <- exp_plus. do 2 f_equal.
    unfold secs. rewrite !minus_IZR. unfold Rdiv. ring.
Qed.

(** A peak may move the clock back, and then samples older than the newest
    observation are not ignored. *)
Theorem stale_after_peak_not_ignored :
  exists e v ts, e_timestamp e = 10%Z /\
    let e' := add_peak e v ts in (ts < 10)%Z /\ e_timestamp e' = ts /\
    forall w t, (ts < t < 10)%Z -> e_timestamp (add e' w t) = t.
Proof.
  exists (new_with_value 1 10 1), 2, 3%Z. split; [reflexivity|].
  unfold add_peak, get_at, new_with_value. cbn [e_value e_timestamp].
  change (3 <=? 10)%Z with true. cbv iota.
  destruct (Rlt_dec 1 2) as [_|H]; [|exfalso; apply H; lra].
  split; [lia|]. split; [reflexivity|]. intros w t Ht. unfold add. cbn [e_timestamp e_value].
  destruct (t <=? 3)%Z eqn:E; [apply Z.leb_le in E; lia|]. reflexivity.
Qed.
