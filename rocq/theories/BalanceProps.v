(** C138: the policy's load configures the balancer *)
From Coq Require Import List NArith ZArith Bool Reals Lra Lia.
From Verif Require Import Bytes ClientPolicyModel EwmaModel BiaserModel BiaserSpec BalanceModel BalanceSpec BalanceProofs.
Import ListNotations.
Open Scope N_scope.

(** Loads are estimated with penalties exactly if the policy has them; else with its round trip time, that is at least a millisecond, and its decay. *)
Theorem C138_chosen : forall l, match new_service l with
  | By_penalty c => exists d r p q m, l = Penalty_peak_ewma d r p q m
  | By_peak_ewma r' d' => exists d r, l = Peak_ewma d r /\ r' = N.max r one_ms /\ (d < 2 ^ 64 -> d' = d)
  end.
Proof. exact chosen. Qed.
Print Assumptions C138_chosen.

(** An endpoint that is new has an estimate of the policy's round trip time, and at least a millisecond. *)
Theorem C138_fresh : forall date d r p q m t0, exists b, penalized date d r p q m t0 [] b /\
  forall t, (t <= t0)%Z -> estimate b t (seconds (N.max r one_ms)).
Proof. exact fresh_estimate. Qed.
Print Assumptions C138_fresh.

(** A response that fails counts for the policy's penalty, in whole milliseconds, and for no less than the estimate; the estimate after it is no less ... *)
Theorem C138_broken : forall date d r p q m t0 l b id rsp ended t wall b' l', penalized date d r p q m t0 l b -> step date b (Respond id rsp ended t wall) = Some (b', l') -> broken rsp ->
  exists x y, estimate b t x /\ l' = [Recorded id (Rmax (seconds (whole_millis p)) x) t] /\ estimate b' t y /\ (Rmax (seconds (whole_millis p)) x <= y)%R.
Proof. exact broken_penalty. Qed.
Print Assumptions C138_broken.

(** ... and one of a server that asks to send less, for what it asks for, up to the policy's maximum, if that is more. *)
Theorem C138_overloaded : forall date d r p q m t0 l b id rsp ended t wall b' l', penalized date d r p q m t0 l b -> step date b (Respond id rsp ended t wall) = Some (b', l') ->
  m <= duration_max -> cached rsp = None -> overloaded rsp ->
  exists x v, estimate b t x /\ l' = [Recorded id v t] /\
    (forall a, advice date wall m rsp a -> v = Rmax (seconds (N.max a (whole_millis p))) x) /\
    ((forall a, ~ advice date wall m rsp a) -> v = Rmax (seconds (whole_millis p)) x).
Proof. exact overloaded_penalty. Qed.
Print Assumptions C138_overloaded.

(** What there is of it fades with the policy's decay of round trip times, that is at least a millisecond; missing: with the policy's decay of penalties. *)
Theorem C138_fades_partial : forall date d r p q m t0 l b t t' x, penalized date d r p q m t0 l b -> (t0 <= t)%Z -> observed_by l t -> (t <= t')%Z -> estimate b t x ->
  estimate b t' (faded x (t' - t) (N.max d one_ms)).
Proof. exact fades. Qed.
Print Assumptions C138_fades_partial.

(** The decay of penalties has no effect ... *)
Theorem C138_penalty_decay : forall d r p q q' m, new_service (Penalty_peak_ewma d r p q m) = new_service (Penalty_peak_ewma d r p q' m).
Proof. exact no_penalty_decay. Qed.
Print Assumptions C138_penalty_decay.

(** Used below: an endpoint with one request that is answered at [t] *)
Definition failed : response := Rsp 500 [] None.
Definition one_call (d r p m : N) : biaser := fst (match step (fun _ => None) (with_completion (Config (N.max r MIN_DEFAULT_RTT) d (N.min (p / 1000000) u32_max) m) 0) (Call 0) with Some x => x | None => (with_completion (Config 0 0 0 0) 0, []) end).
Lemma one_call_run : forall d r p q m, penalized (fun _ => None) d r p q m 0 [Called 0 0%Z] (one_call d r p m).
Proof. intros d r p q m. eexists. split; [reflexivity|]. exact (run_step _ _ _ [] _ (Call 0) _ _ (run_new _ _ _) eq_refl). Qed.
Lemma failed_broken : broken failed.
Proof. left. cbn. lia. Qed.

(** ... so that a penalty with a decay of one second, in a policy with a decay of ten, is still there after one. *)
Theorem C138_fades_refuted : ~ forall date d r p q m t0 l b id rsp ended t wall b' v t' y,
  penalized date d r p q m t0 l b -> step date b (Respond id rsp ended t wall) = Some (b', [Recorded id v t]) -> broken rsp -> (t <= t')%Z -> estimate b' t' y ->
  (y <= faded v (t' - t) (N.max q one_ms))%R.
Proof.
  intros H. pose (d := 10000000000). pose (p := 5000000000). pose (q := 1000000000). pose (m := 300000000000).
  pose proof (one_call_run d 30000000 p q m) as R.
  destruct (step (fun _ => None) (one_call d 30000000 p m) (Respond 0 failed false 0 0)) as [[b' l']|] eqn:S; [|discriminate].
  destruct (broken_penalty _ _ _ _ _ _ _ _ _ _ _ _ _ _ _ _ R S failed_broken) as (x & y & X & L & Y & LY). subst l'.
  assert (R' : penalized (fun _ => None) d 30000000 p q m 0 ([Called 0%nat 0%Z] ++ [Recorded 0 (Rmax (seconds (whole_millis p)) x) 0%Z]) b').
  { destruct R as (c & E & R). exists c. split; [exact E|]. exact (run_step _ _ _ _ _ _ _ _ R S). }
  assert (O : observed_by ([Called 0%nat 0%Z] ++ [Recorded 0 (Rmax (seconds (whole_millis p)) x) 0%Z]) 0).
  { intros id v s [I|[I|[]]]; [discriminate|]. injection I as _ _ <-. lia. }
  pose proof (fades _ _ _ _ _ _ _ _ _ _ 1000000000 _ R' (Z.le_refl 0) O ltac:(lia) Y) as Y'.
  assert (T : (0 <= 1000000000)%Z) by lia.
  specialize (H _ _ _ _ _ _ _ _ _ _ _ _ _ _ _ _ _ _ R S failed_broken T Y').
  assert (P : (0 < Rmax (seconds (whole_millis p)) x)%R).
  { eapply Rlt_le_trans; [|apply Rmax_l]. unfold seconds. change (whole_millis p) with 5000000000. cbn [Z.of_N]. lra. }
  set (v := Rmax (seconds (whole_millis p)) x) in *. unfold faded in H.
  change (Z.of_N (N.max d one_ms)) with 10000000000%Z in H. change (Z.of_N (N.max q one_ms)) with 1000000000%Z in H. change (1000000000 - 0)%Z with 1000000000%Z in H.
  assert (LT : (exp (- (1000000000 / 1000000000)) < exp (- (1000000000 / 10000000000)))%R) by (apply exp_increasing; lra).
  assert ((v * exp (- (1000000000 / 1000000000)) < v * exp (- (1000000000 / 10000000000)))%R) by (apply Rmult_lt_compat_l; assumption).
  assert ((v * exp (- (1000000000 / 10000000000)) <= y * exp (- (1000000000 / 10000000000)))%R).
  { apply Rmult_le_compat_r; [apply Rlt_le, exp_pos|exact LY]. }
  lra.
Qed.
Print Assumptions C138_fades_refuted.

(** A penalty below a millisecond is none: here a failure does not count for 999 microseconds. *)
Theorem C138_small_refuted : ~ forall date d r p q m t0 l b id rsp ended t wall b' v, p < 2 ^ 32 * one_ms ->
  penalized date d r p q m t0 l b -> step date b (Respond id rsp ended t wall) = Some (b', [Recorded id v t]) -> broken rsp -> (seconds p <= v)%R.
Proof.
  intros H. pose (d := 1000000). pose (p := 999000). pose proof (one_call_run d 1000000 p 0 0) as R.
  destruct (step (fun _ => None) (one_call d 1000000 p 0) (Respond 0 failed false 1000000000 0)) as [[b' l']|] eqn:S; [|discriminate].
  destruct (broken_penalty _ _ _ _ _ _ _ _ _ _ _ _ _ _ _ _ R S failed_broken) as (x & y & X & L & _). subst l'.
  assert (PL : p < 2 ^ 32 * one_ms) by reflexivity.
  specialize (H _ _ _ _ _ _ _ _ _ _ _ _ _ _ _ _ PL R S failed_broken).
  destruct (fresh_estimate (fun _ => None) d 1000000 p 0 0 0) as (b0 & R0 & F).
  assert (X0 : estimate (one_call d 1000000 p 0) 0 (seconds (N.max 1000000 one_ms))).
  { unfold estimate. cbn -[EwmaModel.secs seconds]. rewrite seconds_secs. reflexivity. }
  assert (O : observed_by [Called 0%nat 0%Z] 0) by (intros id v s [I|[]]; discriminate).
  pose proof (fades _ _ _ _ _ _ _ _ _ _ 1000000000 _ R (Z.le_refl 0) O ltac:(lia) X0) as X1. unfold estimate in X, X1. rewrite X in X1. injection X1 as ->.
  change (whole_millis p) with 0 in H. change (N.max 1000000 one_ms) with 1000000 in H. change (N.max d one_ms) with 1000000 in H. unfold faded, seconds in H. cbn [Z.of_N] in H.
  change (Z.of_N p) with 999000%Z in H. change (1000000000 - 0)%Z with 1000000000%Z in H.
  assert (EX : (exp (- (1000000000 / 1000000)) < / 1000)%R).
  { rewrite exp_Ropp. apply Rinv_lt_contravar; [apply Rmult_lt_0_compat; [lra|apply exp_pos]|]. pose proof (exp_ineq1 (1000000000 / 1000000)%R ltac:(lra)). lra. }
  pose proof (exp_pos (- (1000000000 / 1000000))). revert H. apply Rlt_not_le. apply Rmax_lub_lt; lra.
Qed.
Print Assumptions C138_small_refuted.

(** Shows C138_broken and C138_fades_partial at work: a request, that fails after three seconds with a penalty of five *)
Example penalty_demo : exists b' x y, step (fun _ => None) (one_call 10000000000 30000000 5000000000 300000000000) (Respond 0 failed false 3000000000 0) = Some (b', [Recorded 0 (Rmax 5 x) 3000000000]) /\
  estimate b' 3000000000 y /\ (5 <= y)%R.
Proof.
  destruct (step (fun _ => None) (one_call 10000000000 30000000 5000000000 300000000000) (Respond 0 failed false 3000000000 0)) as [[b' l']|] eqn:S; [|discriminate].
  destruct (broken_penalty _ _ _ _ _ _ _ _ _ _ _ _ _ _ _ _ (one_call_run _ _ _ 0 _) S failed_broken) as (x & y & X & L & Y & LY). subst l'.
  assert (E : seconds (whole_millis 5000000000) = 5%R) by (unfold seconds; change (whole_millis 5000000000) with 5000000000; cbn [Z.of_N]; lra).
  rewrite E in *. exists b', x, y. split; [reflexivity|]. split; [exact Y|]. pose proof (Rmax_l 5 x). lra.
Qed.
Example chosen_demo : new_service (Peak_ewma 10000000000 0) = By_peak_ewma 1000000 10000000000 /\
  new_service (Penalty_peak_ewma 10000000000 0 5000000000 7 9) = By_penalty (Config 1000000 10000000000 5000 9).
Proof. split; reflexivity. Qed.
