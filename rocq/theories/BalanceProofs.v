(** Proofs about the load of a policy. *)
From Coq Require Import List NArith ZArith Bool Reals Lra Lia.
From Verif Require Import Bytes ClientPolicyModel EwmaModel EwmaProofs BiaserModel BiaserSpec BiaserProofs BalanceModel BalanceSpec.
Import ListNotations.
Open Scope N_scope.

Lemma peak_time e v t : e_timestamp (add_peak e v t) = e_timestamp e \/ e_timestamp (add_peak e v t) = t.
Proof.
  unfold add_peak, add. destruct (get_at e t); [right; reflexivity|]. destruct (Rlt_dec _ _); [right; reflexivity|]. destruct (t <=? e_timestamp e)%Z; [left; reflexivity|].
  destruct (e_value e); right; reflexivity.
Qed.
Lemma decay_and_time date c t0 l b : run date c t0 l b ->
  e_decay (b_rtt b) = EwmaModel.secs (Z.max (Z.of_N (c_rtt_decay c)) MIN_DECAY) /\ (e_timestamp (b_rtt b) = t0 \/ exists id v, In (Recorded id v (e_timestamp (b_rtt b))) l).
Proof.
  intros H. induction H as [|l b o b' l' H [D T] S]; [split; [reflexivity|left; reflexivity]|].
  assert (T' : e_timestamp (b_rtt b) = t0 \/ exists id v, In (Recorded id v (e_timestamp (b_rtt b))) (l ++ l')).
  { destruct T as [T|(id & v & T)]; [left; exact T|right]. exists id, v. apply in_app_iff. left. exact T. }
  apply step_effect in S. destruct S as [t|h p t F|id|l' Q]; cbn [b_rtt]; try (split; assumption).
  unfold drop_handle in *. cbn [fst snd b_rtt] in *. rewrite add_peak_decay. split; [exact D|].
  match goal with |- context [add_peak (b_rtt b) ?v t] => destruct (peak_time (b_rtt b) v t) as [E|E]; set (val := v) in * end.
  - rewrite E. exact T'.
  - rewrite E. right. exists (h_id h), val. apply in_app_iff. right. left. reflexivity.
Qed.
Lemma get_later e v t t' : e_value e = Fin v -> (e_timestamp e <= t)%Z -> (t <= t')%Z -> forall x, get_at e t = Fin x ->
  get_at e t' = Fin (x * exp (- EwmaModel.secs (t' - t) / e_decay e))%R.
Proof.
  intros V A B x. unfold get_at. rewrite V.
  assert (Z0 : forall z, z = 0%Z -> (- EwmaModel.secs z / e_decay e = 0)%R).
  { intros z ->. unfold EwmaModel.secs. unfold Rdiv. rewrite Rmult_0_l, Ropp_0, Rmult_0_l. reflexivity. }
  destruct (t <=? e_timestamp e)%Z eqn:L.
  - apply Z.leb_le in L. assert (t = e_timestamp e) by lia. subst t. intros H. injection H as <-. destruct (t' <=? e_timestamp e)%Z eqn:L'.
    + apply Z.leb_le in L'. f_equal. rewrite Z0 by lia. rewrite exp_0. lra.
    + reflexivity.
  - apply Z.leb_gt in L. intros H. injection H as <-. assert (L' : (t' <=? e_timestamp e)%Z = false) by (apply Z.leb_gt; lia). rewrite L'. f_equal.
    rewrite Rmult_assoc, <- exp_plus. f_equal. f_equal. unfold EwmaModel.secs. rewrite !minus_IZR. unfold Rdiv. ring.
Qed.
Lemma seconds_secs d : seconds d = EwmaModel.secs (Z.of_N d).
Proof. unfold seconds, EwmaModel.secs. f_equal. lra. Qed.
Lemma seconds_le a b : a <= b -> (seconds a <= seconds b)%R.
Proof. intros H. unfold seconds. apply Rmult_le_compat_r; [apply Rlt_le, Rinv_0_lt_compat; lra|]. apply IZR_le. lia. Qed.
Lemma config_of d r p q m c : new_service (Penalty_peak_ewma d r p q m) = By_penalty c -> c = Config (N.max r MIN_DEFAULT_RTT) d (N.min (p / 1000000) u32_max) m.
Proof. unfold new_service, penalty_param, penalty_biaser_config, as_millis. intros E. apply (f_equal (fun e => match e with By_penalty c => c | _ => c end)) in E. symmetry. exact E. Qed.
Lemma base_of d r p q m c : new_service (Penalty_peak_ewma d r p q m) = By_penalty c -> base_penalty c = whole_millis p.
Proof. intros E. rewrite (config_of _ _ _ _ _ _ E). reflexivity. Qed.
Lemma faded_secs x z d : (0 < d) -> (x * exp (- EwmaModel.secs z / EwmaModel.secs (Z.of_N d)))%R = faded x z d.
Proof.
  intros P. unfold faded, EwmaModel.secs. do 2 f_equal. assert (IZR (Z.of_N d) <> 0)%R by (apply not_0_IZR; lia). field. exact H.
Qed.

(** Which estimator *)
Theorem chosen l : match new_service l with
  | By_penalty c => exists d r p q m, l = Penalty_peak_ewma d r p q m
  | By_peak_ewma r' d' => exists d r, l = Peak_ewma d r /\ r' = N.max r one_ms /\ (d < 2 ^ 64 -> d' = d)
  end.
Proof.
  destruct l as [d r|d r p q m]; [|cbn; eauto 8]. cbn -[nanos]. exists d, r. split; [reflexivity|]. split; [reflexivity|]. intros L. unfold nanos.
  assert (B : d / 1000000000 * 1000000000 <= d) by (rewrite N.mul_comm; apply N.mul_div_le; discriminate).
  rewrite N.min_l. 2:{ eapply N.le_trans; [exact B|]. change u64_max with (2 ^ 64 - 1). lia. }
  rewrite N.add_comm, N.mul_comm. symmetry. apply N.div_mod. discriminate.
Qed.
Theorem no_penalty_decay d r p q q' m : new_service (Penalty_peak_ewma d r p q m) = new_service (Penalty_peak_ewma d r p q' m).
Proof. reflexivity. Qed.

Section Penalty.
  Variable date : bytes -> option N.
  Theorem fresh_estimate d r p q m t0 : exists b, penalized date d r p q m t0 [] b /\
    forall t, (t <= t0)%Z -> estimate b t (seconds (N.max r one_ms)).
  Proof.
    exists (with_completion (Config (N.max r MIN_DEFAULT_RTT) d (N.min (p / 1000000) u32_max) m) t0). split.
    - eexists. split; [reflexivity|]. apply run_new.
    - intros t L. unfold estimate, with_completion. cbn [b_rtt c_rtt_decay c_default_rtt]. unfold get_at, new_with_value. cbn [e_value e_timestamp].
      rewrite (proj2 (Z.leb_le _ _) L), seconds_secs. reflexivity.
  Qed.
  Lemma decay_pos d : 0 < N.max d one_ms.
  Proof. unfold one_ms. change (10 ^ 6) with 1000000. lia. Qed.
  Lemma decay_secs d : EwmaModel.secs (Z.max (Z.of_N d) MIN_DECAY) = EwmaModel.secs (Z.of_N (N.max d one_ms)).
  Proof. f_equal. unfold MIN_DECAY, one_ms. change (10 ^ 6) with 1000000. lia. Qed.
  Theorem fades d r p q m t0 l b t t' x : penalized date d r p q m t0 l b -> (t0 <= t)%Z -> observed_by l t -> (t <= t')%Z -> estimate b t x ->
    estimate b t' (faded x (t' - t) (N.max d one_ms)).
  Proof.
    intros (c & E & H) A O B X. pose proof (config_of _ _ _ _ _ _ E) as ->. destruct (decay_and_time _ _ _ _ _ H) as [D T]. cbn [c_rtt_decay] in D.
    destruct (inv_run _ _ _ _ _ H) as [_ _ _ _ _ _ _ _ (v & V & _)]. unfold estimate in *. rewrite <- faded_secs by apply decay_pos. rewrite <- decay_secs, <- D.
    refine (get_later _ _ _ _ V _ B _ X). destruct T as [->|(id & w & I)]; [exact A|exact (O _ _ _ I)].
  Qed.
  Theorem broken_penalty d r p q m t0 l b id rsp ended t wall b' l' : penalized date d r p q m t0 l b -> step date b (Respond id rsp ended t wall) = Some (b', l') -> broken rsp ->
    exists x y, estimate b t x /\ l' = [Recorded id (Rmax (seconds (whole_millis p)) x) t] /\ estimate b' t y /\ (Rmax (seconds (whole_millis p)) x <= y)%R.
  Proof.
    intros (c & E & H) S B. destruct (broken_value _ _ _ _ _ _ _ _ _ _ _ _ H S B) as (x & X & L). rewrite (base_of _ _ _ _ _ _ E) in L.
    destruct (failure_bounds _ _ _ _ _ _ _ _ _ _ _ _ H S (or_intror B)) as (x' & y & v & X' & Y & L' & _ & _ & VY & _).
    exists x, y. rewrite seconds_secs. split; [exact X|]. split; [exact L|]. split; [exact Y|]. rewrite L in L'. injection L' as <-. exact VY.
  Qed.
  Theorem overloaded_penalty d r p q m t0 l b id rsp ended t wall b' l' : penalized date d r p q m t0 l b -> step date b (Respond id rsp ended t wall) = Some (b', l') ->
    m <= duration_max -> cached rsp = None -> overloaded rsp ->
    exists x v, estimate b t x /\ l' = [Recorded id v t] /\
      (forall a, advice date wall m rsp a -> v = Rmax (seconds (N.max a (whole_millis p))) x) /\
      ((forall a, ~ advice date wall m rsp a) -> v = Rmax (seconds (whole_millis p)) x).
  Proof.
    intros (c & E & H) S M C O. pose proof (base_of _ _ _ _ _ _ E) as BP. pose proof (config_of _ _ _ _ _ _ E) as EC.
    assert (MC : c_max_duration c = m) by (rewrite EC; reflexivity).
    destruct (overloaded_value date c t0 l b id rsp ended t wall b' l' H S) as (x & v & X & L & A1 & A2); [rewrite MC; exact M|exact C|exact O|].
    rewrite MC, BP in *. exists x, v. split; [exact X|]. split; [exact L|]. split.
    - intros a A. rewrite seconds_secs. exact (A1 a A).
    - intros A. rewrite seconds_secs. exact (A2 A).
  Qed.
End Penalty.
