From Coq Require Import List NArith ZArith Bool Lia ZifyBool ZifyNat ZifyN.
From Verif Require Import BackoffModel BackoffSpec.
Import ListNotations.
Open Scope N_scope.

Lemma pow2_multiplier n : saturating_pow2 n = multiplier n.
Proof.
  unfold saturating_pow2, multiplier, u32max.
  change (2 ^ 32 - 1) with 4294967295.
  destruct (n <? 32) eqn:E.
  - assert (2 ^ n <= 2 ^ 31) by (apply N.pow_le_mono_r; lia).
    change (2 ^ 31) with 2147483648 in *. lia.
  - assert (2 ^ 32 <= 2 ^ n) by (apply N.pow_le_mono_r; lia).
    change (2 ^ 32) with 4294967296 in *. lia.
Qed.

Definition valid (b : backoff) : Prop := bo_min b <= bo_max b /\ 0 < bo_max b /\ bo_max b <= dur_max.

Lemma try_new_valid min max j ok b : max <= dur_max ->
  try_new min max j ok = Some b -> valid b /\ bo_min b = min /\ bo_max b = max /\ bo_jitter b = j.
Proof.
  unfold try_new, valid. intros Hm. destruct (max <? min) eqn:E1; [discriminate|].
  destruct (max =? 0) eqn:E2; [discriminate|]. destruct (negb ok); [discriminate|].
  intros H; injection H as <-. cbn [bo_min bo_max bo_jitter]. repeat split; lia || reflexivity.
Qed.

Lemma base_plain b n : valid b -> base b n = plain_delay (bo_min b) (bo_max b) n.
Proof.
  intros (H1 & H2 & H3). unfold base, plain_delay, checked_mul. rewrite pow2_multiplier.
  destruct (bo_min b * multiplier n <=? dur_max) eqn:E; lia.
Qed.

Lemma multiplier_pos n : 1 <= multiplier n.
Proof.
  unfold multiplier. destruct (n <? 32).
  - assert (2 ^ n <> 0) by (apply N.pow_nonzero; lia). lia.
  - change (2 ^ 32 - 1) with 4294967295. lia.
Qed.
Lemma multiplier_mono n m : n <= m -> multiplier n <= multiplier m.
Proof.
  intros H. unfold multiplier. change (2 ^ 32 - 1) with 4294967295.
  destruct (n <? 32) eqn:E1, (m <? 32) eqn:E2; try lia.
  - apply N.pow_le_mono_r; lia.
  - assert (2 ^ n <= 2 ^ 31) by (apply N.pow_le_mono_r; lia).
    change (2 ^ 31) with 2147483648 in *. lia.
Qed.

Lemma plain_bounds b n : valid b -> bo_min b <= plain_delay (bo_min b) (bo_max b) n <= bo_max b.
Proof.
  intros (H1 & H2 & H3). unfold plain_delay. pose proof (multiplier_pos n).
  assert (bo_min b * 1 <= bo_min b * multiplier n) by (apply N.mul_le_mono_l; lia). lia.
Qed.

Lemma plain_mono min max n m : n <= m -> plain_delay min max n <= plain_delay min max m.
Proof.
  intros H. unfold plain_delay. apply multiplier_mono in H.
  assert (min * multiplier n <= min * multiplier m) by now apply N.mul_le_mono_l. lia.
Qed.

(** Armed delays. *)
Theorem delay_bounds b n secs nanos j : valid b ->
  jitter b (base b n) secs nanos = Some j ->
  plain_delay (bo_min b) (bo_max b) n <= base b n + j <= bo_max b /\
  bo_min b <= base b n + j /\
  (bo_jitter b = false -> base b n + j = plain_delay (bo_min b) (bo_max b) n).
Proof.
  intros Hv. rewrite base_plain by easy. pose proof (plain_bounds b n Hv) as Hb. unfold jitter.
  destruct (bo_jitter b); cbn [negb].
  - destruct (duration_new secs nanos); [|discriminate]. intros H; injection H as <-.
    repeat split; lia || discriminate.
  - intros H; injection H as <-. lia.
Qed.

Lemma jitter_no_panic b base secs nanos : secs + 5 <= u64max -> nanos <= u32max ->
  jitter b base secs nanos <> None.
Proof.
  intros H1 H2. unfold jitter. destruct (negb _); [easy|]. unfold duration_new.
  assert (nanos / sec <= 4294967295 / sec) by (apply N.div_le_mono; unfold sec, u32max in *; lia).
  change (4294967295 / sec) with 4 in *.
  destruct (secs + nanos / sec <=? u64max) eqn:E; [easy|]. unfold u64max in *. lia.
Qed.

Lemma poll_step im b st i o st' : valid b -> poll_next im b st i = (o, st') ->
  match o with
  | Item => st_iterations st' = st_iterations st + 1 /\ st_sleep st' = None /\
            exists d, (st_sleep st = Some d \/
                       st_sleep st = None /\
                       in_now i + plain_delay (bo_min b) (bo_max b) (st_iterations st) <= d) /\ d <= in_now i
  | Pending => st_iterations st' = st_iterations st /\
      exists d, st_sleep st' = Some d /\ in_now i < d /\
        (st_sleep st = Some d \/
         st_sleep st = None /\
         in_now i + plain_delay (bo_min b) (bo_max b) (st_iterations st) <= d <= in_now i + bo_max b)
  | End => st' = st /\ st_sleep st = None /\ st_iterations st = u32max
  | Panic => st' = st
  end.
Proof.
  intros Hv. unfold poll_next, poll_sleep. destruct (st_sleep st) as [d|] eqn:Es.
  - destruct (d <=? in_now i) eqn:E; intros H; injection H as <- <-; cbn.
    + repeat split. exists d. split; [now left|lia].
    + split; [easy|]. exists d. split; [easy|]. split; [lia|now left].
  - destruct (st_iterations st =? u32max) eqn:Eu.
    + intros H; injection H as <- <-. repeat split; lia.
    + destruct (jitter b _ _ _) as [j|] eqn:Ej; [|intros H; now injection H as <- <-].
      apply delay_bounds in Ej as (Hj & _); [|easy].
      destruct (in_now i + _ <=? im) eqn:Ei; [|intros H; now injection H as <- <-].
      destruct (_ <=? in_now i) eqn:E; intros H; injection H as <- <-; cbn.
      * repeat split. eexists. split; [right; split; [easy|]|]; [|apply N.leb_le; exact E]. lia.
      * split; [easy|]. eexists. split; [reflexivity|]. split; [lia|]. right. split; [easy|lia].
Qed.

Definition inv (b : backoff) (last : N) (st : stream) : Prop :=
  forall d, st_sleep st = Some d ->
    last + plain_delay (bo_min b) (bo_max b) (st_iterations st) <= d.

Lemma polls_paced im b is st last t0 : valid b -> inv b last st -> last <= t0 -> clock_from t0 is ->
  paced (bo_min b) (bo_max b) (st_iterations st) last (polls im b st is).
Proof.
  revert st last t0; induction is as [|i is IH]; intros st last t0 Hv Hi Hl Hc; cbn [polls];
    [constructor|]. destruct Hc as [Hc1 Hc2].
  destruct (poll_next im b st i) as [o st'] eqn:E. pose proof (poll_step _ _ _ _ _ _ Hv E) as Hs.
  destruct o.
  - destruct Hs as (Hn & d & Hd & Hlt & Hs). constructor. rewrite <- Hn.
    apply (IH st' last (in_now i)); auto; [|lia]. intros d' Hd'. rewrite Hn.
    assert (d' = d) by congruence. subst d'. destruct Hs as [Hs|[Hs1 Hs2]]; [now apply Hi|lia].
  - destruct Hs as (Hn & Hd & d & Hs & Hle). constructor.
    + destruct Hs as [Hs|[Hs1 Hs2]]; [apply Hi in Hs|]; lia.
    + rewrite <- Hn. apply (IH st' (in_now i) (in_now i)); auto; [|lia].
      intros d' Hd'. congruence.
  - destruct Hs as (-> & _ & Hu). constructor; [rewrite Hu; reflexivity|].
    apply (IH st last (in_now i)); auto. lia.
  - subst st'. constructor. apply (IH st last (in_now i)); auto. lia.
Qed.

Lemma polls_mid im b mid : forall st is t after d, valid b -> st_sleep st = Some d ->
  (forall o, In o mid -> snd o = Pending) ->
  polls im b st is = mid ++ (t, Pending) :: after -> t < d.
Proof.
  induction mid as [|x mid IH]; intros st is t after d Hv Hd Hm H; cbn [app] in H.
  - destruct is as [|i is]; [discriminate|]. cbn [polls] in H.
    destruct (poll_next im b st i) as [o st'] eqn:E. injection H as <- -> _.
    pose proof (poll_step _ _ _ _ _ _ Hv E) as (_ & d' & _ & Hlt & [Hs|[Hs _]]); congruence.
  - destruct is as [|i is]; [discriminate|]. cbn [polls] in H.
    destruct (poll_next im b st i) as [o st'] eqn:E. injection H as <- H.
    assert (o = Pending) by (apply (Hm (in_now i, o)); now left). subst o.
    pose proof (poll_step _ _ _ _ _ _ Hv E) as (_ & d' & Hd' & _ & [Hs|[Hs _]]); [|congruence].
    eapply (IH st' is t after d); auto; [congruence|]. intros y Hy. apply Hm. now right.
Qed.

Lemma polls_prompt_aux im b before : forall st is t0 mid t after tl, valid b ->
  (forall d, st_sleep st = Some d -> d <= tl + bo_max b) -> clock_from tl is ->
  polls im b st is = before ++ (t0, Pending) :: mid ++ (t, Pending) :: after ->
  (forall o, In o mid -> snd o = Pending) -> t < t0 + bo_max b.
Proof.
  induction before as [|x before IH]; intros st is t0 mid t after tl Hv Hs Hc Ht Hm; cbn [app] in Ht.
  - destruct is as [|i is]; [discriminate|]. destruct Hc as [Hc1 Hc2]. cbn [polls] in Ht.
    destruct (poll_next im b st i) as [o st'] eqn:E. injection Ht as <- -> Ht.
    pose proof (poll_step _ _ _ _ _ _ Hv E) as (_ & d & Hd & _ & Hx).
    apply (polls_mid im b mid st' is t after d Hv Hd Hm) in Ht. destruct Hx as [Hx|[_ Hx]]; [apply Hs in Hx|]; lia.
  - destruct is as [|i is]; [discriminate|]. destruct Hc as [Hc1 Hc2]. cbn [polls] in Ht.
    destruct (poll_next im b st i) as [o st'] eqn:E. injection Ht as <- Ht.
    pose proof (poll_step _ _ _ _ _ _ Hv E) as Hst.
    eapply (IH st' is t0 mid t after (in_now i)); eauto. intros d Hd. destruct o.
    + destruct Hst as (_ & d' & Hd' & _ & Hx). assert (d' = d) by congruence. subst.
      destruct Hx as [Hx|[_ Hx]]; [apply Hs in Hx|]; lia.
    + destruct Hst as (_ & Hn & _). congruence.
    + destruct Hst as (-> & Hn & _). congruence.
    + subst st'. apply Hs in Hd. lia.
Qed.

Theorem stream_paced im min max j ok b is : max <= dur_max ->
  try_new min max j ok = Some b -> clock_from 0 is ->
  paced min max 0 0 (polls im b stream_new is) /\ prompt max (polls im b stream_new is).
Proof.
  intros Hm Hb Hc. apply try_new_valid in Hb as (Hv & <- & <- & _); [|easy]. split.
  - apply (polls_paced im b is stream_new 0 0); auto; [|lia]. intros d. discriminate.
  - intros before t0 mid t after Ht Hmid.
    eapply (polls_prompt_aux im b before stream_new is t0 mid t after 0); eauto. discriminate.
Qed.

(** No panic as long as the clock and the sampled products stay representable. *)
Theorem stream_no_panic im min max j ok b is st : max <= dur_max ->
  try_new min max j ok = Some b ->
  (forall i, In i is -> in_now i + max <= im /\ in_secs i + 5 <= u64max /\ in_nanos i <= u32max) ->
  forall t, ~ In (t, Panic) (polls im b st is).
Proof.
  intros Hm Hb. apply try_new_valid in Hb as (Hv & <- & <- & _); [|easy].
  revert st; induction is as [|i is IH]; intros st Hi t; cbn [polls]; [easy|].
  destruct (poll_next im b st i) as [o st'] eqn:E. intros [H|H].
  - injection H as _ ->. destruct (Hi i (or_introl eq_refl)) as (H1 & H2 & H3).
    unfold poll_next, poll_sleep in E. destruct (st_sleep st) as [d|].
    + destruct (d <=? in_now i); discriminate.
    + destruct (_ =? _); [discriminate|].
      destruct (jitter b _ _ _) as [jj|] eqn:Ej; [|now apply jitter_no_panic in Ej].
      apply delay_bounds in Ej as (Hj & _); [|easy].
      destruct (in_now i + _ <=? im) eqn:Ei; [|lia].
      destruct (_ <=? in_now i); discriminate.
  - eapply IH; eauto. intros i' H'. apply Hi. now right.
Qed.

Definition sec_10 : N := 10000000000.
Lemma stuck_below_max n : base (Backoff 1 sec_10 false) n < sec_10.
Proof.
  rewrite base_plain by (unfold valid, dur_max, sec_10, sec; cbn; lia). unfold plain_delay. cbn [bo_min bo_max].
  unfold multiplier. change (2 ^ 32 - 1) with 4294967295. unfold sec_10.
  destruct (n <? 32) eqn:E; [|lia].
  assert (2 ^ n <= 2 ^ 31) by (apply N.pow_le_mono_r; lia).
  change (2 ^ 31) with 2147483648 in *. lia.
Qed.
