(** Proofs about rate limits *)
From Coq Require Import List Arith NArith Bool Lia ZifyBool ZifyNat ZifyN.
From Verif Require Import Bytes BytesProofs AuthzModel RateLimitModel RateLimitSpec.
Import ListNotations.
Open Scope N_scope.

Lemma id_eqb_eq : forall a b, id_eqb a b = true <-> a = b.
Proof.
  intros [x|x] [y|y]; cbn; rewrite ?beq_eq; split; intros H; try discriminate; try (f_equal; assumption);
    injection H; auto.
Qed.
Lemma opt_id_eqb_eq : forall a b, opt_id_eqb a b = true <-> a = b.
Proof.
  intros [x|] [y|]; cbn; rewrite ?id_eqb_eq; split; intros H; try discriminate; try (f_equal; assumption); auto.
  injection H; auto.
Qed.

(** The bucket of a client, computed *)
Definition bucket_fn (l : limits) (i : option id) : bucket :=
  match match i with Some i => override_of l i | None => None end with
  | Some (n, rps) => B_override n rps
  | None => match l_per_identity l with Some rps => B_identity i rps | None => B_none end
  end.
Lemma find_rev : forall A (f : A -> bool) l x, find f (rev l) = Some x ->
  exists a b, l = a ++ x :: b /\ f x = true /\ forall y, In y b -> f y = false.
Proof.
  intros A f l. induction l as [|y l IH] using rev_ind; intros x H; [discriminate|].
  rewrite rev_app_distr in H. cbn in H. destruct (f y) eqn:E.
  - injection H as <-. exists l, []. split; [reflexivity|]. split; [exact E|]. intros z [].
  - destruct (IH _ H) as (a & b & -> & Hx & Hb). exists a, (b ++ [y]). split; [rewrite <- app_assoc; reflexivity|].
    split; [exact Hx|]. intros z Hz. apply in_app_iff in Hz as [Hz|[<-|[]]]; auto.
Qed.
Lemma override_some : forall l i x, override_of l i = Some x <->
  exists a b, l_overrides l = a ++ (i, x) :: b /\ forall y, ~ In (i, y) b.
Proof.
  intros l i x. unfold override_of. split.
  - destruct (find _ _) as [[j y]|] eqn:E; [|discriminate]. intros H. injection H as <-.
    apply find_rev in E as (a & b & E & Hj & Hb). cbn in Hj. apply id_eqb_eq in Hj. subst j.
    exists a, b. split; [exact E|]. intros y' Hy. specialize (Hb _ Hy). cbn in Hb.
    assert (id_eqb i i = true) by (apply id_eqb_eq; reflexivity). congruence.
  - intros (a & b & E & Hb). rewrite E. rewrite rev_app_distr. cbn [rev]. rewrite <- app_assoc.
    assert (F : forall c, find (fun e => id_eqb (fst e) i) (rev b ++ c) = find (fun e => id_eqb (fst e) i) c).
    { clear E. induction b as [|[j y] b IH] using rev_ind; intros c; [reflexivity|].
      rewrite rev_app_distr. cbn. destruct (id_eqb j i) eqn:J.
      - apply id_eqb_eq in J. subst. exfalso. apply (Hb y). apply in_app_iff. right. left. reflexivity.
      - apply IH. intros z Hz. apply (Hb z). apply in_app_iff. auto. }
    rewrite F. cbn. replace (id_eqb i i) with true by (symmetry; apply id_eqb_eq; reflexivity). reflexivity.
Qed.
Lemma override_none : forall l i, override_of l i = None <-> forall x, ~ In (i, x) (l_overrides l).
Proof.
  intros l i. unfold override_of. split.
  - destruct (find _ _) eqn:E; [discriminate|]. intros _ x Hx. apply in_rev in Hx.
    pose proof (find_none _ _ E _ Hx) as H. cbn in H. assert (id_eqb i i = true) by (apply id_eqb_eq; reflexivity). congruence.
  - intros H. destruct (find _ _) as [[j y]|] eqn:E; [|reflexivity]. exfalso.
    apply find_some in E as [E1 E2]. cbn in E2. apply id_eqb_eq in E2. subst. apply in_rev in E1. exact (H _ E1).
Qed.
Lemma bucket_fn_iff : forall l i b, bucket_of l i b <-> bucket_fn l i = b.
Proof.
  intros l i b. unfold bucket_fn. split.
  - intros H. destruct H as [i n rps x y E H|i rps H E|i H E].
    + assert (O : override_of l i = Some (n, rps)) by (apply override_some; eauto). rewrite O. reflexivity.
    + replace (match i with Some i => override_of l i | None => None end) with (@None (nat * N)).
      * rewrite E. reflexivity.
      * destruct i as [i|]; [|reflexivity]. symmetry. apply override_none. intros x. apply (H i x eq_refl).
    + replace (match i with Some i => override_of l i | None => None end) with (@None (nat * N)).
      * rewrite E. reflexivity.
      * destruct i as [i|]; [|reflexivity]. symmetry. apply override_none. intros x. apply (H i x eq_refl).
  - destruct (match i with Some i => override_of l i | None => None end) as [[n rps]|] eqn:O.
    + intros <-. destruct i as [i|]; [|discriminate]. apply override_some in O as (x & y & E & H). econstructor; eauto.
    + assert (H : forall j x, i = Some j -> ~ In (j, x) (l_overrides l)).
      { intros j x ->. apply override_none. exact O. }
      destruct (l_per_identity l) as [rps|] eqn:P; intros <-; [apply b_identity|apply b_none]; assumption.
Qed.
Lemma bucket_fun : forall l i b c, bucket_of l i b -> bucket_of l i c -> b = c.
Proof. intros l i b c H H'. apply bucket_fn_iff in H, H'. congruence. Qed.

Lemma bucket_dec : forall a b : bucket, {a = b} + {a <> b}.
Proof. repeat decide equality. Qed.

Section Limiter.
  Variable L : Type.
  Variable fresh : N -> L.
  Variable step : N -> L -> N -> bool * L.
  Notation after := (after L fresh step).
  Notation answer := (answer L fresh step).
  Notation decision := (decision L fresh step).
  Notation state := (state L).
  Notation check := (check L fresh step).
  Notation run := (run L fresh step).
  Notation admits := (admits L step).
  Variable l : limits.
  Hypothesis Hl : shared_rates l.

  (** The times at which the limiter of a bucket was asked *)
  Definition mine (b : bucket) (h : history) : list N :=
    flat_map (fun e => if bucket_dec (bucket_fn l (fst (fst e))) b
      then match snd e with Over_total _ => [] | _ => [snd (fst e)] end else []) h.
  Lemma mine_app : forall b h k, mine b (h ++ k) = mine b h ++ mine b k.
  Proof. intros. apply flat_map_app. Qed.
  Lemma mine_asked : forall b h, asked l b h (mine b h).
  Proof.
    intros b h. induction h as [|[[i now] o] h IH] using rev_ind; [constructor|].
    rewrite mine_app. cbn [mine flat_map fst snd]. rewrite app_nil_r.
    destruct (bucket_dec _ b) as [E|E].
    - assert (B : bucket_of l i b) by (apply bucket_fn_iff; exact E).
      destruct o; [| rewrite app_nil_r; apply a_skip; [intros _; eexists; reflexivity|exact IH] | |];
        (apply a_take; [exact B|intros (r & H); discriminate|exact IH]).
    - rewrite app_nil_r. apply a_skip; [|exact IH]. intros B. apply bucket_fn_iff in B. contradiction.
  Qed.
  Lemma asked_mine : forall b h ts, asked l b h ts -> ts = mine b h.
  Proof.
    intros b h ts H. induction H as [|h ts i now o Hb H IH|h ts i now o Hb Ho H IH]; [reflexivity|..];
      rewrite mine_app; cbn [mine flat_map fst snd]; rewrite app_nil_r; destruct (bucket_dec _ b) as [E|E]; subst ts.
    - apply bucket_fn_iff in E. destruct (Hb E) as (r & ->). rewrite app_nil_r. reflexivity.
    - rewrite app_nil_r. reflexivity.
    - destruct o; try reflexivity. exfalso. apply Ho. eexists. reflexivity.
    - apply bucket_fn_iff in Hb. contradiction.
  Qed.

  Definition rel (h : history) (s : state) : Prop :=
    (forall rps, l_total l = Some rps -> match s_total L s with Some x => x | None => fresh rps end = after rps (times h)) /\
    (forall n rps, (exists i, bucket_of l i (B_override n rps)) -> get_override L fresh s n rps = after rps (mine (B_override n rps) h)) /\
    (forall i rps, bucket_of l i (B_identity i rps) -> get_identity L fresh s i rps = after rps (mine (B_identity i rps) h)).

  Lemma after_app : forall rps ts t, after rps (ts ++ [t]) = snd (step rps (after rps ts) t).
  Proof. intros. unfold RateLimitSpec.after. rewrite fold_left_app. reflexivity. Qed.
  Lemma times_app : forall h e, times (h ++ [e]) = times h ++ [snd (fst e)].
  Proof. intros. unfold times. rewrite map_app. reflexivity. Qed.
  Lemma mine_other : forall b h i now o, bucket_fn l i <> b -> mine b (h ++ [((i, now), o)]) = mine b h.
  Proof. intros. rewrite mine_app. cbn. destruct (bucket_dec _ b); [contradiction|]. apply app_nil_r. Qed.
  Lemma mine_same : forall b h i now o, bucket_fn l i = b -> ~ over_total o -> mine b (h ++ [((i, now), o)]) = mine b h ++ [now].
  Proof.
    intros. rewrite mine_app. cbn. destruct (bucket_dec _ b); [|contradiction].
    destruct o; try reflexivity. exfalso. apply H0. eexists. reflexivity.
  Qed.
  Lemma mine_over : forall b h i now r, mine b (h ++ [((i, now), Over_total r)]) = mine b h.
  Proof. intros. rewrite mine_app. cbn. destruct (bucket_dec _ b); apply app_nil_r. Qed.
  Lemma bucket_shared : forall i j n r r', bucket_of l i (B_override n r) -> bucket_of l j (B_override n r') -> r = r'.
  Proof.
    intros i j n r r' H H'. inversion H as [i' ? ? a b E _| |]. inversion H' as [j' ? ? a' b' E' _| |]. subst.
    eapply Hl; [rewrite E|rewrite E']; apply in_app_iff; right; left; reflexivity.
  Qed.

  (** The second part of a check *)
  Lemma client_step : forall h s st i now,
    (forall n rps, (exists i, bucket_of l i (B_override n rps)) -> get_override L fresh s n rps = after rps (mine (B_override n rps) h)) ->
    (forall i rps, bucket_of l i (B_identity i rps) -> get_identity L fresh s i rps = after rps (mine (B_identity i rps) h)) ->
    (forall rps, l_total l = Some rps -> match s_total L s with Some x => x | None => fresh rps end = after rps (times h ++ [now])) ->
    st = check_client L fresh step l s i now ->
    (forall rps, l_total l = Some rps -> answer rps (times h) now = true) ->
    decision l (bucket_fn l i) (times h) (mine (bucket_fn l i) h) now (fst st) /\ rel (h ++ [((i, now), fst st)]) (snd st).
  Proof.
    intros h s st i now Ho Hi Ht -> Hok. unfold check_client, bucket_fn.
    destruct (match i with Some i => override_of l i | None => None end) as [[n rps]|] eqn:O.
    - assert (B : bucket_fn l i = B_override n rps) by (unfold bucket_fn; rewrite O; reflexivity).
      assert (B' : bucket_of l i (B_override n rps)) by (apply bucket_fn_iff; exact B).
      rewrite (Ho n rps) by eauto. destruct (step rps _ now) as [ok lim] eqn:E. cbn [fst snd].
      assert (A : answer rps (mine (B_override n rps) h) now = ok) by (unfold RateLimitSpec.answer; rewrite E; reflexivity).
      assert (NT : ~ over_total (if ok then Admitted_ else Over_override rps)) by (intros (r & H); destruct ok; discriminate).
      split.
      { destruct ok; [eapply d_admit|eapply d_override]; eauto. }
      split; [|split].
      + intros r Hr. rewrite times_app. cbn [fst snd s_total]. auto.
      + intros m r (j & Hj). unfold get_override. cbn [s_override find fst snd]. destruct (Nat.eqb n m) eqn:M.
        * apply Nat.eqb_eq in M. subst m. assert (r = rps) by (eapply bucket_shared; eauto). subst r.
          rewrite mine_same by assumption. rewrite after_app, E. reflexivity.
        * apply Nat.eqb_neq in M. rewrite mine_other by (rewrite B; congruence). apply Ho. eauto.
      + intros j r Hj. unfold get_identity. cbn [s_identity]. rewrite mine_other by (rewrite B; congruence). apply Hi. exact Hj.
    - unfold check_identity. destruct (l_per_identity l) as [rps|] eqn:P.
      + assert (B : bucket_fn l i = B_identity i rps) by (unfold bucket_fn; rewrite O, P; reflexivity).
        assert (B' : bucket_of l i (B_identity i rps)) by (apply bucket_fn_iff; exact B).
        rewrite (Hi i rps) by assumption. destruct (step rps _ now) as [ok lim] eqn:E. cbn [fst snd].
        assert (A : answer rps (mine (B_identity i rps) h) now = ok) by (unfold RateLimitSpec.answer; rewrite E; reflexivity).
        assert (NT : ~ over_total (if ok then Admitted_ else Over_identity rps)) by (intros (r & H); destruct ok; discriminate).
        split.
        { destruct ok; [eapply d_admit|eapply d_identity]; eauto. }
        split; [|split].
        * intros r Hr. rewrite times_app. cbn [fst snd s_total]. auto.
        * intros m r Hj. unfold get_override. cbn [s_override]. rewrite mine_other by (rewrite B; congruence). apply Ho. exact Hj.
        * intros j r Hj. unfold get_identity. cbn [s_identity find fst snd]. destruct (opt_id_eqb i j) eqn:M.
          -- apply opt_id_eqb_eq in M. subst j. assert (B_identity i r = B_identity i rps) by (eapply bucket_fun; eauto).
             assert (r = rps) by congruence. subst r. rewrite mine_same by assumption. rewrite after_app, E. reflexivity.
          -- rewrite mine_other; [apply Hi; exact Hj|]. rewrite B. intros Q. injection Q as Q _.
             assert (opt_id_eqb i j = true) by (apply opt_id_eqb_eq; exact Q). congruence.
      + assert (B : bucket_fn l i = B_none) by (unfold bucket_fn; rewrite O, P; reflexivity).
        cbn [fst snd]. split; [apply d_none; auto|].
        split; [|split].
        * intros r Hr. rewrite times_app. cbn [fst snd s_total]. auto.
        * intros m r Hj. rewrite mine_other by (rewrite B; congruence). apply Ho. exact Hj.
        * intros j r Hj. rewrite mine_other by (rewrite B; congruence). apply Hi. exact Hj.
  Qed.
  Lemma check_step : forall h s i now, rel h s -> let (o, s') := check l s i now in
    decision l (bucket_fn l i) (times h) (mine (bucket_fn l i) h) now o /\ rel (h ++ [((i, now), o)]) s'.
  Proof.
    intros h s i now (Ht & Ho & Hi). unfold RateLimitModel.check. destruct (l_total l) as [rps|] eqn:T.
    - rewrite (Ht rps eq_refl). destruct (step rps _ now) as [ok lim] eqn:E.
      assert (A : answer rps (times h) now = ok) by (unfold RateLimitSpec.answer; rewrite E; reflexivity).
      assert (T' : forall r, l_total l = Some r -> lim = after r (times h ++ [now])).
      { intros r Hr. assert (r = rps) by congruence. subst r. rewrite after_app, E. reflexivity. }
      destruct ok.
      + destruct (check_client _ _ _ _ _ _ _) as [o s'] eqn:C.
        eapply (client_step h _ (o, s') i now); [| | |symmetry; exact C|].
        * exact Ho.
        * exact Hi.
        * cbn [s_total]. exact T'.
        * intros r Hr. assert (r = rps) by congruence. subst r. exact A.
      + split; [apply d_total; assumption|]. split; [|split].
        * rewrite times_app. cbn [s_total fst snd]. intros r Hr. apply T'. exact Hr.
        * intros n r Hn. rewrite mine_over. apply Ho. exact Hn.
        * intros j r Hn. rewrite mine_over. apply Hi. exact Hn.
    - destruct (check_client _ _ _ _ _ _ _) as [o s'] eqn:C.
      eapply (client_step h _ (o, s') i now); [| | |symmetry; exact C|]; auto; intros r Hr; congruence.
  Qed.

  Lemma run_rel : forall rs h s, rel h s -> forall h' i now o rest,
    combine rs (run l s rs) = h' ++ ((i, now), o) :: rest ->
    decision l (bucket_fn l i) (times (h ++ h')) (mine (bucket_fn l i) (h ++ h')) now o.
  Proof.
    induction rs as [|[i now] rs IH]; intros h s Hr h' j t o rest E; [destruct h'; discriminate|].
    cbn [RateLimitModel.run] in E. pose proof (check_step h s i now Hr) as C.
    destruct (check l s i now) as [o' s']. destruct C as [C1 C2]. cbn [combine] in E.
    destruct h' as [|e h'].
    - injection E as <- <- <- _. rewrite app_nil_r. exact C1.
    - injection E as <- E. replace (h ++ (i, now, o') :: h') with ((h ++ [((i, now), o')]) ++ h')
        by (rewrite <- app_assoc; reflexivity). eapply IH; eauto.
  Qed.
  Lemma rel_start : rel [] (start L).
  Proof. split; [|split]; reflexivity. Qed.
  Lemma run_length : forall rs s, length (run l s rs) = length rs.
  Proof. induction rs as [|[i t] rs IH]; intros s; [reflexivity|]. cbn. destruct (check l s i t). cbn. f_equal. apply IH. Qed.

  Theorem outcome_ok : forall rs h i now o rest,
    combine rs (run l (start L) rs) = h ++ ((i, now), o) :: rest ->
    exists b ts, bucket_of l i b /\ asked l b h ts /\ decision l b (times h) ts now o.
  Proof.
    intros rs h i now o rest E. exists (bucket_fn l i), (mine (bucket_fn l i) h).
    split; [apply bucket_fn_iff; reflexivity|]. split; [apply mine_asked|].
    exact (run_rel rs [] _ rel_start h i now o rest E).
  Qed.

  (** ** Counting *)
  Lemma admits_app : forall rps a b ts t s, admits rps s a b (ts ++ [t]) =
    (admits rps s a b ts + (if fst (step rps (fold_left (fun s t => snd (step rps s t)) ts s) t) && (a <=? t)%N && (t <? b)%N then 1 else 0))%nat.
  Proof.
    intros rps a b ts t. induction ts as [|u ts IH]; intros s; cbn [app RateLimitSpec.admits fold_left].
    - destruct (step rps s t) as [ok s']. cbn [fst]. lia.
    - destruct (step rps s u) as [ok s']. cbn [snd]. rewrite IH. lia.
  Qed.
  Lemma admitted_app : forall a b h e, admitted a b (h ++ [e]) = (admitted a b h + if counts a b e then 1 else 0)%nat.
  Proof. intros. unfold admitted. rewrite filter_app, app_length. cbn. destruct (counts a b e); reflexivity. Qed.

  Theorem total_bound : forall rs rps a b, l_total l = Some rps ->
    (admitted a b (combine rs (run l (start L) rs)) <= admits rps (fresh rps) a b (map snd rs))%nat.
  Proof.
    intros rs rps a b T. set (full := combine rs (run l (start L) rs)).
    assert (E : times full = map snd rs).
    { unfold full, times. rewrite <- (map_map fst snd). f_equal.
      assert (G : forall (x : list (option id * N)) (y : list outcome), length y = length x -> map fst (combine x y) = x).
      { induction x as [|u x IH]; intros [|v y] Hxy; cbn in *; try lia; f_equal; auto. }
      apply G. apply run_length. }
    rewrite <- E.
    assert (G : forall h rest, full = h ++ rest -> (admitted a b h <= admits rps (fresh rps) a b (times h))%nat).
    { induction h as [|e h IH] using rev_ind; intros rest F; [cbn; lia|].
      rewrite <- app_assoc in F. specialize (IH _ F). cbn [app] in F.
      rewrite admitted_app, times_app, admits_app.
      destruct e as [[i now] o]. destruct (outcome_ok rs h i now o rest F) as (k & ts & Hk & _ & D).
      fold (after rps (times h)). unfold counts. cbn [fst snd].
      destruct D as [r HT HA|HT _|r HT _ _|n r HT _ _|j r HT _ _]; try lia;
        specialize (HT _ T); unfold RateLimitSpec.answer in HT; rewrite HT; cbn [andb]; lia. }
    apply (G full []). symmetry. apply app_nil_r.
  Qed.
  Theorem bucket_bound : forall rs k rps a b n ts,
    (exists m, k = B_override m rps) \/ (exists i, k = B_identity i rps) ->
    admitted_in l k a b (combine rs (run l (start L) rs)) n -> asked l k (combine rs (run l (start L) rs)) ts ->
    n = admits rps (fresh rps) a b ts.
  Proof.
    intros rs k rps a b n ts K. set (full := combine rs (run l (start L) rs)).
    assert (G : forall h rest n ts, full = h ++ rest -> admitted_in l k a b h n -> asked l k h ts ->
      n = admits rps (fresh rps) a b ts).
    { induction h as [|e h IH] using rev_ind; intros rest m us F A S.
      - inversion A as [E|h' m' e Hn A' E|h' m' e Hb Hcn A' E]; try (destruct h'; discriminate).
        apply asked_mine in S. subst us. reflexivity.
      - rewrite <- app_assoc in F. pose proof (fun x y => IH _ x y F) as IH'. clear IH. rename IH' into IH. cbn [app] in F.
        destruct e as [[i now] o]. destruct (outcome_ok rs h i now o rest F) as (c & vs & Hc & Sc & D).
        assert (AA : exists m', admitted_in l k a b h m' /\ m = (m' + if bucket_dec c k then (if counts a b ((i, now), o) then 1 else 0) else 0)%nat).
        { inversion A as [E|h' m' e Hn A' E|h' m' e Hb Hcn A' E].
          - destruct h; discriminate.
          - apply app_inj_tail in E as [-> ->]. cbn [fst] in Hn. exists m. split; [exact A'|].
            destruct (bucket_dec c k) as [->|]; [|lia]. destruct (counts a b _) eqn:Q; [exfalso; tauto|lia].
          - apply app_inj_tail in E as [-> ->]. cbn [fst] in Hb. exists m'. split; [exact A'|].
            destruct (bucket_dec c k) as [|N]; [rewrite Hcn; lia|]. destruct N. eapply bucket_fun; eauto. }
        destruct AA as (m' & A' & ->).
        assert (us = mine k (h ++ [((i, now), o)])) by (apply asked_mine; exact S). subst us.
        specialize (IH m' (mine k h) A' (mine_asked k h)). subst m'.
        assert (c = bucket_fn l i) by (symmetry; apply bucket_fn_iff; exact Hc). subst c.
        apply asked_mine in Sc. subst vs.
        destruct (bucket_dec (bucket_fn l i) k) as [Ek|Nk]; [|rewrite mine_other by assumption; lia].
        rewrite Ek in D. unfold counts. cbn [fst snd].
        destruct D as [r HT HA|HT HK|r HT HK HA|p r HT HK HA|j r HT HK HA].
        + rewrite mine_over. lia.
        + destruct K as [(? & ->)|(? & ->)]; discriminate.
        + assert (r = rps) by (destruct K as [(? & ->)|(? & ->)]; destruct HK as [(? & Q)|(? & Q)]; congruence). subst r.
          rewrite mine_same by (assumption || (intros (? & ?); discriminate)).
          rewrite admits_app. fold (after rps (mine k h)). unfold RateLimitSpec.answer in HA. rewrite HA. reflexivity.
        + assert (r = rps) by (destruct K as [(? & Q)|(? & Q)]; congruence). subst r.
          rewrite mine_same by (assumption || (intros (? & ?); discriminate)).
          rewrite admits_app. fold (after rps (mine k h)). unfold RateLimitSpec.answer in HA. rewrite HA. cbn [andb]. lia.
        + assert (r = rps) by (destruct K as [(? & Q)|(? & Q)]; congruence). subst r.
          rewrite mine_same by (assumption || (intros (? & ?); discriminate)).
          rewrite admits_app. fold (after rps (mine k h)). unfold RateLimitSpec.answer in HA. rewrite HA. cbn [andb]. lia. }
    intros A S. apply (G full [] n ts); auto. symmetry. apply app_nil_r.
  Qed.

  (** Without a total limit a client's outcome depends on its bucket's requests only. *)
  Theorem independent : forall rs rs' i now b ts, l_total l = None -> bucket_of l i b ->
    sent l b rs ts -> sent l b rs' ts ->
    last (run l (start L) (rs ++ [(i, now)])) Admitted_ = last (run l (start L) (rs' ++ [(i, now)])) Admitted_.
  Proof.
    intros rs rs' i now b ts T B S S'.
    assert (R : forall rs s, run l s (rs ++ [(i, now)]) =
      run l s rs ++ [fst (check l (fold_left (fun s r => snd (check l s (fst r) (snd r))) rs s) i now)]).
    { clear. induction rs as [|[j t] rs IH]; intros s; cbn [app RateLimitModel.run fold_left].
      - destruct (check l s i now). reflexivity.
      - cbn [fst snd]. destruct (check l s j t) as [o s']. cbn [snd]. rewrite IH. reflexivity. }
    assert (G : forall rs ts, sent l b rs ts ->
      decision l b (times (combine rs (run l (start L) rs))) ts now (last (run l (start L) (rs ++ [(i, now)])) Admitted_)).
    { clear S S' rs rs' ts. intros rs ts S. rewrite R, last_last.
      set (o := fst _). assert (E : combine (rs ++ [(i, now)]) (run l (start L) (rs ++ [(i, now)])) =
        combine rs (run l (start L) rs) ++ [((i, now), o)]).
      { rewrite R. fold o. assert (H : forall (x : list (option id * N)) (y : list outcome) u v, length y = length x ->
          combine (x ++ [u]) (y ++ [v]) = combine x y ++ [(u, v)]).
        { clear. induction x as [|p x IH]; intros [|q y] u v H; cbn in *; try lia; [reflexivity|]. f_equal. apply IH. lia. }
        apply H. apply run_length. }
      destruct (outcome_ok (rs ++ [(i, now)]) _ i now o [] E) as (c & us & Hc & Sc & D).
      assert (c = b) by (eapply bucket_fun; eauto). subst c.
      assert (us = ts); [|subst us; exact D].
      apply asked_mine in Sc. subst us. clear E D R B o.
      assert (NO : forall e, In e (combine rs (run l (start L) rs)) -> ~ over_total (snd e)).
      { intros [[j t] o] He. apply in_split in He as (x & y & E). destruct (outcome_ok rs x j t o y E) as (c & us & _ & _ & D).
        cbn [snd]. intros (r & ->). inversion D. congruence. }
      assert (LEN : length (run l (start L) rs) = length rs) by apply run_length.
      revert NO LEN. generalize (run l (start L) rs) as os. clear now i Hc. induction S as [|rs ts j t Hj S IH|rs ts j t Hj S IH]; intros os NO LEN.
      - reflexivity.
      - destruct os as [|o os _] using rev_ind; [rewrite app_length in LEN; cbn in LEN; lia|].
        rewrite !app_length in LEN. cbn in LEN. assert (C : combine (rs ++ [(j, t)]) (os ++ [o]) = combine rs os ++ [((j, t), o)]).
        { assert (LEN' : length os = length rs) by lia. clear -LEN'. revert os LEN'. induction rs as [|p rs IH]; intros [|q os] H; cbn in *; try lia; [reflexivity|]. f_equal. apply IH. lia. }
        rewrite C in *. rewrite mine_other.
        + apply IH; [|lia]. intros e He. apply NO. apply in_app_iff. auto.
        + intros Q. apply Hj. apply bucket_fn_iff. exact Q.
      - destruct os as [|o os _] using rev_ind; [rewrite app_length in LEN; cbn in LEN; lia|].
        rewrite !app_length in LEN. cbn in LEN. assert (C : combine (rs ++ [(j, t)]) (os ++ [o]) = combine rs os ++ [((j, t), o)]).
        { assert (LEN' : length os = length rs) by lia. clear -LEN'. revert os LEN'. induction rs as [|p rs IH]; intros [|q os] H; cbn in *; try lia; [reflexivity|]. f_equal. apply IH. lia. }
        rewrite C in *. rewrite mine_same.
        + f_equal. apply IH; [|lia]. intros e He. apply NO. apply in_app_iff. auto.
        + apply bucket_fn_iff. exact Hj.
        + apply (NO ((j, t), o)). apply in_app_iff. right. left. reflexivity. }
    pose proof (G rs ts S) as D. pose proof (G rs' ts S') as D'. clear -D D' T.
    destruct D as [r HT HA|HT HK|r HT HK HA|p r HT HK HA|j r HT HK HA]; destruct D' as [r' HT' HA'|HT' HK'|r' HT' HK' HA'|p' r' HT' HK' HA'|j' r' HT' HK' HA'];
      try congruence; subst;
      repeat match goal with H : _ \/ _ |- _ => destruct H as [(? & H)|(? & H)] end; try discriminate; congruence.
  Qed.
End Limiter.

(** The limits that are received share rates. *)
Lemma overrides_numbers : forall up l n i m r, In (i, (m, r)) (overrides_of up n l) ->
  exists o, nth_error l (m - n) = Some o /\ (n <= m)%nat /\ non_zero (ao_limit o) = Some r /\
    exists s, In s (ao_identities o) /\ id_from_str up s = Some i.
Proof.
  induction l as [|o l IH]; intros n i m r H; [destruct H|]. cbn [overrides_of] in H.
  assert (G : In (i, (m, r)) (overrides_of up (S n) l) ->
    exists o', nth_error (o :: l) (m - n) = Some o' /\ (n <= m)%nat /\ non_zero (ao_limit o') = Some r /\
      exists s, In s (ao_identities o') /\ id_from_str up s = Some i).
  { intros H'. destruct (IH _ _ _ _ H') as (o' & H1 & H2 & H3 & H4). exists o'. replace (m - n)%nat with (S (m - S n)) by lia. cbn. repeat split; auto. lia. }
  destruct (non_zero (ao_limit o)) as [rps|] eqn:E; [|exact (G H)].
  apply in_app_iff in H as [H|H]; [|exact (G H)].
  apply in_map_iff in H as (j & H & Hj). injection H as <- <- <-.
  exists o. rewrite Nat.sub_diag. repeat split; auto.
  assert (F : forall l, In j (filter_map_ (id_from_str up) l) -> exists s, In s l /\ id_from_str up s = Some j).
  { clear. induction l as [|s l IH]; [intros []|]. cbn. destruct (id_from_str up s) eqn:E.
    - intros [<-|H]; [eauto|]. destruct (IH H) as (s' & ? & ?). eauto.
    - intros H. destruct (IH H) as (s' & ? & ?). eauto. }
  apply F. exact Hj.
Qed.
Theorem limits_shared : forall up a, shared_rates (limits_of up a).
Proof.
  intros up a i j n r r' H H'. cbn [limits_of l_overrides] in *.
  destruct (overrides_numbers _ _ _ _ _ _ H) as (o & E & _ & Z & _).
  destruct (overrides_numbers _ _ _ _ _ _ H') as (o' & E' & _ & Z' & _). congruence.
Qed.

(** ** The generic cell rate algorithm *)
Lemma ordered_cons : forall t ts, ordered (t :: ts) -> ordered ts /\ forall u, In u ts -> t <= u.
Proof.
  intros t ts H. split.
  - intros x y a b c E. apply (H x y (t :: a) b c). rewrite E. reflexivity.
  - intros u Hu. apply in_split in Hu as (a & b & E). apply (H t u [] a b). rewrite E. reflexivity.
Qed.
Lemma gcra_from : forall rps a b ts tat, 0 < rps -> 0 < 1000000000 / rps -> ordered ts ->
  let t := 1000000000 / rps in
  let k := N.of_nat (admits N (gcra_step) rps tat a b ts) in
  k = 0 \/ N.max tat a + (k - 1) * t - t * (rps - 1) < b.
Proof.
  intros rps a b ts tat Hr Ht. cbv zeta. set (t := 1000000000 / rps) in *. revert tat.
  induction ts as [|u ts IH]; intros tat Ho; [left; reflexivity|].
  apply ordered_cons in Ho as [Ho Hu]. cbn [admits].
  assert (S : gcra_step rps tat u = if u <? tat - t * (rps - 1) then (false, tat) else (true, N.max tat u + t)) by reflexivity.
  rewrite S. clear S.
  destruct (u <? tat - t * (rps - 1)) eqn:E.
  - cbn [andb]. rewrite Nat.add_0_l. apply IH. exact Ho.
  - specialize (IH (N.max tat u + t) Ho). set (n := admits _ _ _ _ _ _ ts) in *. clearbody n.
    cbn [andb]. destruct ((a <=? u) && (u <? b)) eqn:W.
    + right. destruct IH as [IH|IH].
      * assert (n = 0)%nat by lia. subst n. cbn [Nat.add]. change (N.of_nat 1 - 1) with 0. rewrite N.mul_0_l. set (q := t * (rps - 1)) in *. clearbody q. lia.
      * replace (N.of_nat (1 + n) - 1) with (N.of_nat n) by lia.
        destruct n as [|n]; [change (N.of_nat 0) with 0; rewrite N.mul_0_l; set (q := t * (rps - 1)) in *; clearbody q; lia|].
        replace (N.of_nat (S n) - 1) with (N.of_nat n) in IH by lia.
        replace (N.of_nat (S n)) with (N.of_nat n + 1) by lia. rewrite N.mul_add_distr_r, N.mul_1_l.
        set (p := N.of_nat n * t) in *. set (q := t * (rps - 1)) in *. clearbody p q. lia.
    + rewrite Nat.add_0_l. destruct IH as [IH|IH]; [left; exact IH|]. right.
      set (p := (N.of_nat n - 1) * t) in *. set (q := t * (rps - 1)) in *. clearbody p q. lia.
Qed.
Theorem gcra_window : forall rps a b ts, 0 < rps -> rps <= 1000000000 -> ordered ts ->
  let k := N.of_nat (admits N gcra_step rps (gcra_fresh rps) a b ts) in
  k <= rps \/ (k - rps) * (1000000000 / rps) < b - a.
Proof.
  intros rps a b ts Hr Hm Ho k.
  assert (Ht : 0 < 1000000000 / rps) by (apply N.div_str_pos; lia).
  destruct (gcra_from rps a b ts (gcra_fresh rps) Hr Ht Ho) as [H|H]; fold k in H; [lia|].
  set (t := 1000000000 / rps) in *. clearbody t k.
  destruct (N.le_gt_cases k rps) as [|G]; [auto|]. right.
  replace (k - 1) with ((k - rps) + (rps - 1)) in H by lia. rewrite N.mul_add_distr_r in H.
  rewrite (N.mul_comm t) in H. set (p := (k - rps) * t) in *. set (q := (rps - 1) * t) in *. clearbody p q.
  unfold gcra_fresh in H. lia.
Qed.
