From Coq Require Import List NArith Bool Arith Lia.
From Verif Require Import SwapModel SwapSpec.
Import ListNotations.

Open Scope nat_scope.
Section Watch.
  Context {V : Type}.
  Variable uf : bool.
  Implicit Types (cs : list (option (clone V))).

  Lemma nth_put i c cs j :
    nth_error (put i c cs) j = if Nat.eqb i j then (match nth_error cs j with Some _ => Some c | None => None end) else nth_error cs j.
  Proof.
    revert i j. induction cs as [|d cs IH]; intros [|i] [|j]; cbn; try reflexivity.
    - now destruct (Nat.eqb i j).
    - apply IH.
  Qed.
  Lemma length_put i c cs : length (put i c cs) = length cs.
  Proof. revert i. induction cs as [|d cs IH]; intros [|i]; cbn; auto. Qed.
  Lemma receivers_iff cs : receivers cs = true <-> exists i c, nth_error cs i = Some (Some c).
  Proof.
    unfold receivers. rewrite existsb_exists. split.
    - intros ([c|] & H & E); [|discriminate]. apply In_nth_error in H as (i & H). eauto.
    - intros (i & c & H). exists (Some c). split; [eapply nth_error_In; eauto|reflexivity].
  Qed.
  Lemma get_iff (s : watched V) i c : get s i = Some c <-> nth_error (w_clones s) i = Some (Some c).
  Proof. unfold get. destruct (nth_error (w_clones s) i) as [[d|]|]; split; congruence. Qed.

  Lemma run_app es es' (s : watched V) :
    run uf s (es ++ es') = match run uf s es with Some s' => run uf s' es' | None => None end.
  Proof. revert s. induction es as [|e es IH]; intros s; cbn; [reflexivity|]. destruct (step uf s e); auto. Qed.

  Lemma values_snoc v es (e : happens V) :
    values v (es ++ [e]) = values v es ++ match e with Updated v => [v] | _ => [] end.
  Proof. unfold values. rewrite flat_map_app. cbn. now rewrite app_nil_r. Qed.

  (* [n0]: the version at the start; [vals]: the values; [q]: the position of the value of the channel; [ps]: those of the clones *)
  Record inv (n0 : nat) (vals : list V) (s : watched V) (q : nat) (ps : list nat) : Prop := {
    i_version : length vals = S (w_version s - n0) /\ n0 <= w_version s;
    i_value : nth_error vals (w_version s - n0) = Some (w_value s);
    i_inner : nth_error vals q = Some (w_inner s);
    i_task : match w_task s with
             | Waits seen => n0 <= seen <= w_version s /\ q = seen - n0
             | Makes seen x => n0 <= seen <= w_version s /\ q <= seen - n0 /\ nth_error vals (seen - n0) = Some x
             | Returned => receivers (w_clones s) = true -> w_closed s = true /\ q = w_version s - n0
             end;
    i_length : length ps = length (w_clones s);
    i_clones : forall i c, nth_error (w_clones s) i = Some (Some c) ->
      c_seen c <= w_inner_version s /\
      exists p, nth_error ps i = Some p /\ p <= q /\ nth_error vals p = Some (c_inner c) /\
                (c_seen c = w_inner_version s -> p = q) }.

  Definition below (ps ps' : list nat) : Prop :=
    forall i p, nth_error ps i = Some p -> exists p', nth_error ps' i = Some p' /\ p <= p'.
  Lemma below_refl ps : below ps ps.
  Proof. intros i p H. eauto. Qed.
  Lemma below_trans a b c : below a b -> below b c -> below a c.
  Proof. intros H K i p E. apply H in E as (p' & E & L). apply K in E as (p2 & E & L2). exists p2. split; [auto|lia]. Qed.

  Fixpoint put_nat (i p : nat) (l : list nat) : list nat :=
    match l, i with [], _ => [] | _ :: l, O => p :: l | x :: l, S i => x :: put_nat i p l end.
  Lemma nth_put_nat i p l j :
    nth_error (put_nat i p l) j = if Nat.eqb i j then (match nth_error l j with Some _ => Some p | None => None end) else nth_error l j.
  Proof.
    revert i j. induction l as [|d l IH]; intros [|i] [|j]; cbn; try reflexivity.
    - now destruct (Nat.eqb i j).
    - apply IH.
  Qed.
  Lemma length_put_nat i p l : length (put_nat i p l) = length l.
  Proof. revert i. induction l as [|d l IH]; intros [|i]; cbn; auto. Qed.

  Lemma inv_new v n : inv n [v] (new_service v n) 0 [0].
  Proof.
    constructor; cbn.
    - lia.
    - now rewrite Nat.sub_diag.
    - reflexivity.
    - lia.
    - reflexivity.
    - intros [|[|i]] c H; cbn in H; inversion H; subst; cbn. split; [lia|]. exists 0. cbn. intuition.
  Qed.

  Lemma receivers_put i c cs : receivers (put i (Some c) cs) = true ->
    (exists d, nth_error cs i = Some (Some d)) -> receivers cs = true.
  Proof. intros _ (d & H). apply receivers_iff. eauto. Qed.
  Lemma receivers_put_none i cs : receivers (put i None cs) = true -> receivers cs = true.
  Proof.
    rewrite !receivers_iff. intros (j & c & H). rewrite nth_put in H. destruct (Nat.eqb i j); eauto.
    destruct (nth_error cs j); discriminate.
  Qed.

  Lemma inv_step n0 v es s q ps e s' : inv n0 (values v es) s q ps -> step uf s e = Some s' ->
    exists q' ps', inv n0 (values v (es ++ [e])) s' q' ps' /\ q <= q' /\ below ps ps'.
  Proof.
    intros I S. rewrite values_snoc. set (vals := values v es) in *. destruct s as [val n closed t inner m cs].
    destruct I as [I1 I2 I3 I4 I5 I6]. cbn [w_value w_version w_closed w_task w_inner w_inner_version w_clones] in *.
    assert (Keep : forall x k (l : list V), nth_error vals k = Some x -> nth_error (vals ++ l) k = Some x).
    { intros x k l H. rewrite nth_error_app1; [auto|]. apply nth_error_Some. congruence. }
    destruct e as [x| | | | |i|i|i]; cbn [step] in S.
    - destruct closed; [discriminate|]. injection S as <-. exists q, ps.
      split; [|split; [lia|apply below_refl]].
      constructor; cbn [w_value w_version w_closed w_task w_inner w_inner_version w_clones].
      + rewrite app_length. cbn [length]. lia.
      + replace (S n - n0) with (length vals) by lia. rewrite nth_error_app2 by lia. now rewrite Nat.sub_diag.
      + auto.
      + destruct t as [seen|seen y|].
        * destruct I4. split; [lia|auto].
        * destruct I4 as (A & B & C). split; [lia|]. split; [auto|]. auto.
        * intros R. destruct (I4 R). discriminate.
      + auto.
      + intros i c H. apply I6 in H as (A & p & B & C & D & E). split; [auto|]. exists p. auto.
    - injection S as <-. exists q, ps. rewrite app_nil_r. split; [|split; [lia|apply below_refl]].
      constructor; cbn [w_value w_version w_closed w_task w_inner w_inner_version w_clones]; auto.
      destruct t; auto. intros R. apply I4 in R. tauto.
    - destruct t as [seen|seen x|]; try discriminate. destruct (Nat.eqb seen n) eqn:E; [discriminate|]. injection S as <-.
      exists q, ps. rewrite app_nil_r. split; [|split; [lia|apply below_refl]].
      constructor; cbn [w_value w_version w_closed w_task w_inner w_inner_version w_clones]; auto.
      split; [lia|]. split; [lia|]. auto.
    - destruct t as [seen|seen x|]; try discriminate. destruct (receivers cs) eqn:R; injection S as <-.
      + exists (seen - n0), ps. rewrite app_nil_r. split; [|split; [lia|apply below_refl]].
        constructor; cbn [w_value w_version w_closed w_task w_inner w_inner_version w_clones]; auto.
        * apply I4.
        * split; [apply I4|reflexivity].
        * intros i c H. apply I6 in H as (A & p & B & C & D & E). split; [lia|]. exists p. repeat split; auto; lia.
      + exists q, ps. rewrite app_nil_r. split; [|split; [lia|apply below_refl]].
        constructor; cbn [w_value w_version w_closed w_task w_inner w_inner_version w_clones]; auto. congruence.
    - destruct t as [seen|seen x|]; try discriminate. destruct (negb (receivers cs) || closed && Nat.eqb seen n) eqn:R; [|discriminate].
      injection S as <-. exists q, ps. rewrite app_nil_r. split; [|split; [lia|apply below_refl]].
      constructor; cbn [w_value w_version w_closed w_task w_inner w_inner_version w_clones]; auto.
      intros Y. rewrite Y in R. cbn in R. apply andb_true_iff in R as (R1 & R2). apply Nat.eqb_eq in R2. split; [auto|lia].
    - destruct (get _ i) as [c|] eqn:G; [|discriminate]. apply get_iff in G. cbn [w_clones] in G.
      destruct (has_changed _ _ c) eqn:H; injection S as <-.
      2: { exists q, ps. rewrite app_nil_r. split; [|split; [lia|apply below_refl]]. constructor; auto. }
      exists q, (put_nat i q ps). rewrite app_nil_r. split; [|split; [lia|]].
      + constructor; cbn [w_value w_version w_closed w_task w_inner w_inner_version w_clones]; auto.
        * destruct t; auto. intros R. apply I4. apply receivers_put in R; eauto.
        * now rewrite length_put_nat, length_put.
        * intros j d Hd. rewrite nth_put in Hd. rewrite nth_put_nat. destruct (Nat.eqb i j) eqn:E.
          -- apply Nat.eqb_eq in E. subst j. rewrite G in Hd. injection Hd as <-. cbn. split; [lia|].
             apply I6 in G as (_ & p & B & _). rewrite B. exists q. auto.
          -- apply I6 in Hd. exact Hd.
      + intros j p Hp. rewrite nth_put_nat. destruct (Nat.eqb i j) eqn:E; [|eauto].
        apply Nat.eqb_eq in E. subst j. rewrite Hp. apply I6 in G as (_ & p' & B & C & _). rewrite Hp in B. injection B as <-. eauto.
    - destruct (get _ i) as [c|] eqn:G; [|discriminate]. apply get_iff in G. cbn [w_clones] in G. injection S as <-.
      pose proof G as G'. apply I6 in G' as (A & p & B & C & D & E).
      exists q, (ps ++ [p]). rewrite app_nil_r. split; [|split; [lia|]].
      + constructor; cbn [w_value w_version w_closed w_task w_inner w_inner_version w_clones]; auto.
        * destruct t; auto. intros _. apply I4. apply receivers_iff. eauto.
        * rewrite !app_length. cbn. lia.
        * intros j d H. destruct (Nat.lt_ge_cases j (length cs)) as [L|L].
          -- rewrite nth_error_app1 in H by auto. rewrite nth_error_app1 by lia. auto.
          -- rewrite nth_error_app2 in H by auto. rewrite nth_error_app2 by lia. rewrite I5.
             destruct (j - length cs) as [|[|k]]; cbn in H; inversion H; subst. split; [auto|]. exists p. cbn. auto.
      + intros j x H. exists x. split; [|lia]. rewrite nth_error_app1; [auto|]. apply nth_error_Some. congruence.
    - destruct (get _ i) as [c|] eqn:G; [|discriminate]. injection S as <-.
      exists q, ps. rewrite app_nil_r. split; [|split; [lia|apply below_refl]].
      constructor; cbn [w_value w_version w_closed w_task w_inner w_inner_version w_clones]; auto.
      + destruct t; auto. intros R. apply I4. eapply receivers_put_none; eauto.
      + now rewrite length_put.
      + intros j d H. rewrite nth_put in H. destruct (Nat.eqb i j); [destruct (nth_error cs j); discriminate|auto].
  Qed.

  Lemma inv_run n0 v es' : forall es s q ps s', inv n0 (values v es) s q ps -> run uf s es' = Some s' ->
    exists q' ps', inv n0 (values v (es ++ es')) s' q' ps' /\ q <= q' /\ below ps ps'.
  Proof.
    induction es' as [|e es' IH]; intros es s q ps s' I R; cbn [run] in R.
    - injection R as <-. rewrite app_nil_r. exists q, ps. split; [auto|]. split; [lia|apply below_refl].
    - destruct (step uf s e) as [s1|] eqn:E; [|discriminate].
      destruct (inv_step _ _ _ _ _ _ _ _ I E) as (q1 & ps1 & I1 & L1 & B1).
      destruct (IH _ _ _ _ _ I1 R) as (q2 & ps2 & I2 & L2 & B2). rewrite <- app_assoc in I2.
      exists q2, ps2. split; [exact I2|]. split; [lia|]. eapply below_trans; eauto.
  Qed.
  Lemma reach v n es s : run uf (new_service v n) es = Some s -> exists q ps, inv n (values v es) s q ps.
  Proof.
    intros R. destruct (inv_run n v es [] _ _ _ _ (inv_new v n) R) as (q & ps & I & _). cbn in I. eauto.
  Qed.

  Lemma forward v n es es' (s s' : watched V) i (x y : V) :
    run uf (new_service v n) es = Some s -> run uf s es' = Some s' -> uses s i x -> uses s' i y ->
    exists p p', p <= p' /\ nth_error (values v (es ++ es')) p = Some x /\ nth_error (values v (es ++ es')) p' = Some y.
  Proof.
    intros R R' (c & G & <-) (d & G' & <-).
    destruct (reach _ _ _ _ R) as (q & ps & I). destruct (inv_run _ _ _ _ _ _ _ _ I R') as (q' & ps' & I' & L & B).
    apply get_iff in G, G'. apply (i_clones _ _ _ _ _ I) in G as (_ & p & G1 & _ & G2 & _).
    apply (i_clones _ _ _ _ _ I') in G' as (_ & p' & G3 & _ & G4 & _).
    destruct (B _ _ G1) as (p2 & B1 & B2). assert (p2 = p') by congruence. subst p2.
    exists p, p'. split; [auto|]. split; [|auto].
    unfold values in *. rewrite flat_map_app, app_comm_cons. rewrite nth_error_app1; [auto|]. apply nth_error_Some. congruence.
  Qed.

  Lemma last_nth (l : list V) d k : length l = S k -> nth_error l k = Some (last l d).
  Proof.
    intros H. destruct (rev l) as [|x r] eqn:E.
    - apply (f_equal (@rev V)) in E. rewrite rev_involutive in E. subst l. discriminate.
    - apply (f_equal (@rev V)) in E. rewrite rev_involutive in E. cbn in E. subst l. rewrite app_length in H. cbn in H.
      rewrite nth_error_app2 by lia. rewrite last_last. now replace (k - length (rev r)) with 0 by lia.
  Qed.

  Lemma closed_only es : forall (s s' : watched V), run uf s es = Some s' -> w_closed s' = true -> w_closed s = true \/ In Source_closed es.
  Proof.
    induction es as [|e es IH]; intros s s' R C; cbn in R; [injection R as <-; auto|].
    destruct (step uf s e) as [s1|] eqn:E; [|discriminate]. apply (IH _ _ R) in C as [C|C]; [|cbn; auto].
    destruct s as [val n closed t inner m cs]. destruct e as [x| | | | |i|i|i]; cbn [step] in E.
    - destruct closed; inversion E; subst; cbn in *; auto.
    - cbn. auto.
    - destruct t; try discriminate. destruct (Nat.eqb _ _); inversion E; subst; auto.
    - destruct t; try discriminate. destruct (receivers cs); inversion E; subst; auto.
    - destruct t; try discriminate. destruct (_ || _); inversion E; subst; auto.
    - destruct (get _ i); [|discriminate]. destruct (has_changed _ _ _); inversion E; subst; auto.
    - destruct (get _ i); inversion E; subst; auto.
    - destruct (get _ i); inversion E; subst; auto.
  Qed.

  Lemma latest (v : V) n es (s s' : watched V) i :
    run uf (new_service v n) es = Some s -> settled uf s -> (In Source_closed es -> uf = true) ->
    step uf s (Polled i) = Some s' -> uses s' i (last (values v es) v).
  Proof.
    intros R T U S. destruct (reach _ _ _ _ R) as (q & ps & I).
    pose proof (closed_only _ _ _ R) as CL. cbn in CL.
    destruct s as [val m closed t inner k cs]. destruct I as [I1 I2 I3 I4 I5 I6].
    cbn [w_value w_version w_closed w_task w_inner w_inner_version w_clones] in *.
    cbn [step] in S. destruct (get _ i) as [c|] eqn:G; [|discriminate]. apply get_iff in G. cbn [w_clones] in G.
    assert (RV : receivers cs = true) by (apply receivers_iff; eauto).
    assert (Q : q = m - n /\ (t = Returned -> uf = true)).
    { destruct t as [seen|seen x|].
      - split; [|discriminate]. destruct I4 as (A & ->). pose proof (T Task_takes (or_introl eq_refl)) as X. cbn in X.
        destruct (Nat.eqb seen m) eqn:E; [|discriminate]. apply Nat.eqb_eq in E. now subst.
      - pose proof (T Task_sends (or_intror (or_introl eq_refl))) as X. cbn in X. rewrite RV in X. discriminate.
      - destruct (I4 RV) as (C & ->). split; [reflexivity|]. intros _. apply U. destruct (CL C); [discriminate|auto]. }
    destruct Q as (-> & Q).
    assert (LN : nth_error (values v es) (m - n) = Some (last (values v es) v)) by (apply last_nth; lia).
    assert (IN : inner = last (values v es) v) by congruence.
    pose proof G as G2. apply I6 in G2 as (A & p & B & C & D & E).
    destruct (has_changed _ _ c) eqn:H; injection S as <-.
    - eexists. split; [apply get_iff; cbn [w_clones]; rewrite nth_put, Nat.eqb_refl, G; reflexivity|]. exact IN.
    - exists c. split; [apply get_iff; exact G|].
      assert (c_seen c = k).
      { unfold has_changed in H. cbn [w_task w_inner_version] in H. destruct t.
        - apply negb_false_iff, Nat.eqb_eq in H. auto.
        - apply negb_false_iff, Nat.eqb_eq in H. auto.
        - rewrite Q in H by reflexivity. cbn in H. apply negb_false_iff, Nat.eqb_eq in H. auto. }
      rewrite (E H0) in D. congruence.
  Qed.

  Lemma steady (s : watched V) e s' i x : step uf s e = Some s' -> e <> Polled i -> e <> Dropped i -> uses s i x -> uses s' i x.
  Proof.
    intros S N1 N2 (c & G & <-). exists c. split; [|reflexivity]. apply get_iff. apply get_iff in G.
    destruct s as [val n closed t inner m cs]. cbn [w_clones] in G. destruct e as [y| | | | |j|j|j]; cbn [step] in S.
    - destruct closed; inversion S; subst; auto.
    - inversion S; subst; auto.
    - destruct t; try discriminate. destruct (Nat.eqb _ _); inversion S; subst; auto.
    - destruct t; try discriminate. destruct (receivers cs); inversion S; subst; auto.
    - destruct t; try discriminate. destruct (_ || _); inversion S; subst; auto.
    - destruct (get _ j); [|discriminate]. destruct (has_changed _ _ _); inversion S; subst; auto. cbn [w_clones].
      rewrite nth_put. destruct (Nat.eqb j i) eqn:E; [apply Nat.eqb_eq in E; congruence|auto].
    - destruct (get _ j); inversion S; subst; auto. cbn [w_clones]. rewrite nth_error_app1; [auto|]. apply nth_error_Some. congruence.
    - destruct (get _ j); inversion S; subst; auto. cbn [w_clones]. rewrite nth_put.
      destruct (Nat.eqb j i) eqn:E; [apply Nat.eqb_eq in E; congruence|auto].
  Qed.
  Lemma copied (s : watched V) s' i x : step uf s (Cloned i) = Some s' -> uses s i x -> uses s' (length (w_clones s)) x.
  Proof.
    intros S (c & G & <-). exists c. split; [|reflexivity]. apply get_iff. destruct s as [val n closed t inner m cs].
    cbn [step] in S. rewrite G in S. injection S as <-. cbn [w_clones]. rewrite nth_error_app2 by lia. now rewrite Nat.sub_diag.
  Qed.

  (* how much the task has to do *)
  Definition work (s : watched V) : nat :=
    match w_task s with
    | Makes seen _ => if Nat.eqb seen (w_version s) then 2 else 4
    | Waits seen => if Nat.eqb seen (w_version s) then 1 else 3
    | Returned => 0
    end.
  Lemma work_less (s : watched V) e s' : of_task e -> step uf s e = Some s' -> work s' < work s.
  Proof.
    destruct s as [val n closed t inner m cs].
    intros [-> | [-> | ->]] S; cbn [step] in S; destruct t as [seen|seen x|]; try discriminate.
    - destruct (Nat.eqb seen n) eqn:E; inversion S; subst. unfold work. cbn. rewrite E, Nat.eqb_refl. lia.
    - destruct (receivers cs); inversion S; subst; unfold work; cbn; destruct (Nat.eqb seen n); lia.
    - destruct (_ || _); inversion S; subst. unfold work. cbn. destruct (Nat.eqb seen n); lia.
  Qed.
  Lemma task_bounded ts : forall (s : watched V) s', Forall of_task ts -> run uf s ts = Some s' -> length ts <= 4.
  Proof.
    assert (B : forall ts (s : watched V) s', Forall of_task ts -> run uf s ts = Some s' -> length ts + work s' <= work s).
    { clear ts. induction ts as [|e ts IH]; intros s s' F R; cbn in *; [injection R as <-; lia|].
      inversion F; subst. destruct (step uf s e) as [s1|] eqn:E; [|discriminate]. apply IH in R; [|auto].
      apply work_less in E; [|auto]. lia. }
    intros s s' F R. apply B in R; [|auto]. assert (work s <= 4); [|lia].
    unfold work. destruct (w_task s); try destruct (Nat.eqb _ _); lia.
  Qed.
  Lemma settled_dec (s : watched V) : settled uf s \/ exists e s', of_task e /\ step uf s e = Some s'.
  Proof.
    destruct (step uf s Task_takes) eqn:A; [right; exists Task_takes; unfold of_task; eauto|].
    destruct (step uf s Task_sends) eqn:B; [right; exists Task_sends; unfold of_task; eauto|].
    destruct (step uf s Task_returns) eqn:C; [right; exists Task_returns; unfold of_task; eauto|].
    left. intros e [-> | [-> | ->]]; auto.
  Qed.
  Lemma settles (s : watched V) : exists ts s', Forall of_task ts /\ run uf s ts = Some s' /\ settled uf s'.
  Proof.
    remember (work s) as k. revert s Heqk. induction k as [k IH] using lt_wf_ind. intros s ->.
    destruct (settled_dec s) as [H|(e & s1 & H & S)].
    - exists [], s. auto.
    - pose proof (work_less _ _ _ H S) as L. destruct (IH _ L _ eq_refl) as (ts & s' & A & B & C).
      exists (e :: ts), s'. split; [constructor; auto|]. split; [|auto]. cbn. now rewrite S.
  Qed.
End Watch.

(* ---- SwitchReady ---- *)
Open Scope N_scope.

Lemma polls_snoc after ps p : forall s,
  polls after s (ps ++ [p]) =
  let (s', x) := poll_ready after (fst (polls after s ps)) (p_at p) (p_first p) (p_second p) (p_other p) in (s', Some x).
Proof.
  induction ps as [|q ps IH]; intros s.
  - cbn [app polls fst]. now destruct (poll_ready _ _ _ _ _ _).
  - change ((q :: ps) ++ [p]) with (q :: (ps ++ [p])). cbn [polls].
    destruct (poll_ready after s (p_at q) (p_first q) (p_second q) (p_other q)) as [s1 x1] eqn:E.
    assert (NE : match ps ++ [p] with [] => (s1, Some x1) | _ :: _ => polls after s1 (ps ++ [p]) end = polls after s1 (ps ++ [p])).
    { destruct (ps ++ [p]) eqn:E2; [destruct ps; discriminate|reflexivity]. }
    rewrite NE, IH. destruct ps as [|b l2]; reflexivity.
Qed.
Lemma in_time_snoc ps p : forall from, in_time from (ps ++ [p]) ->
  in_time from ps /\ from <= p_at p /\ forall q, In q ps -> p_at q <= p_at p.
Proof.
  induction ps as [|q ps IH]; intros from H; cbn in *.
  - intuition.
  - destruct H as (H & K). apply IH in K as (K1 & K2 & K3). split; [auto|]. split; [lia|].
    intros r [<-|R]; [auto|auto].
Qed.
Lemma outage_in ps t : outage ps (Some t) -> exists p, In p ps /\ p_at p = t.
Proof.
  intros H. remember (Some t) as o. revert t Heqo. induction H; intros t' E; try discriminate.
  - injection E as <-. exists p. split; [apply in_or_app; cbn; auto|auto].
  - injection E as <-. destruct (IHoutage _ eq_refl) as (q & Q & <-). exists q. split; [apply in_or_app; auto|auto].
Qed.

(* the state, after polls *)
Lemma outage_state after ps o from : outage ps o -> in_time from ps ->
  match o with
  | None => fst (polls after Primary ps) = Primary
  | Some t => fst (polls after Primary ps) = Waiting (t + after) /\ (forall p, In p ps -> p_at p < t + after \/ p_at p < t) \/
              fst (polls after Primary ps) = Secondary /\ exists p, In p ps /\ t + after <= p_at p
  end.
Proof.
  intros H. induction H; intros T; try (apply in_time_snoc in T as (T1 & T2 & T3); specialize (IHoutage T1)).
  - reflexivity.
  - rewrite polls_snoc, IHoutage. cbn. destruct (p_first p); [congruence|reflexivity|reflexivity].
  - rewrite polls_snoc, IHoutage. cbn. rewrite H0. destruct (p_second p); [congruence| |]; destruct (_ <=? _); reflexivity.
  - rewrite polls_snoc, IHoutage. cbn. rewrite H0, H1. destruct (p_at p + after <=? p_at p) eqn:E.
    + right. cbn. split; [reflexivity|]. exists p. split; [apply in_or_app; cbn; auto|]. apply N.leb_le in E. auto.
    + left. cbn. split; [reflexivity|]. apply N.leb_gt in E. intros q Q. apply in_app_iff in Q as [Q|[<-|[]]]; [|auto].
      apply T3 in Q. lia.
  - rewrite polls_snoc. destruct IHoutage as [(A & B)|(A & B)]; rewrite A; cbn; rewrite H0.
    + destruct (t + after <=? p_at p) eqn:E; cbn.
      * right. split; [reflexivity|]. exists p. split; [apply in_or_app; cbn; auto|]. now apply N.leb_le.
      * left. split; [reflexivity|]. intros q Q. apply in_app_iff in Q as [Q|[<-|[]]]; [auto|]. apply N.leb_gt in E. auto.
    + right. split; [reflexivity|]. destruct B as (q & Q & B). exists q. split; [apply in_or_app; auto|auto].
  - rewrite polls_snoc. destruct IHoutage as [(A & B)|(A & B)]; rewrite A; cbn.
    + destruct (_ <=? _); destruct (p_first p); try congruence; reflexivity.
    + destruct (p_first p); try congruence; reflexivity.
Qed.

Lemma outage_snoc ps p o : outage (ps ++ [p]) o ->
  match o with
  | None => (outage ps None /\ p_first p <> Pending) \/ (outage ps None /\ p_first p = Pending /\ p_second p <> Pending) \/
            exists t, outage ps (Some t) /\ p_first p <> Pending
  | Some t => (outage ps None /\ p_first p = Pending /\ p_second p = Pending /\ t = p_at p) \/
              (outage ps (Some t) /\ p_first p = Pending)
  end.
Proof.
  intros H. inversion H as [E | qs r A B E | qs r A B C E | qs r A B C E | qs r t A B E | qs r t A B E]; subst;
    try (apply app_inj_tail in E as (-> & ->)); eauto 8.
  destruct ps; discriminate.
Qed.

Lemma primary_answers after from ps p : in_time from (ps ++ [p]) -> outage (ps ++ [p]) None ->
  polls after Primary (ps ++ [p]) = (Primary, Some (said p)) /\ said p <> Pending.
Proof.
  intros T H. pose proof (outage_state after _ _ from H T) as S. apply outage_snoc in H. rewrite polls_snoc in *.
  apply in_time_snoc in T as (T & _ & _). unfold said.
  destruct H as [(H & F)|[(H & F & G)|(t & H & F)]]; pose proof (outage_state after _ _ from H T) as S0; cbn in S0.
  - rewrite S0. cbn. destruct (p_first p); [congruence| |]; split; congruence.
  - rewrite S0. cbn. rewrite F. destruct (p_second p); [congruence| |]; destruct (_ <=? _); split; congruence.
  - destruct S0 as [(A & B)|(A & B)]; rewrite A; cbn; destruct (p_first p); try congruence; try destruct (_ <=? _); split; congruence.
Qed.
Lemma secondary_answers after from ps p t : in_time from (ps ++ [p]) -> outage (ps ++ [p]) (Some t) ->
  if t + after <=? p_at p
  then polls after Primary (ps ++ [p]) = (Secondary, Some (p_other p))
  else polls after Primary (ps ++ [p]) = (Waiting (t + after), Some Pending).
Proof.
  intros T H. apply outage_snoc in H. rewrite polls_snoc. pose proof T as T0. apply in_time_snoc in T as (T & _ & T3).
  destruct H as [(H & F & G & ->)|(H & F)]; pose proof (outage_state after _ _ from H T) as S0; cbn in S0.
  - rewrite S0. cbn. rewrite F, G. destruct (_ <=? _); reflexivity.
  - destruct S0 as [(A & B)|(A & B)]; rewrite A; cbn; rewrite F.
    + destruct (_ <=? _); reflexivity.
    + destruct B as (q & Q & B). apply T3 in Q. replace (t + after <=? p_at p) with true by (symmetry; apply N.leb_le; lia). reflexivity.
Qed.
Lemma outage_total ps : exists o, outage ps o.
Proof.
  induction ps as [|p ps IH] using rev_ind; [exists None; constructor|]. destruct IH as ([t|] & H).
  - destruct (p_first p) eqn:F; [exists (Some t); now constructor| |]; exists None; eapply is_over; eauto; congruence.
  - destruct (p_first p) eqn:F; [|exists None; apply fine; auto; congruence|exists None; apply fine; auto; congruence].
    destruct (p_second p) eqn:G; [exists (Some (p_at p)); now apply starts| |]; exists None; apply fine_after_all; auto; congruence.
Qed.
Lemma answered_ready after ps s : polls after Primary ps = (s, Some Ready) -> exists b, call s = Some b.
Proof.
  destruct ps as [|p ps _] using rev_ind; [discriminate|]. rewrite polls_snoc.
  destruct (fst (polls after Primary ps)); cbn; destruct (p_first p); try destruct (p_second p); try destruct (_ <=? _); cbn;
    intros H; inversion H; subst; cbn; eauto; try discriminate.
Qed.
Lemma goes_to after from ps s o : in_time from ps -> outage ps o -> polls after Primary ps = (s, Some Ready) ->
  call s = Some (match o with None => true | Some _ => false end).
Proof.
  destruct ps as [|p ps _] using rev_ind; [discriminate|]. intros T O H. destruct o as [t|].
  - pose proof (secondary_answers after from ps p t T O) as S. rewrite H in S. destruct (t + after <=? p_at p); [|discriminate].
    injection S as -> _. reflexivity.
  - destruct (primary_answers after from ps p T O) as (S & _). rewrite H in S. injection S as -> _. reflexivity.
Qed.
Lemma secondary_answers_shown after from ps p t : in_time from (ps ++ [p]) -> outage (ps ++ [p]) (Some t) ->
  if t + after <=? p_at p
  then polls after Primary (ps ++ [p]) = (Secondary, Some (p_other p))
  else exists s, polls after Primary (ps ++ [p]) = (s, Some Pending).
Proof.
  intros T O. pose proof (secondary_answers after from ps p t T O) as H. destruct (t + after <=? p_at p); [exact H|eauto].
Qed.
