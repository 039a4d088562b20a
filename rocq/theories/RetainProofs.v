(** Proofs about keeping services. *)
From Coq Require Import List Arith NArith Bool Lia.
From Verif Require Import CacheModel CacheSpec CacheProofs RetainModel RetainSpec.
Import ListNotations.

Definition is_live (r : request) : bool := match r_phase r with Over => false | _ => true end.
Definition uses (h : nat) (r : request) : bool := (r_handle r =? h) && is_live r.
Definition count (h : nat) (l : list request) : nat := length (filter (uses h) l).
Lemma count_app h a b : count h (a ++ b) = count h a + count h b.
Proof. unfold count. now rewrite filter_app, app_length. Qed.
Lemma count_one h r : count h [r] = if uses h r then 1 else 0.
Proof. unfold count. cbn [filter]. destruct (uses h r); reflexivity. Qed.
Lemma set_split {A} i (x y : A) l : nth_error l i = Some y -> exists a b, l = a ++ y :: b /\ length a = i /\ set_nth i x l = a ++ x :: b.
Proof.
  revert i. induction l as [|z l IH]; intros [|i] H; cbn in H; try discriminate.
  - injection H as ->. exists [], l. auto.
  - destruct (IH i H) as (a & b & -> & L & E). exists (z :: a), b. cbn [set_nth app length]. rewrite E, L. auto.
Qed.
Lemma count_set h i r p l : nth_error l i = Some r ->
  count h (set_nth i (Request (r_key r) (r_value r) (r_handle r) p) l) + (if uses h r then 1 else 0) =
  count h l + (if uses h (Request (r_key r) (r_value r) (r_handle r) p) then 1 else 0).
Proof.
  intros H. destruct (set_split i (Request (r_key r) (r_value r) (r_handle r) p) r l H) as (a & b & -> & _ & ->). rewrite !count_app.
  unfold count at 2 4. cbn [filter]. destruct (uses h r), (uses h (Request _ _ _ p)); cbn [length]; fold (count h b); lia.
Qed.
Lemma count_pos h l i r : nth_error l i = Some r -> uses h r = true -> 0 < count h l.
Proof.
  intros H U. destruct (set_split i r r l H) as (a & b & -> & _ & _). rewrite count_app. unfold count at 2. cbn [filter]. rewrite U. cbn [length]. lia.
Qed.
Lemma in_set_cases i (x : request) l j y : nth_error (set_nth i x l) j = Some y -> (i = j /\ y = x) \/ (i <> j /\ nth_error l j = Some y).
Proof.
  revert i j. induction l as [|z l IH]; intros [|i] [|j] H; cbn in H; try discriminate; auto.
  - injection H as <-. auto.
  - destruct (IH i j H) as [[-> ->]|[N E]]; auto.
Qed.
Definition no_permanent (c : CacheModel.state) : Prop := forall k v, find_entry k (entries c) <> Some (v, None).
Lemma find_remove_some k k' l e : find_entry k (remove_entry k' l) = Some e -> find_entry k l = Some e.
Proof.
  destruct (Nat.eq_dec k k') as [->|N]; [rewrite find_remove; discriminate|]. rewrite find_remove_other by exact N. auto.
Qed.
Lemma cache_entries_of c e k v h : forall c' o, cached c e = (c', o) -> find_entry k (entries c') = Some (v, h) -> find_entry k (entries c) = Some (v, h).
Proof. intros c' o H F. destruct (cached_entries _ _ _ _ H) as [E _]. now rewrite E in F. Qed.
(** Entries come from insertions *)
Lemma entry_from idle c e c' o k v h : CacheModel.step idle c e = (c', o) -> (forall k v, e <> Permanent k v) ->
  find_entry k (entries c') = Some (v, h) -> find_entry k (entries c) = Some (v, h) \/ (e = Insert k v /\ h <> None).
Proof.
  intros S NP F. destruct e as [d|k'|k' v'|k' v'|h'|h'|h'|h'|h']; cbn [CacheModel.step] in S.
  - injection S as <- <-. left. exact F.
  - unfold get in S. destruct (find_entry k' (entries c)) as [en|]; [left; exact (cache_entries_of _ _ _ _ _ _ _ S F)|injection S as <- <-; left; exact F].
  - unfold insert in S. destruct (find_entry k' (entries c)) as [en|] eqn:E; [left; exact (cache_entries_of _ _ _ _ _ _ _ S F)|]. injection S as <- <-. cbn [entries] in F.
    destruct (Nat.eq_dec k k') as [->|N]; [rewrite find_set in F; injection F as <- <-; right; split; [reflexivity|discriminate]|].
    rewrite find_set_other in F by exact N. left. exact F.
  - exfalso. exact (NP _ _ eq_refl).
  - injection S as <- <-. left. exact F.
  - injection S as <- <-. left. exact F.
  - injection S as <- <-. left. exact F.
  - injection S as <- <-. left. exact F.
  - unfold lock in S. destruct (nth_error (handles c) h') as [x|]; [|injection S as <- <-; left; exact F].
    destruct (h_task x); try (injection S as <- <-; left; exact F). destruct (strong x =? 1); [|injection S as <- <-; left; exact F].
    destruct (find_entry (h_key x) (entries c)) as [[v' [h''|]]|]; injection S as <- <-; left; try exact F. exact (find_remove_some _ _ _ _ F).
Qed.

Section Idle.
  Variable idle : N.
  Record rinv (hist : list event) (es : list CacheModel.event) (c : CacheModel.state) (rs : list request) : Prop := Rinv {
    ri_cache : c = fst (CacheModel.run idle init es);
    ri_entries : forall k v h, find_entry k (entries c) = Some (v, h) -> h <> None /\ In (Arrives k v) hist;
    ri_count : forall h, holders h (trace idle es) = count h rs;
    ri_kept : forall i r, nth_error rs i = Some r -> r_phase r <> Over -> find_entry (r_key r) (entries c) = Some (r_value r, Some (r_handle r)) }.
  Lemma trace_snoc es e : trace idle (es ++ [e]) = trace idle es ++ [(e, snd (CacheModel.step idle (fst (CacheModel.run idle init es)) e))] /\
    fst (CacheModel.run idle init (es ++ [e])) = fst (CacheModel.step idle (fst (CacheModel.run idle init es)) e).
  Proof.
    unfold trace. rewrite run_app. destruct (CacheModel.run idle init es) as [c tr]. cbn [fst snd CacheModel.run]. destruct (CacheModel.step idle c e) as [c' o]. cbn [fst snd]. auto.
  Qed.
  (** An event of the cache that keeps the number of holders of each handle *)
  Lemma cache_event hist es c rs e rs' : rinv hist es c rs -> (forall k v, e <> Permanent k v) -> (forall k v, e <> Insert k v) ->
    (forall h, hold h (count h rs) (e, snd (CacheModel.step idle c e)) = count h rs') ->
    (forall i r, nth_error rs' i = Some r -> r_phase r <> Over -> 0 < count (r_handle r) rs /\ exists r0, nth_error rs i = Some r0 /\ r_phase r0 <> Over /\ r_key r0 = r_key r /\ r_value r0 = r_value r /\ r_handle r0 = r_handle r) ->
    rinv hist (es ++ [e]) (fst (CacheModel.step idle c e)) rs'.
  Proof.
    intros [I1 I2 I3 I4] NP NI HC HL. destruct (trace_snoc es e) as [T R]. rewrite <- I1 in T, R. constructor.
    - rewrite R. reflexivity.
    - intros k v h F. destruct (CacheModel.step idle c e) as [c' o] eqn:S. destruct (entry_from idle c e c' o k v h S NP F) as [F'|[-> _]]; [exact (I2 _ _ _ F')|]. exfalso. exact (NI _ _ eq_refl).
    - intros h. rewrite T, holders_snoc, I3. apply HC.
    - intros i r N L. destruct (HL i r N L) as (P & r0 & N0 & L0 & E1 & E2 & E3). rewrite <- E1, <- E2, <- E3. rewrite <- E3 in P. pose proof (run_inv idle es) as V. rewrite <- I1 in V.
      destruct (CacheModel.step idle c e) as [c' o] eqn:S. cbn [fst]. apply (entry_step idle (trace idle es) c e c' o _ _ V S (I4 _ _ N0 L0)).
      + intros v. apply NP.
      + intros h E. cbn in E. injection E as <-. rewrite I3. exact P.
  Qed.
  Lemma held_count rs i r : nth_error rs i = Some r -> r_phase r <> Over -> 0 < count (r_handle r) rs.
  Proof. intros N L. apply (count_pos _ _ i r N). unfold uses, is_live. rewrite Nat.eqb_refl. destruct (r_phase r); try reflexivity. contradiction. Qed.
  Lemma more_history hist e es c rs : rinv hist es c rs -> rinv (hist ++ [e]) es c rs.
  Proof. intros [I1 I2 I3 I4]. constructor; try assumption. intros k v h F. destruct (I2 k v h F) as [A B]. split; [exact A|]. apply in_app_iff. left. exact B. Qed.
  Lemma quiet hist es c rs e : rinv hist es c rs -> match e with Tick _ | Release _ | Poll _ | Lock _ => True | _ => False end -> rinv hist (es ++ [e]) (fst (CacheModel.step idle c e)) rs.
  Proof.
    intros I Q. apply (cache_event hist es c rs e rs I); [intros k v ->; destruct Q|intros k v ->; destruct Q| |].
    - intros h. destruct e; try contradiction; cbn [CacheModel.step snd hold]; try reflexivity. unfold lock. destruct (nth_error (handles c) h0) as [x|]; [|reflexivity].
      destruct (h_task x); try reflexivity. destruct (strong x =? 1); [|reflexivity]. destruct (find_entry (h_key x) (entries c)) as [[v [h'|]]|]; reflexivity.
    - intros i r N L. split; [exact (held_count _ _ _ N L)|]. exists r. auto.
  Qed.
  Lemma over_or_not p : p = Over \/ p <> Over.
  Proof. destruct p; auto; right; discriminate. Qed.
  Lemma leaves hist es c rs i r : rinv hist es c rs -> nth_error rs i = Some r -> r_phase r <> Over ->
    rinv hist (es ++ [Drop (r_handle r)]) (fst (CacheModel.step idle c (Drop (r_handle r)))) (set_nth i (Request (r_key r) (r_value r) (r_handle r) Over) rs).
  Proof.
    intros I N L. apply (cache_event hist es c rs _ _ I); [discriminate|discriminate| |].
    - intros h. cbn [CacheModel.step on_handle snd hold]. pose proof (count_set h i r Over rs N) as C. unfold uses in C. cbn [r_handle r_phase is_live andb] in C.
      rewrite andb_false_r in C. rewrite (Nat.eqb_sym (r_handle r) h) in C. assert (LV : is_live r = true) by (unfold is_live; destruct (r_phase r); try reflexivity; contradiction). rewrite LV in C.
      destruct (h =? r_handle r); cbn [andb] in C; lia.
    - intros j r' N' L'. apply in_set_cases in N' as [[-> ->]|[D N']]; [exfalso; apply L'; reflexivity|]. split; [exact (held_count _ _ _ N' L')|]. exists r'. auto.
  Qed.
  Lemma stays hist es c rs i r p : rinv hist es c rs -> nth_error rs i = Some r -> r_phase r <> Over -> p <> Over ->
    rinv hist es c (set_nth i (Request (r_key r) (r_value r) (r_handle r) p) rs).
  Proof.
    intros [I1 I2 I3 I4] N L P. constructor; try assumption.
    - intros h. rewrite I3. pose proof (count_set h i r p rs N) as C. unfold uses in C. cbn [r_handle] in C.
      assert (LV : is_live r = true) by (unfold is_live; destruct (r_phase r); try reflexivity; contradiction).
      assert (LP : is_live (Request (r_key r) (r_value r) (r_handle r) p) = true) by (unfold is_live; cbn; destruct p; try reflexivity; contradiction). rewrite LV, LP in C. lia.
    - intros j r' N' L'. apply in_set_cases in N' as [[-> ->]|[D N']]; [exact (I4 _ _ N L)|exact (I4 _ _ N' L')].
  Qed.
  Lemma calls hist es c rs i r : rinv hist es c rs -> nth_error rs i = Some r -> r_phase r <> Over ->
    exists es', rinv hist es' (fst (CacheModel.run idle c [Clone (r_handle r); Drop (r_handle r)])) (set_nth i (Request (r_key r) (r_value r) (r_handle r) Waits) rs).
  Proof.
    intros I N L. pose (r2 := r).
    (* the clone is like one more request *)
    assert (I1 : rinv hist (es ++ [Clone (r_handle r)]) (fst (CacheModel.step idle c (Clone (r_handle r)))) (rs ++ [r])).
    { pose proof I as [J1 J2 J3 J4]. destruct (trace_snoc es (Clone (r_handle r))) as [T R]. rewrite <- J1 in T, R.
      pose proof (held_count rs i r N L) as P. constructor.
      - rewrite R. reflexivity.
      - intros k v h F. cbn [CacheModel.step on_handle fst entries] in F. exact (J2 _ _ _ F).
      - intros h. rewrite T, holders_snoc, J3. cbn [CacheModel.step on_handle snd hold]. rewrite count_app, count_one. unfold uses.
        assert (LV : is_live r = true) by (unfold is_live; destruct (r_phase r); try reflexivity; contradiction). rewrite LV, andb_true_r, (Nat.eqb_sym (r_handle r) h).
        destruct (Nat.eqb_spec h (r_handle r)) as [->|D]; cbn [length]; [destruct (count (r_handle r) rs); lia|lia].
      - intros j r' N' L'. cbn [CacheModel.step on_handle fst entries]. destruct (Nat.lt_ge_cases j (length rs)) as [B|B].
        + rewrite nth_error_app1 in N' by exact B. exact (J4 _ _ N' L').
        + rewrite nth_error_app2 in N' by exact B. destruct (j - length rs) as [|[|]]; cbn in N'; try discriminate. injection N' as <-. exact (J4 _ _ N L). }
    assert (N1 : nth_error (rs ++ [r]) (length rs) = Some r) by (rewrite nth_error_app2, Nat.sub_diag by lia; reflexivity).
    pose proof (leaves _ _ _ _ (length rs) r I1 N1 L) as I2. destruct I2 as [K1 K2 K3 K4].
    assert (I3 : rinv hist ((es ++ [Clone (r_handle r)]) ++ [Drop (r_handle r)]) (fst (CacheModel.run idle c [Clone (r_handle r); Drop (r_handle r)])) rs).
    { assert (C : fst (CacheModel.run idle c [Clone (r_handle r); Drop (r_handle r)]) = fst (CacheModel.step idle (fst (CacheModel.step idle c (Clone (r_handle r)))) (Drop (r_handle r)))).
      { cbn [CacheModel.run]. destruct (CacheModel.step idle c (Clone (r_handle r))) as [c1 o1]. cbn [fst]. destruct (CacheModel.step idle c1 (Drop (r_handle r))). reflexivity. }
      rewrite C. assert (SE : set_nth (length rs) (Request (r_key r) (r_value r) (r_handle r) Over) (rs ++ [r]) = rs ++ [Request (r_key r) (r_value r) (r_handle r) Over]).
      { clear. induction rs as [|x rs IH]; [reflexivity|]. cbn [length app set_nth]. now rewrite IH. }
      rewrite SE in *. constructor; [exact K1|exact K2| |].
      - intros h. rewrite K3, count_app, count_one. unfold uses. cbn [r_handle is_live r_phase]. rewrite andb_false_r. cbn. lia.
      - intros j r' N' L'. apply (K4 j r'); [|exact L']. rewrite nth_error_app1; [exact N'|]. apply nth_error_Some. rewrite N'. discriminate. }
    exists ((es ++ [Clone (r_handle r)]) ++ [Drop (r_handle r)]). apply (stays _ _ _ _ _ _ _ I3 N L). discriminate.
  Qed.
  Lemma arrives hist es c rs k v : rinv hist es c rs -> exists v' h, snd (CacheModel.step idle c (Insert k v)) = Got (Some (v', Some h)) /\
    (forall en, find_entry k (entries c) = Some en -> en = (v', Some h)) /\ (find_entry k (entries c) = None -> v' = v) /\
    rinv (hist ++ [Arrives k v]) (es ++ [Insert k v]) (fst (CacheModel.step idle c (Insert k v))) (rs ++ [Request k v' h Asks]).
  Proof.
    intros [I1 I2 I3 I4]. pose proof (run_inv idle es) as V. rewrite <- I1 in V. destruct (trace_snoc es (Insert k v)) as [T R]. rewrite <- I1 in T, R.
    destruct (CacheModel.step idle c (Insert k v)) as [c' o] eqn:S. cbn [fst snd] in *.
    destruct (lookup_entry idle _ c _ c' o k V S (or_intror (ex_intro _ v eq_refl))) as [L1 L2].
    assert (G : exists v' h, o = Got (Some (v', Some h)) /\ (find_entry k (entries c) = None -> v' = v)).
    { destruct (find_entry k (entries c)) as [[v' [h|]]|] eqn:F.
      - exists v', h. split; [exact (L2 _ eq_refl)|discriminate].
      - exfalso. destruct (I2 _ _ _ F) as [X _]. apply X. reflexivity.
      - cbn [CacheModel.step] in S. unfold insert in S. rewrite F in S. injection S as <- <-. eexists _, _. split; [reflexivity|]. reflexivity. }
    destruct G as (v' & h & -> & FV). exists v', h. split; [reflexivity|]. split; [intros en E; specialize (L2 _ E); congruence|]. split; [exact FV|].
    pose proof (L1 _ eq_refl) as FE. constructor.
    - rewrite R. reflexivity.
    - intros k0 v0 h0 F. destruct (entry_from idle c (Insert k v) c' _ k0 v0 h0 S ltac:(discriminate) F) as [F'|[E NH]].
      + destruct (I2 _ _ _ F') as [A B]. split; [exact A|]. apply in_app_iff. left. exact B.
      + injection E as -> ->. split; [exact NH|]. apply in_app_iff. right. left. reflexivity.
    - intros h0. rewrite T, holders_snoc, I3, count_app, count_one. cbn [hold]. unfold uses. cbn [r_handle is_live r_phase]. rewrite andb_true_r, (Nat.eqb_sym h h0).
      destruct (h0 =? h); cbn [length]; lia.
    - intros j r N L. destruct (Nat.lt_ge_cases j (length rs)) as [B|B].
      + rewrite nth_error_app1 in N by exact B. apply (entry_step idle _ c _ c' _ _ _ V S (I4 _ _ N L)); [discriminate|]. intros h1 E. cbn in E. injection E as <-. rewrite I3. exact (held_count _ _ _ N L).
      + rewrite nth_error_app2 in N by exact B. destruct (j - length rs) as [|[|]]; cbn in N; try discriminate. injection N as <-. cbn [r_key r_value r_handle]. exact FE.
  Qed.
  Lemma rinv_step hist es s e s' : rinv hist es (cache s) (requests s) -> step idle s e = Some s' -> exists es', rinv (hist ++ [e]) es' (cache s') (requests s').
  Proof.
    intros I S. pose proof (more_history _ e _ _ _ I) as I'. destruct e as [k v|i|i|i|i|i|d|h|h|h]; cbn [step] in S.
    - destruct (arrives hist es _ _ k v I) as (v' & h & O & _ & _ & J). destruct (CacheModel.step idle (cache s) (Insert k v)) as [c o]. cbn [snd fst] in *. subst o. injection S as <-. eexists. exact J.
    - destruct (nth_error (requests s) i) as [r|] eqn:N; [|discriminate]. destruct (r_phase r) eqn:P; try discriminate. injection S as <-. cbn [cache requests goes_on].
      apply (calls _ es _ _ _ r I' N). rewrite P. discriminate.
    - destruct (nth_error (requests s) i) as [r|] eqn:N; [|discriminate]. destruct (r_phase r) eqn:P; try discriminate. injection S as <-. cbn [cache requests goes_on CacheModel.run fst].
      exists es. apply (stays _ _ _ _ _ _ _ I' N); [rewrite P|]; discriminate.
    - destruct (nth_error (requests s) i) as [r|] eqn:N; [|discriminate].
      assert (LV : r_phase r <> Over) by (destruct (r_phase r); discriminate).
      assert (X : s' = goes_on idle s i r Over [Drop (r_handle r)]) by (destruct (r_phase r); congruence). subst s'. exists (es ++ [Drop (r_handle r)]). exact (leaves _ _ _ _ _ _ I' N LV).
    - destruct (nth_error (requests s) i) as [r|] eqn:N; [|discriminate].
      assert (LV : r_phase r <> Over) by (destruct (r_phase r); discriminate).
      assert (X : s' = goes_on idle s i r Over [Drop (r_handle r)]) by (destruct (r_phase r); congruence). subst s'. exists (es ++ [Drop (r_handle r)]). exact (leaves _ _ _ _ _ _ I' N LV).
    - destruct (nth_error (requests s) i) as [r|] eqn:N; [|discriminate].
      assert (LV : r_phase r <> Over) by (destruct (r_phase r); discriminate).
      assert (X : s' = goes_on idle s i r Over [Drop (r_handle r)]) by (destruct (r_phase r); congruence). subst s'. exists (es ++ [Drop (r_handle r)]). exact (leaves _ _ _ _ _ _ I' N LV).
    - injection S as <-. eexists. exact (quiet _ _ _ _ (Tick d) I' Logic.I).
    - injection S as <-. eexists. exact (quiet _ _ _ _ (Release h) I' Logic.I).
    - injection S as <-. eexists. exact (quiet _ _ _ _ (Poll h) I' Logic.I).
    - injection S as <-. eexists. exact (quiet _ _ _ _ (Lock h) I' Logic.I).
  Qed.
  Lemma rinv_run hist s : run idle hist s -> exists es, rinv hist es (cache s) (requests s).
  Proof.
    induction 1 as [|h s e s' H [es IH] S]; [|exact (rinv_step _ _ _ _ _ IH S)].
    exists []. constructor; cbn; [reflexivity|discriminate|reflexivity|intros [|]; discriminate].
  Qed.

  Theorem one hist s i j k v w : run idle hist s -> served_by s i k v -> served_by s j k w -> v = w.
  Proof.
    intros H (r & N & K & V & P) (r' & N' & K' & V' & P'). destruct (rinv_run _ _ H) as [es [_ _ _ I4]]. pose proof (I4 _ _ N P) as A. pose proof (I4 _ _ N' P') as B. rewrite K in A. rewrite K', A in B. congruence.
  Qed.
  Theorem own hist s i k v : run idle hist s -> served_by s i k v -> In (Arrives k v) hist.
  Proof.
    intros H (r & N & <- & <- & P). destruct (rinv_run _ _ H) as [es [_ I2 _ I4]]. exact (proj2 (I2 _ _ _ (I4 _ _ N P))).
  Qed.
  Theorem always hist s k v : run idle hist s -> exists s', step idle s (Arrives k v) = Some s' /\
    (exists w, given s' k w /\ forall i u, served_by s i k u -> u = w).
  Proof.
    intros H. destruct (rinv_run _ _ H) as [es I]. destruct (arrives _ _ _ _ k v I) as (v' & h & O & EX & _ & J). cbn [step].
    destruct (CacheModel.step idle (cache s) (Insert k v)) as [c o]. cbn [fst snd] in *. subst o. eexists. split; [reflexivity|]. exists v'. split.
    - exists (Request k v' h Asks). cbn [requests]. rewrite app_length. cbn [length]. split; [|split; [reflexivity|split; [reflexivity|discriminate]]].
      replace (pred (length (requests s) + 1)) with (length (requests s)) by lia. rewrite nth_error_app2, Nat.sub_diag by lia. reflexivity.
    - intros i u (r & N & K & <- & P). destruct I as [_ _ _ I4]. pose proof (I4 _ _ N P) as A. rewrite K in A. specialize (EX _ A). congruence.
  Qed.
  Lemma served_set s i r p j k v : nth_error (requests s) i = Some r -> (p = Over -> i <> j) -> served_by s j k v ->
    forall c, served_by (State c (set_nth i (Request (r_key r) (r_value r) (r_handle r) p) (requests s))) j k v.
  Proof.
    intros N D (r' & N' & K & V & P) c. destruct (set_split i (Request (r_key r) (r_value r) (r_handle r) p) r _ N) as (a & b & E & L & E'). unfold served_by. cbn [requests]. rewrite E'. rewrite E in N'.
    destruct (Nat.eq_dec i j) as [<-|NE].
    - rewrite nth_error_app2, L, Nat.sub_diag in N' by lia. cbn in N'. injection N' as <-. eexists. rewrite nth_error_app2, L, Nat.sub_diag by lia. cbn. split; [reflexivity|]. cbn. split; [exact K|]. split; [exact V|]. intros ->. exact (D eq_refl eq_refl).
    - exists r'. split; [|auto]. destruct (Nat.lt_ge_cases j i) as [B|B].
      + rewrite nth_error_app1 in N' |- * by lia. exact N'.
      + rewrite nth_error_app2 in N' |- * by lia. rewrite L in *. destruct (j - i) eqn:X; [lia|]. exact N'.
  Qed.
  Theorem through s e s' i k v : step idle s e = Some s' -> served_by s i k v -> served_by s' i k v \/ e = Fails i \/ e = Ends i \/ e = Cancels i.
  Proof.
    intros S SB. pose proof SB as (r0 & N0 & K0 & V0 & P0). destruct e as [k' v'|j|j|j|j|j|d|h|h|h]; cbn [step] in S.
    - left. destruct (CacheModel.step idle (cache s) (Insert k' v')) as [c [|[[w [h|]]|]| |]]; try discriminate S. injection S as <-. exists r0. cbn [requests]. split; [|auto].
      rewrite nth_error_app1; [exact N0|]. apply nth_error_Some. rewrite N0. discriminate.
    - left. destruct (nth_error (requests s) j) as [r|] eqn:N; [|discriminate]. destruct (r_phase r); try discriminate. injection S as <-. apply served_set; [exact N|discriminate|exact SB].
    - left. destruct (nth_error (requests s) j) as [r|] eqn:N; [|discriminate]. destruct (r_phase r); try discriminate. injection S as <-. apply served_set; [exact N|discriminate|exact SB].
    - destruct (Nat.eq_dec j i) as [->|D]; [right; auto|left]. destruct (nth_error (requests s) j) as [r|] eqn:N; [|discriminate].
      assert (X : s' = goes_on idle s j r Over [Drop (r_handle r)]) by (destruct (r_phase r); congruence). subst s'. apply served_set; [exact N|intros _; exact D|exact SB].
    - destruct (Nat.eq_dec j i) as [->|D]; [right; auto|left]. destruct (nth_error (requests s) j) as [r|] eqn:N; [|discriminate].
      assert (X : s' = goes_on idle s j r Over [Drop (r_handle r)]) by (destruct (r_phase r); congruence). subst s'. apply served_set; [exact N|intros _; exact D|exact SB].
    - destruct (Nat.eq_dec j i) as [->|D]; [right; auto|left]. destruct (nth_error (requests s) j) as [r|] eqn:N; [|discriminate].
      assert (X : s' = goes_on idle s j r Over [Drop (r_handle r)]) by (destruct (r_phase r); congruence). subst s'. apply served_set; [exact N|intros _; exact D|exact SB].
    - injection S as <-. left. exact SB.
    - injection S as <-. left. exact SB.
    - injection S as <-. left. exact SB.
    - injection S as <-. left. exact SB.
  Qed.
  Lemma run_steps s es s' : steps idle s es s' -> forall hist, run idle hist s -> run idle (hist ++ es) s'.
  Proof.
    induction 1 as [s|s e s1 l s2 E ST IH]; intros hist R; [now rewrite app_nil_r|]. change (e :: l) with ([e] ++ l). rewrite app_assoc. apply IH. exact (run_step _ _ _ _ _ R E).
  Qed.
  (** Unused services go away *)
  Theorem freed hist s k v : run idle hist s -> (forall i w, ~ served_by s i k w) -> settled s ->
    exists evictions s' s'', Forall (fun e => match e with Polls _ | Passes _ | Locks _ => True | _ => False end) evictions /\
      steps idle s evictions s' /\ step idle s' (Arrives k v) = Some s'' /\ given s'' k v.
  Proof.
    intros H NS ST. destruct (rinv_run _ _ H) as [es I].
    assert (DONE : find_entry k (entries (cache s)) = None -> exists s'', step idle s (Arrives k v) = Some s'' /\ given s'' k v).
    { intros F. destruct (arrives _ _ _ _ k v I) as (v' & h & O & _ & EV & J). specialize (EV F). subst v'. cbn [step].
      destruct (CacheModel.step idle (cache s) (Insert k v)) as [c o]. cbn [snd] in O. subst o. eexists. split; [reflexivity|].
      exists (Request k v h Asks). cbn [requests]. rewrite app_length. cbn [length]. split; [|split; [reflexivity|split; [reflexivity|discriminate]]].
      replace (pred (length (requests s) + 1)) with (length (requests s)) by lia. rewrite nth_error_app2, Nat.sub_diag by lia. reflexivity. }
    destruct (find_entry k (entries (cache s))) as [[u [h|]]|] eqn:F.
    2:{ exfalso. destruct I as [_ I2 _ _]. exact (proj1 (I2 _ _ _ F) eq_refl). }
    2:{ destruct (DONE eq_refl) as (s'' & S & G). exists [], s, s''. split; [constructor|]. split; [constructor|]. auto. }
    clear DONE. pose (s4 := State (fst (CacheModel.step idle (fst (CacheModel.step idle (fst (CacheModel.step idle (fst (CacheModel.step idle (cache s) (Poll h))) (Tick idle))) (Poll h))) (Lock h))) (requests s)).
    assert (ST4 : steps idle s [Polls h; Passes idle; Polls h; Locks h] s4) by (repeat (eapply steps_cons; [reflexivity|]); apply steps_nil).
    assert (R4 : run idle (hist ++ [Polls h; Passes idle; Polls h; Locks h]) s4).
    { exact (run_steps _ _ _ ST4 _ H). }
    assert (F4 : find_entry k (entries (cache s4)) = None).
    { pose proof I as [I1 I2 I3 I4]. pose proof (run_inv idle es) as [V1 V2]. rewrite <- I1 in V1, V2. destruct (i_entry _ _ V2 _ _ _ F) as (x & Hx & Kx & Lx).
      destruct (i_held _ _ _ _ V1 h x Hx) as [HX DX]. assert (ZC : count h (requests s) = 0).
      { destruct (count h (requests s)) eqn:C; [reflexivity|]. exfalso. unfold count in C. destruct (filter (uses h) (requests s)) as [|r l] eqn:FL; [discriminate|].
        assert (IN : In r (filter (uses h) (requests s))) by (rewrite FL; left; reflexivity). apply filter_In in IN as [IN U]. apply In_nth_error in IN as [i N].
        unfold uses in U. apply andb_true_iff in U as [U1 U2]. apply Nat.eqb_eq in U1. assert (LV : r_phase r <> Over) by (unfold is_live in U2; destruct (r_phase r); discriminate).
        pose proof (I4 _ _ N LV) as E. destruct (i_entry _ _ V2 _ _ _ E) as (x' & Hx' & Kx' & _). rewrite U1, Hx in Hx'. injection Hx' as <-.
        apply (NS i (r_value r)). exists r. split; [exact N|]. split; [congruence|]. auto. }
      assert (Z1 : holders h (trace idle es) = 0) by (rewrite I3; exact ZC).
      assert (Z2 : dropping h (trace idle es) = 0) by (rewrite <- DX; exact (proj1 (Forall_forall _ _) ST x (nth_error_In _ _ Hx))).
      destruct (find_entry k (entries (cache s4))) as [en|] eqn:F4; [|reflexivity]. exfalso.
      (* the entry is the same, and the lookup would give it *)
      assert (SAME : en = (u, Some h)).
      { destruct en as [u' h']. assert (G : forall c e c' o, CacheModel.step idle c e = (c', o) -> match e with Tick _ | Poll _ | Lock _ => True | _ => False end -> find_entry k (entries c') = Some (u', h') -> find_entry k (entries c) = Some (u', h')).
        { intros c e c' o S Q E. destruct (entry_from idle c e c' o k u' h' S ltac:(intros ? ? ->; destruct Q) E) as [E'|[-> _]]; [exact E'|destruct Q]. }
        unfold s4 in F4. cbn [cache] in F4.
        destruct (CacheModel.step idle (cache s) (Poll h)) as [c1 o1] eqn:S1. cbn [fst] in F4. destruct (CacheModel.step idle c1 (Tick idle)) as [c2 o2] eqn:S2. cbn [fst] in F4.
        destruct (CacheModel.step idle c2 (Poll h)) as [c3 o3] eqn:S3. cbn [fst] in F4. destruct (CacheModel.step idle c3 (Lock h)) as [c4 o4] eqn:S4. cbn [fst] in F4.
        pose proof (G _ _ _ _ S1 Logic.I (G _ _ _ _ S2 Logic.I (G _ _ _ _ S3 Logic.I (G _ _ _ _ S4 Logic.I F4)))) as E. rewrite F in E. congruence. }
      subst en. pose proof (run_inv idle (es ++ [Poll h; Tick idle; Poll h; Lock h])) as V4.
      assert (C4 : fst (CacheModel.run idle init (es ++ [Poll h; Tick idle; Poll h; Lock h])) = cache s4).
      { change [Poll h; Tick idle; Poll h; Lock h] with ([Poll h] ++ [Tick idle] ++ [Poll h] ++ [Lock h]). rewrite !app_assoc. rewrite !(proj2 (trace_snoc _ _)). rewrite <- I1. reflexivity. }
      rewrite C4 in V4. destruct (CacheModel.step idle (cache s4) (Get k)) as [c5 o5] eqn:S5. destruct (lookup_entry idle _ _ _ _ _ k V4 S5 (or_introl eq_refl)) as [_ L2]. specialize (L2 _ F4).
      apply (no_leak idle es h k u o5 Z1 Z2); [|exact L2].
      replace (es ++ [Poll h; Tick idle; Poll h; Lock h; Get k]) with ((es ++ [Poll h; Tick idle; Poll h; Lock h]) ++ [Get k]) by (rewrite <- app_assoc; reflexivity).
      rewrite (proj1 (trace_snoc _ _)), C4, S5. cbn [snd].
      assert (LT : length (trace idle (es ++ [Poll h; Tick idle; Poll h; Lock h])) = length es + 4).
      { unfold trace. rewrite <- (map_length fst), run_events, app_length. reflexivity. }
      rewrite skipn_app, LT, Nat.sub_diag, skipn_all2 by lia. left. reflexivity. }
    destruct (rinv_run _ _ R4) as [es4 J]. destruct (arrives _ _ _ _ k v J) as (v' & h' & O & _ & EV & _). specialize (EV F4). subst v'.
    destruct (CacheModel.step idle (cache s4) (Insert k v)) as [c o] eqn:S5. cbn [snd] in O. subst o.
    exists [Polls h; Passes idle; Polls h; Locks h], s4, (State c (requests s4 ++ [Request k v h' Asks])). split; [repeat constructor|]. split; [exact ST4|]. split; [cbn [step]; rewrite S5; reflexivity|].
    exists (Request k v h' Asks). cbn [requests]. rewrite app_length. cbn [length]. split; [|split; [reflexivity|split; [reflexivity|discriminate]]].
    replace (pred (length (requests s4) + 1)) with (length (requests s4)) by lia. rewrite nth_error_app2, Nat.sub_diag by lia. reflexivity.
  Qed.
End Idle.
