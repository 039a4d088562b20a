(** Proofs about the life of the process: C109, C110 *)
From Coq Require Import List Arith NArith Bool Lia.
From Verif Require Import LifeModel LifeSpec.
Import ListNotations.
Open Scope N_scope.

Section Life.
Variable g : config.
Notation step := (step g).
Notation run := (run g).

Lemma run_app es es' : forall s, run s (es ++ es') = match run s es with Some m => run m es' | None => None end.
Proof. induction es as [|e es IH]; intros s; cbn; [reflexivity|]. destruct (step s e); [apply IH|reflexivity]. Qed.
Lemma run_snoc es e s s' : run s (es ++ [e]) = Some s' -> exists m, run s es = Some m /\ step m e = Some s'.
Proof.
  rewrite run_app. destruct (run s es) as [m|]; [|discriminate]. cbn. destruct (step m e) eqn:E; [|discriminate].
  intros H. injection H as <-. eauto.
Qed.
Lemma elapsed_app a b : elapsed (a ++ b) = elapsed a + elapsed b.
Proof. induction a as [|e a IH]; [reflexivity|]. destruct e; cbn [app elapsed]; rewrite ?IH; lia. Qed.
Lemma listener_eqb_eq a b : listener_eqb a b = true <-> a = b.
Proof. destruct a, b; cbn; split; congruence. Qed.
Lemma existsb_listener l ls : existsb (listener_eqb l) ls = true <-> In l ls.
Proof.
  rewrite existsb_exists. split.
  - intros (m & I & E). apply listener_eqb_eq in E as ->. exact I.
  - intros I. exists l. split; [exact I|]. apply listener_eqb_eq. reflexivity.
Qed.
Lemma find_conn_in id cs c : find_conn id cs = Some c -> In c cs /\ c_id c = id.
Proof. intros H. apply find_some in H as [I E]. apply Nat.eqb_eq in E. auto. Qed.
Lemma find_conn_none id cs : find_conn id cs = None -> ~ In id (map c_id cs).
Proof.
  intros H I. apply in_map_iff in I as (c & E & I). apply (find_none _ _ H) in I. rewrite E, Nat.eqb_refl in I. discriminate.
Qed.
Lemma find_conn_some id cs : In id (map c_id cs) -> exists c, find_conn id cs = Some c.
Proof. intros I. destruct (find_conn id cs) as [c|] eqn:F; [eauto|]. destruct (find_conn_none _ _ F I). Qed.
Lemma put_ids c cs : map c_id (put_conn c cs) = map c_id cs.
Proof.
  unfold put_conn. rewrite map_map. apply map_ext_in. intros d _. destruct (Nat.eqb (c_id d) (c_id c)) eqn:E; [|reflexivity].
  apply Nat.eqb_eq in E. auto.
Qed.
Lemma remove_ids id cs i : In i (map c_id (remove_conn id cs)) <-> In i (map c_id cs) /\ i <> id.
Proof.
  unfold remove_conn. rewrite !in_map_iff. split.
  - intros (c & <- & I). apply filter_In in I as [I E]. apply negb_true_iff, Nat.eqb_neq in E. eauto.
  - intros [(c & <- & I) N]. exists c. split; [reflexivity|]. apply filter_In. split; [exact I|].
    apply negb_true_iff, Nat.eqb_neq. exact N.
Qed.
Lemma nodup_map_filter {A B} (f : A -> B) p l : NoDup (map f l) -> NoDup (map f (filter p l)).
Proof.
  induction l as [|x l IH]; [auto|]. cbn. intros D. inversion D; subst. destruct (p x); [|auto]. cbn. constructor; [|auto].
  intros I. apply H1. apply in_map_iff in I as (y & E & I). apply filter_In in I as [I _]. apply in_map_iff. eauto.
Qed.
Lemma nodup_same cs c d : NoDup (map c_id cs) -> In c cs -> In d cs -> c_id c = c_id d -> c = d.
Proof.
  induction cs as [|x cs IH]; [intros _ []|]. cbn. intros D. inversion D; subst. intros [->|I] [->|J] E; auto.
  - destruct H1. rewrite E. apply in_map. exact J.
  - destruct H1. rewrite <- E. apply in_map. exact I.
Qed.
Lemma put_in c cs d : In d (put_conn c cs) -> d = c /\ In (c_id c) (map c_id cs) \/ In d cs /\ c_id d <> c_id c.
Proof.
  unfold put_conn. intros I. apply in_map_iff in I as (x & E & I). destruct (Nat.eqb (c_id x) (c_id c)) eqn:N.
  - left. split; [auto|]. apply Nat.eqb_eq in N. rewrite <- N. apply in_map. exact I.
  - right. subst d. apply Nat.eqb_neq in N. auto.
Qed.


Ltac inv_step H :=
  unfold LifeModel.step in H; cbn [s_exit] in H;
  repeat match type of H with
         | match ?x with _ => _ end = Some _ => let E := fresh "E" in destruct x eqn:E; try discriminate H
         | (if ?x then _ else _) = Some _ => let E := fresh "E" in destruct x eqn:E; try discriminate H
         end;
  injection H as <-.
Ltac bools := repeat match goal with
  | H : _ && _ = true |- _ => apply andb_true_iff in H as [? ?]
  | H : negb _ = true |- _ => apply negb_true_iff in H
  | H : existsb (listener_eqb _) _ = true |- _ => apply existsb_listener in H
  end.
Ltac ins := repeat match goal with
  | H : In _ (_ ++ [_]) |- _ => apply in_app_or in H; destruct H as [H|[H|[]]]; [|try discriminate H]
  end.

(** What every history leaves: the identity and the listeners, *)
Record inv (es : list event) (s : state) : Prop := {
  i_certified : s_certified s = true <-> In Certified es;
  i_lost : s_lost s = true -> g_identity g = Spire /\ s_certified s = false;
  i_accepting : NoDup (s_accepting s);
  i_proxy : forall l, In l (s_accepting s) -> l = Outbound \/ l = Inbound -> s_waiting s = false /\ s_certified s = true;
  i_served : s_waiting s = false -> s_certified s = true \/ s_lost s = true;
  i_latch : s_latched s = false -> s_certified s = true \/ s_lost s = true;
  i_stopped : forall l, In (Stopped l) es -> ~ In l (s_accepting s) /\ (l = Outbound \/ l = Inbound -> s_waiting s = false);
  i_admin : In Admin (s_accepting s) \/ In (Stopped Admin) es;
}.
Lemma inv_init : inv [] (init g).
Proof.
  constructor; cbn.
  - split; [discriminate|intros []].
  - discriminate.
  - destruct (g_tap g); repeat constructor; cbn; try tauto. intros [H|[]]; discriminate.
  - intros l I [->| ->]; destruct (g_tap g); cbn in I; repeat destruct I as [I|I]; try discriminate; tauto.
  - discriminate.
  - discriminate.
  - intros l [].
  - auto.
Qed.
Lemma inv_step es e s s' : inv es s -> step s e = Some s' -> inv (es ++ [e]) s'.
Proof.
  intros [I1 I2 I3 I4 I5 I6 I7 I8] H. destruct s as [ce lo wa la ac co ask now ex]. cbn in *.
  assert (S : forall X, In X es -> In X (es ++ [e])) by (intros X; rewrite in_app_iff; auto).
  destruct e; inv_step H; bools; constructor; cbn [s_certified s_lost s_waiting s_latched s_accepting]; auto;
    try (rewrite in_app_iff; cbn [In]; rewrite I1; split; [auto|intros [?|[?|[]]]; [auto|discriminate]]; fail);
    try (intros l Il; ins; auto; fail);
    try (destruct I8; auto; fail).
  all: try (rewrite in_app_iff; cbn [In]; rewrite ?I1; tauto).
  all: try (subst; intuition congruence).
  - intros l Il Kl. destruct (I4 l Il Kl). auto.
  - assert (N : forall l, In l ac -> l = Outbound \/ l = Inbound -> False).
    { intros l Il Kl. destruct (I4 l Il Kl). congruence. }
    constructor; [intros [X|X]; [discriminate|]; eapply N; [exact X|auto]|].
    constructor; [intros X; eapply N; [exact X|auto]|exact I3].
  - intros l Il. ins. destruct (I7 l Il) as [N W]. split; [|auto]. intros [<-|[<-|X]]; [| |exact (N X)];
      assert (wa = false) by auto; congruence.
  - intros l Il Kl. destruct (I4 l Il Kl). auto.
  - intros l Il. ins. destruct (I7 l Il). auto.
  - intros m Il. ins. auto.
  - apply NoDup_filter. exact I3.
  - intros m Il Kl. apply filter_In in Il as [Il _]. exact (I4 m Il Kl).
  - intros m Il. ins.
    + destruct (I7 m Il) as [N W]. split; [|exact W]. intros X. apply filter_In in X as [X _]. auto.
    + injection Il as ->. split; [|intros Kl; apply (I4 m); auto]. intros X. apply filter_In in X as [_ X].
      rewrite (proj2 (listener_eqb_eq m m) eq_refl) in X. discriminate.
  - destruct I8 as [X|X]; [|auto]. destruct (listener_eqb l Admin) eqn:L.
    + right. apply listener_eqb_eq in L as ->. apply in_or_app. right. left. reflexivity.
    + left. apply filter_In. rewrite L. auto.
Qed.
Lemma inv_run es s : run (init g) es = Some s -> inv es s.
Proof.
  revert s. induction es as [|e es IH] using rev_ind; intros s H.
  - injection H as <-. apply inv_init.
  - apply run_snoc in H as (m & R & E). eapply inv_step; eauto.
Qed.

(** the connections, *)
Record cinv (es : list event) (s : state) : Prop := {
  i_ids : NoDup (map c_id (s_conns s));
  i_tap : forall c, In c (s_conns s) -> c_kind c = K_tap -> c_on c = Tap;
  i_open : forall id l, open_after es id l -> exists c, In c (s_conns s) /\ c_id c = id /\ c_on c = l;
}.
Lemma open_snoc es e id l : open_after (es ++ [e]) id l ->
  (exists k, e = Accepted l id k) \/ open_after es id l /\ e <> Closed id.
Proof.
  intros (a & k & b & E & N). destruct b as [|x b] using rev_ind.
  - apply app_inj_tail in E as [_ ->]. eauto.
  - clear IHb. rewrite app_comm_cons, app_assoc in E. apply app_inj_tail in E as [-> ->]. right. split.
    + exists a, k, b. split; [reflexivity|]. intros I. apply N. apply in_or_app. auto.
    + intros ->. apply N. apply in_or_app. right. left. reflexivity.
Qed.
Lemma put_keeps (cs : list conn) id l k p k' p' : NoDup (map c_id cs) ->
  (forall c, In c cs -> c_kind c = K_tap -> c_on c = Tap) -> find_conn id cs = Some (Conn id l k p) -> k' <> K_tap ->
  NoDup (map c_id (put_conn (Conn id l k' p') cs)) /\
  (forall c, In c (put_conn (Conn id l k' p') cs) -> c_kind c = K_tap -> c_on c = Tap) /\
  (forall i m, (exists c, In c cs /\ c_id c = i /\ c_on c = m) ->
     exists c, In c (put_conn (Conn id l k' p') cs) /\ c_id c = i /\ c_on c = m).
Proof.
  intros D T F K. rewrite put_ids. split; [exact D|]. split.
  - intros c I E. apply put_in in I as [[-> _]|[I _]]; [|auto]. cbn in E. congruence.
  - intros i m (c & I & <- & <-). unfold put_conn. destruct (Nat.eqb (c_id c) id) eqn:N.
    + exists (Conn id l k' p'). apply Nat.eqb_eq in N. cbn [c_id c_on]. apply find_conn_in in F as [J _].
      assert (c = Conn id l k p) by (eapply nodup_same; eauto). subst c. split; [|auto].
      apply in_map_iff. exists (Conn id l k p). cbn. rewrite Nat.eqb_refl. auto.
    + exists c. split; [|auto]. apply in_map_iff. exists c. cbn. rewrite N. auto.
Qed.
Lemma put_cinv es e s s' id i l k p k' p' : cinv es s -> (forall l id k, e <> Accepted l id k) ->
  find_conn id (s_conns s) = Some (Conn i l k p) -> k' <> K_tap -> s_conns s' = put_conn (Conn id l k' p') (s_conns s) ->
  cinv (es ++ [e]) s'.
Proof.
  intros [C1 C2 C3] N F K E. pose proof (find_conn_in _ _ _ F) as [_ X]. cbn in X. subst i.
  destruct (put_keeps (s_conns s) id l k p k' p' C1 C2 F K) as (P1 & P2 & P3).
  constructor; rewrite E; auto. intros j m O. apply P3. apply open_snoc in O as [[k'' O]|[O _]]; [destruct (N _ _ _ O)|auto].
Qed.
Lemma cinv_step es e s s' : cinv es s -> step s e = Some s' -> cinv (es ++ [e]) s'.
Proof.
  intros C H. pose proof C as [C1 C2 C3]. destruct s as [ce lo wa la ac co ask now ex]. cbn in *.
  assert (O : s_conns s' = co -> (forall l id k, e <> Accepted l id k) -> cinv (es ++ [e]) s').
  { intros Ec N. constructor; rewrite Ec; auto. intros id l X. apply open_snoc in X as [[k X]|[X _]]; [destruct (N _ _ _ X)|auto]. }
  destruct e; inv_step H; bools; try (apply O; [reflexivity|congruence]); clear O.
  - (* accepted *)
    destruct (find_conn id co) as [c|] eqn:F; [discriminate|]. apply find_conn_none in F as N.
    constructor; cbn.
    + constructor; [exact N|exact C1].
    + intros c [<-|I] K; [|auto]. cbn in *. destruct l, k; try discriminate; reflexivity.
    + intros i m X. apply open_snoc in X as [[k' X]|[X _]].
      * injection X as <- <- _. exists (Conn id l k Serving). auto.
      * destruct (C3 i m X) as (c & I & Ei & Em). exists c. auto.
  - eapply put_cinv; [exact C|congruence|exact E0| |reflexivity]. intros ->. discriminate.
  - eapply put_cinv; [exact C|congruence|exact E0| |reflexivity]. intros ->. discriminate.
  - eapply put_cinv; [exact C|congruence|exact E0| |reflexivity]. discriminate.
  - constructor; cbn.
    + apply nodup_map_filter. exact C1.
    + intros d I. apply filter_In in I as [I _]. auto.
    + intros i m X. apply open_snoc in X as [[k' X]|[X NC]]; [discriminate|].
      destruct (C3 i m X) as (d & I & Ei & Em). exists d. split; [|auto]. apply filter_In. split; [exact I|].
      apply negb_true_iff, Nat.eqb_neq. congruence.
Qed.
Lemma cinv_run es s : run (init g) es = Some s -> cinv es s.
Proof.
  revert s. induction es as [|e es IH] using rev_ind; intros s H.
  - injection H as <-. constructor; cbn; [constructor|intros c []|]. intros id l (a & k & b & X & _). destruct a; discriminate.
  - apply run_snoc in H as (m & R & E). eapply cinv_step; eauto.
Qed.

(** and the time. *)
Record tinv (es : list event) (s : state) : Prop := {
  i_now : s_now s = elapsed es;
  i_asked : forall a, s_asked s = Some a ->
    exists b c, es = b ++ Asked :: c /\ a = elapsed b /\ elapsed c <= g_grace g /\ ~ In Asked b /\ ~ In Asked c;
  i_unasked : s_asked s = None -> ~ In Asked es /\ s_exit s = None;
  i_forced : forall a, s_exit s = Some false -> s_asked s = Some a -> s_now s = a + g_grace g;
  i_graceful : s_exit s = Some true -> holders s = 0%nat
}.
Lemma tinv_run es s : run (init g) es = Some s -> tinv es s.
Proof.
  revert s. induction es as [|e es IH] using rev_ind; intros s' H.
  { injection H as <-. constructor; cbn; try discriminate; auto. }
  apply run_snoc in H as (s & R & H). destruct (IH s R) as [T1 T2 T3 T4 T5].
  destruct s as [ce lo wa la ac co ask now ex]. cbn in *.
  assert (O : s_now s' = elapsed (es ++ [e]) -> s_asked s' = ask -> s_exit s' = None -> e <> Asked ->
    (forall a, ask = Some a -> s_now s' <= a + g_grace g) -> tinv (es ++ [e]) s').
  { intros On Oa Ox NA L. constructor.
    - exact On.
    - intros a A. rewrite Oa in A. destruct (T2 a A) as (b & c & -> & -> & Lc & N1 & N2). exists b, (c ++ [e]).
      split; [rewrite <- app_assoc; reflexivity|]. split; [reflexivity|]. split.
      + specialize (L _ A). rewrite On, <- app_assoc, elapsed_app in L. cbn [app elapsed] in L. lia.
      + split; [exact N1|]. intros I. apply in_app_or in I as [I|[I|[]]]; [auto|congruence].
    - intros A. rewrite Oa in A. split; [|exact Ox]. intros I. apply in_app_or in I as [I|[I|[]]]; [|congruence].
      apply (proj1 (T3 A)). exact I.
    - intros a X. congruence.
    - intros X. congruence. }
  assert (L : forall a, ask = Some a -> now <= a + g_grace g).
  { intros a A. destruct (T2 a A) as (b & c & Ee & -> & Lc & _). rewrite T1, Ee, elapsed_app. cbn [elapsed]. lia. }
  assert (N0 : forall f, elapsed [f] = 0 -> now = elapsed (es ++ [f])) by (intros f F; rewrite elapsed_app, F, T1; lia).
  destruct e; inv_step H; bools; try (apply O; cbn; auto; discriminate).
  - destruct (T3 eq_refl) as [NA _]. constructor; cbn.
    + apply N0. reflexivity.
    + intros a A. injection A as <-. exists es, []. cbn [elapsed]. rewrite T1. repeat split; auto. lia.
    + discriminate.
    + discriminate.
    + discriminate.
  - apply O; cbn; auto; [rewrite elapsed_app, T1; cbn [elapsed]; lia|discriminate|]. intros a ->. apply N.leb_le. exact E0.
  - destruct (T2 n eq_refl) as (b & c & -> & -> & Lc & N1 & N2). constructor; cbn; try discriminate.
    + apply N0. reflexivity.
    + intros a A. injection A as <-. exists b, (c ++ [Drained]). rewrite elapsed_app, <- app_assoc. cbn [elapsed app].
      repeat split; auto; [lia|]. intros I. apply in_app_or in I as [I|[I|[]]]; [auto|discriminate].
    + intros _. apply Nat.eqb_eq. exact E1.
  - destruct (T2 n eq_refl) as (b & c & -> & -> & Lc & N1 & N2). constructor; cbn; try discriminate.
    + apply N0. reflexivity.
    + intros a A. injection A as <-. exists b, (c ++ [Timed_out]). rewrite elapsed_app, <- app_assoc. cbn [elapsed app].
      repeat split; auto; [lia|]. intros I. apply in_app_or in I as [I|[I|[]]]; [auto|discriminate].
    + intros a _ A. injection A as <-. apply N.eqb_eq. exact E1.
Qed.

(** ** The start *)

Lemma run_split a e b s : run (init g) (a ++ e :: b) = Some s ->
  exists m m', run (init g) a = Some m /\ step m e = Some m' /\ run m' b = Some s.
Proof.
  rewrite run_app. destruct (run (init g) a) as [m|]; [|discriminate]. cbn. destruct (step m e) as [m'|] eqn:E; [|discriminate].
  intros H. exists m, m'. auto.
Qed.
Lemma accepted_inv s l id k s' : step s (Accepted l id k) = Some s' -> In l (s_accepting s) /\ handles l k = true.
Proof.
  intros H. destruct s as [ce lo wa la ac co ask now ex]. inv_step H. bools. auto.
Qed.
Lemma certified_first a e b s : run (init g) (a ++ e :: b) = Some s -> proxies e -> In Certified a.
Proof.
  intros H (l & id & k & -> & K). apply run_split in H as (m & m' & R & E & _). apply accepted_inv in E as [I _].
  pose proof (inv_run _ _ R) as J. apply (i_certified _ _ J). apply (i_proxy _ _ J l I K).
Qed.
Lemma ready_certified es s : run (init g) es = Some s -> g_identity g = Control_plane -> says_ready s -> In Certified es.
Proof.
  intros R G L. pose proof (inv_run _ _ R) as J. apply (i_certified _ _ J).
  destruct (i_latch _ _ J L) as [X|X]; [exact X|]. destruct (i_lost _ _ J X). congruence.
Qed.
Lemma admin_serves es s id k : run (init g) es = Some s -> ~ In (Stopped Admin) es -> s_exit s = None ->
  find_conn id (s_conns s) = None -> k = K_http1 \/ k = K_h2 -> exists s', step s (Accepted Admin id k) = Some s'.
Proof.
  intros R N X F K. destruct (i_admin _ _ (inv_run _ _ R)) as [I|I]; [|contradiction].
  destruct s as [ce lo wa la ac co ask now ex]. cbn [s_exit s_accepting s_conns] in *. subst ex. unfold LifeModel.step. cbn [s_exit].
  rewrite (proj2 (existsb_listener _ _) I), F. destruct K as [->| ->]; cbn; eauto.
Qed.
(** There is a tap exactly if one is configured; it accepts until it is stopped. *)
Lemma tap_run es s : run (init g) es = Some s ->
  (In Tap (s_accepting s) -> g_tap g = true) /\ (g_tap g = true -> ~ In (Stopped Tap) es -> In Tap (s_accepting s)).
Proof.
  revert s. induction es as [|e es IH] using rev_ind; intros s R.
  - injection R as <-. unfold init. cbn [s_accepting]. destruct (g_tap g).
    + split; [auto|]. cbn. auto.
    + split; [|discriminate]. cbn. intros [X|[]]. discriminate.
  - apply run_snoc in R as (m & R & E). destruct (IH m R) as [I J]. clear IH R.
    assert (K : ~ In (Stopped Tap) (es ++ [e]) -> ~ In (Stopped Tap) es) by (rewrite in_app_iff; tauto).
    destruct m as [ce lo wa la ac co ask now ex]. cbn [s_accepting] in *.
    destruct e; inv_step E; cbn [s_accepting]; try (split; [exact I|intros G N; exact (J G (K N))]).
    + split; [intros [X|[X|X]]; [discriminate|discriminate|exact (I X)]|]. intros G N. cbn. auto.
    + split; [intros X; apply filter_In in X as [X _]; exact (I X)|]. intros G N. apply filter_In. split; [exact (J G (K N))|].
      destruct l; try reflexivity. exfalso. apply N. apply in_app_iff. cbn. auto.
Qed.
Lemma tap_configured a id k b s : run (init g) (a ++ Accepted Tap id k :: b) = Some s -> g_tap g = true /\ k = K_tap.
Proof.
  intros H. apply run_split in H as (m & m' & R & E & _). destruct (accepted_inv _ _ _ _ _ E) as [I H].
  split; [exact (proj1 (tap_run _ _ R) I)|]. destruct k; cbn in H; congruence.
Qed.
Lemma tap_serves es s id : run (init g) es = Some s -> g_tap g = true -> ~ In (Stopped Tap) es -> s_exit s = None ->
  find_conn id (s_conns s) = None -> exists s', step s (Accepted Tap id K_tap) = Some s'.
Proof.
  intros R G N X F. assert (I := proj2 (tap_run _ _ R) G N).
  destruct s as [ce lo wa la ac co ask now ex]. cbn [s_exit s_accepting s_conns] in *. subst ex. unfold LifeModel.step. cbn [s_exit].
  rewrite (proj2 (existsb_listener _ _) I), F. cbn. eauto.
Qed.
Lemma proxy_serves es s l id k : run (init g) es = Some s -> In Started es -> ~ In (Stopped l) es -> s_exit s = None ->
  l = Outbound \/ l = Inbound -> handles l k = true -> find_conn id (s_conns s) = None ->
  exists s', step s (Accepted l id k) = Some s'.
Proof.
  intros R St N X K Hk F.
  assert (I : In l (s_accepting s)).
  { clear id k F Hk X. revert s R St N. induction es as [|e es IH] using rev_ind; intros s R St N; [destruct St|].
    apply run_snoc in R as (m & R & E).
    assert (N' : ~ In (Stopped l) es) by (intros I; apply N; apply in_or_app; auto).
    assert (NE : e <> Stopped l) by (intros ->; apply N; apply in_or_app; right; left; reflexivity).
    apply in_app_or in St as [St|[->|[]]].
    - specialize (IH m R St N'). destruct m as [ce lo wa la ac co ask now ex].
      destruct e; inv_step E; bools; cbn in *; auto. apply filter_In. split; [exact IH|].
      destruct (listener_eqb l0 l) eqn:L; [|reflexivity]. apply listener_eqb_eq in L. congruence.
    - destruct m as [ce lo wa la ac co ask now ex]. inv_step E. cbn. destruct K as [->| ->]; auto. }
  destruct s as [ce lo wa la ac co ask now ex]. cbn [s_exit s_accepting s_conns] in *. subst ex. unfold LifeModel.step. cbn [s_exit].
  rewrite (proj2 (existsb_listener _ _) I), F, Hk. cbn. eauto.
Qed.
Lemma stopped_no_more a l b s id k : run (init g) (a ++ Stopped l :: b) = Some s -> ~ In (Accepted l id k) b.
Proof.
  intros H I. apply in_split in I as (b1 & b2 & ->).
  replace (a ++ Stopped l :: b1 ++ Accepted l id k :: b2) with ((a ++ Stopped l :: b1) ++ Accepted l id k :: b2) in H
    by (rewrite <- app_assoc; reflexivity).
  apply run_split in H as (m & m' & R & E & _). apply accepted_inv in E as [J _].
  refine (proj1 (i_stopped _ _ (inv_run _ _ R) l _) J). apply in_or_app. right. left. reflexivity.
Qed.
Lemma stopped_asked a l b s : run (init g) (a ++ Stopped l :: b) = Some s -> In Asked a.
Proof.
  intros H. apply run_split in H as (m & m' & R & E & _). pose proof (tinv_run _ _ R) as T.
  destruct m as [ce lo wa la ac co ask now ex]. inv_step E. bools. destruct ask as [t|]; [|discriminate].
  destruct (i_asked _ _ T t eq_refl) as (b' & c & -> & _). apply in_or_app. right. left. reflexivity.
Qed.
(** An identity that is lost stays so. *)
Lemma lost_forever es s : forall s', run s es = Some s' -> s_lost s = true -> s_certified s = false ->
  (forall l, In l (s_accepting s) -> l <> Outbound /\ l <> Inbound) ->
  forall e, In e es -> ~ proxies e /\ e <> Certified.
Proof.
  revert s. induction es as [|e es IH]; intros s s' R L C A f; [intros []|]. cbn in R.
  destruct (step s e) as [m|] eqn:E; [|discriminate].
  assert (X : (~ proxies e /\ e <> Certified) /\ s_lost m = true /\ s_certified m = false /\
    (forall l, In l (s_accepting m) -> l <> Outbound /\ l <> Inbound)).
  { destruct s as [ce lo wa la ac co ask now ex]. cbn in L, C, A. subst.
    destruct e; inv_step E; bools; try discriminate; cbn;
      (split; [split; [intros (l' & i' & k' & X & K); try discriminate|congruence]|split; [reflexivity|split; [reflexivity|]]]); auto.
    - injection X as <- <- <-. destruct (A l) as [N1 N2]; [assumption|]. destruct K; auto.
    - intros l' I. apply filter_In in I as [I _]. auto. }
  destruct X as (X & L' & C' & A'). intros [<-|I]; [exact X|]. eapply IH; eauto.
Qed.

(** ** The end *)

Lemma exit_asked es s : run (init g) es = Some s -> s_exit s <> None -> In Asked es.
Proof.
  intros R X. pose proof (tinv_run _ _ R) as T. destruct (s_asked s) as [a|] eqn:A.
  - destruct (i_asked _ _ T a A) as (b & c & -> & _). apply in_or_app. right. left. reflexivity.
  - destruct (i_unasked _ _ T A). contradiction.
Qed.
Lemma graceful_closed es s id l : run (init g) es = Some s -> s_exit s = Some true -> open_after es id l -> l = Tap.
Proof.
  intros R X O. pose proof (cinv_run _ _ R) as C. destruct (i_open _ _ C id l O) as (c & I & _ & <-).
  apply (i_tap _ _ C c I). pose proof (i_graceful _ _ (tinv_run _ _ R) X) as H. unfold holders in H.
  assert (F : filter holds (s_conns s) = []) by (apply length_zero_iff_nil; lia).
  destruct (holds c) eqn:Hc; [|unfold holds in Hc; destruct (c_kind c); congruence].
  assert (In c (filter holds (s_conns s))) by (apply filter_In; auto). rewrite F in H0. destruct H0.
Qed.
Lemma graceful_stopped es s : run (init g) es = Some s -> s_exit s = Some true -> s_accepting s = [] /\ s_waiting s = false.
Proof.
  intros R X. pose proof (i_graceful _ _ (tinv_run _ _ R) X) as H. unfold holders in H. split.
  - apply length_zero_iff_nil. lia.
  - destruct (s_waiting s); [lia|reflexivity].
Qed.
Lemma deadline a b s : run (init g) (a ++ Asked :: b) = Some s -> elapsed b <= g_grace g.
Proof.
  intros R. pose proof (tinv_run _ _ R) as T. destruct (s_asked s) as [t|] eqn:A.
  - destruct (i_asked _ _ T t A) as (b' & c & E & _ & L & N1 & N2).
    assert (a = b' /\ b = c) as [-> ->]; [|exact L].
    { clear - E N1 N2. revert b' E N1. induction a as [|x a IH]; intros [|y b'] E N1; cbn in E.
      - injection E as ->. auto.
      - injection E as <- ->. destruct N1. left. reflexivity.
      - injection E as -> <-. destruct N2. apply in_or_app. right. left. reflexivity.
      - injection E as -> E. destruct (IH b' E) as [-> ->]; [|auto]. intros I. apply N1. right. exact I. }
  - destruct (i_unasked _ _ T A) as [N _]. destruct N. apply in_or_app. right. left. reflexivity.
Qed.
Lemma forced_iff a b s : run (init g) (a ++ Asked :: b) = Some s -> s_exit s = Some false -> elapsed b = g_grace g.
Proof.
  intros R X. pose proof (tinv_run _ _ R) as T. destruct (s_asked s) as [t|] eqn:A.
  - pose proof (i_forced _ _ T t X A) as F. rewrite (i_now _ _ T) in F.
    destruct (i_asked _ _ T t A) as (b' & c & E & -> & L & N1 & N2).
    assert (a = b' /\ b = c) as [-> ->].
    { clear - E N1 N2. revert b' E N1. induction a as [|x a IH]; intros [|y b'] E N1; cbn in E.
      - injection E as ->. auto.
      - injection E as <- ->. destruct N1. left. reflexivity.
      - injection E as -> <-. destruct N2. apply in_or_app. right. left. reflexivity.
      - injection E as -> E. destruct (IH b' E) as [-> ->]; [|auto]. intros I. apply N1. right. exact I. }
    rewrite elapsed_app in F. cbn [elapsed] in F. lia.
  - destruct (i_unasked _ _ T A) as [N _]. destruct N. apply in_or_app. right. left. reflexivity.
Qed.
Lemma uncertified_forced es s : run (init g) es = Some s -> ~ In Certified es -> ~ In Lost es -> s_exit s <> Some true.
Proof.
  intros R N NL X. destruct (graceful_stopped _ _ R X) as [_ W]. pose proof (inv_run _ _ R) as J.
  destruct (i_served _ _ J W) as [H|H]; [apply N, (i_certified _ _ J), H|].
  apply NL. clear - R H. revert s R H. induction es as [|e es IH] using rev_ind; intros s R H.
  - injection R as <-. discriminate.
  - apply run_snoc in R as (m & R & E). apply in_or_app. destruct m as [ce lo wa la ac co ask now ex] eqn:M.
    destruct e; inv_step E; bools; cbn in *; try (left; eapply IH; [exact R|assumption]). right. left. reflexivity.
Qed.

(** It can end as soon as its connections do. *)
Lemma stop_all : forall ls s, s_accepting s = ls -> NoDup ls -> s_exit s = None -> s_asked s <> None ->
  exists es s', run s es = Some s' /\ s_accepting s' = [] /\ s_exit s' = None /\ s_asked s' = s_asked s /\
    s_waiting s' = s_waiting s /\ s_conns s' = s_conns s /\ Forall winds_down es.
Proof.
  induction ls as [|l ls IH]; intros s A D X Q.
  - exists [], s. cbn. repeat split; auto.
  - destruct s as [ce lo wa la ac co ask now ex]. cbn in A, X, Q. subst. inversion D; subst.
    destruct ask as [t|]; [|congruence].
    assert (F : filter (fun m => negb (listener_eqb l m)) ls = ls).
    { clear - H1. induction ls as [|m ls IH]; [reflexivity|]. cbn.
      destruct (listener_eqb l m) eqn:E; [apply listener_eqb_eq in E as ->; destruct H1; left; reflexivity|].
      cbn. f_equal. apply IH. intros I. apply H1. right. exact I. }
    destruct (IH (State ce lo wa la ls co (Some t) now None) eq_refl H2 eq_refl ltac:(discriminate)) as (es & s' & R & P).
    exists (Stopped l :: es), s'. split.
    + cbn. rewrite (proj2 (listener_eqb_eq l l) eq_refl). cbn. rewrite F. exact R.
    + cbn in P. intuition. constructor; cbn; auto.
Qed.
Lemma close_all : forall n s, List.length (s_conns s) = n -> NoDup (map c_id (s_conns s)) -> s_exit s = None ->
  exists es s', run s es = Some s' /\ s_conns s' = [] /\ s_exit s' = None /\ s_asked s' = s_asked s /\
    s_waiting s' = s_waiting s /\ s_accepting s' = s_accepting s /\ Forall winds_down es.
Proof.
  induction n as [|n IH]; intros s L D X.
  - exists [], s. apply length_zero_iff_nil in L. cbn. repeat split; auto.
  - destruct s as [ce lo wa la ac co ask now ex]. cbn in L, D, X. subst. destruct co as [|c co]; [discriminate|].
    cbn in L, D. injection L as L. inversion D; subst.
    assert (F : remove_conn (c_id c) (c :: co) = co).
    { unfold remove_conn. cbn. rewrite Nat.eqb_refl. cbn. clear - H1. induction co as [|d co IH]; [reflexivity|]. cbn.
      destruct (Nat.eqb (c_id d) (c_id c)) eqn:E; [apply Nat.eqb_eq in E; destruct H1; left; exact E|].
      cbn. f_equal. apply IH. intros I. apply H1. right. exact I. }
    destruct (IH (State ce lo wa la ac co ask now None) eq_refl H2 eq_refl) as (es & s' & R & P).
    exists (Closed (c_id c) :: es), s'. split.
    + cbn [LifeModel.run LifeModel.step s_exit]. unfold find_conn. cbn [find]. rewrite Nat.eqb_refl. rewrite F. exact R.
    + cbn in P. intuition. constructor; cbn; auto.
Qed.
Lemma can_end es s : run (init g) es = Some s -> s_exit s = None -> In Asked es -> In Certified es ->
  exists es' s', run s es' = Some s' /\ s_exit s' = Some true /\ Forall winds_down es'.
Proof.
  intros R X Q C. pose proof (inv_run _ _ R) as J. pose proof (cinv_run _ _ R) as K. pose proof (tinv_run _ _ R) as T.
  assert (A : s_asked s <> None). { intros A. destruct (i_unasked _ _ T A). contradiction. }
  apply (i_certified _ _ J) in C.
  assert (S1 : exists es1 s1, run s es1 = Some s1 /\ s_waiting s1 = false /\ s_exit s1 = None /\ s_asked s1 <> None /\
    s_conns s1 = s_conns s /\ Forall winds_down es1 /\ NoDup (s_accepting s1)).
  { destruct (s_waiting s) eqn:W.
    - assert (R1 : exists s1, step s Started = Some s1).
      { destruct s as [ce lo wa la ac co ask now ex]. cbn in *. subst. cbn. eauto. }
      destruct R1 as [s1 R1]. exists [Started], s1. split; [cbn; rewrite R1; reflexivity|].
      assert (R2 : run (init g) (es ++ [Started]) = Some s1) by (rewrite run_app, R; cbn; rewrite R1; reflexivity).
      pose proof (i_accepting _ _ (inv_run _ _ R2)) as D.
      destruct s as [ce lo wa la ac co ask now ex]. inv_step R1. cbn in *. repeat split; auto. repeat constructor.
    - exists [], s. cbn. repeat split; auto. apply (i_accepting _ _ J). }
  destruct S1 as (es1 & s1 & R1 & W1 & X1 & A1 & K1 & F1 & D1).
  destruct (stop_all _ s1 eq_refl D1 X1 A1) as (es2 & s2 & R2 & L2 & X2 & A2 & W2 & K2 & F2).
  destruct (close_all _ s2 eq_refl) as (es3 & s3 & R3 & K3 & X3 & A3 & W3 & L3 & F3).
  { rewrite K2, K1. apply (i_ids _ _ K). }
  { exact X2. }
  assert (R4 : step s3 Drained = Some (State (s_certified s3) (s_lost s3) (s_waiting s3) (s_latched s3) (s_accepting s3)
    (s_conns s3) (s_asked s3) (s_now s3) (Some true))).
  { assert (H : holders s3 = 0%nat) by (unfold holders; rewrite W3, W2, W1, L3, L2, K3; reflexivity).
    destruct s3 as [ce lo wa la ac co ask now ex]. cbn in X3, A3. subst ex. unfold LifeModel.step. cbn [s_exit].
    destruct ask as [t|]; [|congruence]. rewrite H. reflexivity. }
  eexists (es1 ++ es2 ++ es3 ++ [Drained]), _. split.
  - rewrite run_app, R1, run_app, R2, run_app, R3. cbn [LifeModel.run]. rewrite R4. reflexivity.
  - split; [reflexivity|]. repeat (apply Forall_app; split; auto). repeat constructor.
Qed.
End Life.
