(** C21: how many requests pass *)
From Coq Require Import List Arith Bool Lia.
From Verif Require Import GateModel GateSpec GateProofs GateStateProofs GatePermitProofs.
Import ListNotations.

(** ** Cutting a run where the log is cut *)
Lemma handle_log w e : exists d, w_log (handle w e) = w_log w ++ d /\
  (d = [] \/ (exists x, d = [x]) \/ exists x, d = [Set_ x; Returned]).
Proof.
  destruct (handle_effect w e) as [Ecl Eg El|es' Eg El Hev Ho|Ecl Eg El|i g g' r Hr Gi Eg El Hp Hg|i g g' e' Hr Gi Eg El Hx].
  - exists []. rewrite app_nil_r. auto.
  - clear Eg El Ho. destruct e as [x|k| | | | |]; try discriminate; cbn [handle].
    + unfold send. destruct (w_state w); cbn.
      * exists [Set_ x; Returned]. rewrite <- app_assoc. eauto.
      * exists [Set_ x]. eauto.
      * exists [Set_ x; Returned]. rewrite <- app_assoc. eauto.
    + unfold close. destruct (mem _ _); cbn; [exists [Returned]; eauto|]. exists []. rewrite app_nil_r. auto.
  - exists []. rewrite app_nil_r. auto.
  - exists []. rewrite app_nil_r. auto.
  - exists [e']. eauto.
Qed.

Lemma cut_app {A} (a b l l' : list A) : a ++ b = l ++ l' ->
  (exists c, a = l ++ c) \/ exists c, c <> [] /\ l = a ++ c /\ b = c ++ l'.
Proof.
  revert l. induction a as [|x a IH]; intros l E; cbn in E.
  - destruct l as [|y l]; [left; now exists []|]. right. exists (y :: l). repeat apply conj; auto. discriminate.
  - destruct l as [|y l]; [left; now exists (x :: a)|]. injection E as <- E. apply IH in E as [[c ->]|(c & N & -> & ->)].
    + left. now exists c.
    + right. exists c. auto.
Qed.

Lemma cut_run es l1 l2 : w_log (run es) = l1 ++ l2 ->
  (exists es1 es2, es = es1 ++ es2 /\ w_log (run es1) = l1) \/
  (exists es1 x l, l1 = w_log (run es1) ++ [Set_ x] /\ l2 = Returned :: l).
Proof.
  revert l2. induction es as [|e es IH] using rev_ind; intros l2 E.
  - left. exists [], []. cbn in *. destruct l1; [auto|discriminate].
  - rewrite run_snoc in E. destruct (handle_log (run es) e) as (d & El & Hd). rewrite El in E.
    destruct (cut_app _ _ _ _ E) as [[c Ec]|(c & Nc & -> & Ed)].
    + destruct (IH c Ec) as [(es1 & es2 & -> & H)|(es1 & x & l & H1 & H2)].
      * left. exists es1, (es2 ++ [e]). now rewrite app_assoc.
      * right. exists es1, x. subst. rewrite Ec in E. rewrite <- !app_assoc in E. apply app_inv_head in E.
        cbn in E. injection E as <-. eauto.
    + destruct Hd as [-> | [[x ->]|[x ->]]].
      * destruct c; [congruence|discriminate].
      * destruct c as [|y [|]]; try congruence; try discriminate.
        injection Ed as <- _. left. exists (es ++ [e]), []. rewrite app_nil_r, run_snoc. auto.
      * destruct c as [|y [|y' c]]; try congruence; cbn in Ed.
        -- injection Ed as <- Ed. right. exists es, x. eauto.
        -- injection Ed as <- <- Ed. destruct c; [|discriminate]. left. exists (es ++ [e]), []. rewrite app_nil_r, run_snoc. auto.
Qed.

Lemma settled_cut es l1 l2 : w_log (run es) = l1 ++ l2 -> settled l1 ->
  exists es1 es2, es = es1 ++ es2 /\ w_log (run es1) = l1 /\ w_closing (run es1) = [].
Proof.
  intros E S. destruct (cut_run es l1 l2 E) as [(es1 & es2 & -> & H)|(es1 & x & l & -> & _)].
  - exists es1, es2. repeat apply conj; auto. pose proof (gs_count _ (in_state _ (inv_run es1))) as C.
    rewrite H in C. unfold settled in S. destruct (w_closing (run es1)); auto. cbn in C. lia.
  - exfalso. pose proof (gs_count _ (in_state _ (inv_run es1))) as C. unfold settled in S. rewrite !count_app in S. cbn in S. lia.
Qed.
Lemma set_cut es l1 x l2 : w_log (run es) = l1 ++ Set_ x :: l2 ->
  exists es1 es2, es = es1 ++ es2 /\ w_log (run es1) = l1.
Proof.
  intros E. destruct (cut_run es l1 _ E) as [H|(es1 & y & l & _ & H)]; [exact H|discriminate].
Qed.

(** ** While the setting does not change *)
Definition polled_in (l : list seen) : list nat := flat_map (fun e => match e with Polled i => [i] | _ => [] end) l.
Lemma polled_snoc l e : polled_in (l ++ [e]) = polled_in l ++ match e with Polled i => [i] | _ => [] end.
Proof. unfold polled_in. rewrite flat_map_app. cbn. now rewrite app_nil_r. Qed.
Lemma existsb_rev_app i (a b : list nat) : existsb (Nat.eqb i) (a ++ b) = existsb (Nat.eqb i) a || existsb (Nat.eqb i) b.
Proof. apply existsb_app. Qed.
Lemma fresh_snoc f polled l e : f e = None \/ (forall i, e <> Polled i) ->
  fresh f polled (l ++ [e]) = fresh f polled l +
    match f e with Some i => if existsb (Nat.eqb i) (polled ++ polled_in l) then 1 else 0 | None => 0 end.
Proof.
  intros He. revert polled. induction l as [|x l IH]; intros polled.
  - cbn [app fresh polled_in flat_map]. rewrite app_nil_r. destruct e; cbn [fresh]; try lia.
    destruct He as [->|He]; [reflexivity|]. now destruct (He i).
  - cbn [app]. destruct x; cbn [fresh polled_in flat_map app]; rewrite ?IH; try (change (flat_map _ l) with (polled_in l); lia).
    change (flat_map _ l) with (polled_in l). f_equal. destruct (f e); auto.
    replace (existsb (Nat.eqb n) ((i :: polled) ++ polled_in l)) with (existsb (Nat.eqb n) (polled ++ i :: polled_in l)); auto.
    rewrite !existsb_app. cbn. destruct (n =? i), (existsb (Nat.eqb n) polled); auto.
Qed.

Definition fits (st : state) (p : option nat) : Prop :=
  match st with Open => True | Limited k => p = Some k | Shut => False end.
Definition gate_fits (st : state) (g : gate) : Prop :=
  (forall p, g_permit g = Some p -> fits st p) /\ (forall p, g_pc g = Acquired p -> fits st p) /\
  (forall k, g_pc g = Looked k -> st = Limited k).
Lemma fits_none st f p : (p = Idle \/ p = Entered) -> gate_fits st (Gate None f p).
Proof. intros [-> | ->]; repeat apply conj; cbn; discriminate. Qed.

(** One step of a gate that fits *)
Lemma step_fits w i g r h : good_state w -> w_closing w = [] -> gate_at w i = Some g -> gate_fits (w_state w) g ->
  gate_at (step w i g r) i = Some h -> gate_fits (w_state w) h.
Proof.
  intros G C Gi (F1 & F2 & F3).
  assert (Old : forall k, k < length (w_sems w) -> s_closed (sem_at w k) = false -> w_state w = Limited k).
  { intros k Hk Hc. destruct (gs_old w G k Hk) as [?|[?|H]]; auto; [congruence|]. rewrite C in H. destruct H. }
  assert (Put : forall w' g', w_gates w' = w_gates w -> gate_fits (w_state w) g' ->
            gate_at (put_gate w' i (Some g')) i = Some h -> gate_fits (w_state w) h).
  { intros w' g' Eg Hg. unfold gate_at. cbn [put_gate w_gates]. rewrite nth_upd, Eg, Nat.eqb_refl. cbn [andb]. apply gate_some in Gi.
    apply Nat.ltb_lt in Gi. rewrite Gi. now intros [= <-]. }
  assert (Self : gate_at w i = Some h -> gate_fits (w_state w) h).
  { rewrite Gi. intros [= <-]. repeat apply conj; auto. }
  assert (Acq : forall p, fits (w_state w) p -> gate_fits (w_state w) (Gate None None (Acquired p))).
  { intros p Hp. repeat apply conj; cbn; try discriminate. now intros q [= <-]. }
  pose proof (gs_gates w G i g Gi) as (A1 & A2 & A3 & A4).
  unfold step. destruct (g_pc g) as [| |k|p] eqn:Pc; auto.
  - destruct (g_acquire g) as [f|] eqn:Ac.
    + specialize (A1 f eq_refl). unfold poll_future. destruct f as [|k v|k v|v]; cbn in A1.
      * destruct (w_state w) eqn:S; apply (Put w); auto; try (apply fits_none; auto; fail).
      * destruct (s_closed (sem_at w k)) eqn:Cl; [apply (Put w); auto; apply fits_none; auto|].
        destruct (can_take _); [|apply (Put w); auto; apply fits_none; auto].
        apply (Put w); auto. apply Acq. rewrite (Old k); [reflexivity|apply A1|auto].
      * destruct (s_closed (sem_at w k)) eqn:Cl; [apply (Put w); auto; apply fits_none; auto|].
        destruct (mem _ _); [|apply (Put w); auto; apply fits_none; auto].
        apply (Put w); auto. apply Acq. rewrite (Old k); [reflexivity|apply A1|auto].
      * destruct (_ =? _); apply (Put w); auto; apply fits_none; auto.
    + destruct (w_state w) eqn:S; apply (Put w); auto; try (apply fits_none; auto; fail).
      * apply Acq. exact I.
      * repeat apply conj; cbn; try discriminate. intros k' [= <-]. reflexivity.
  - specialize (F3 k eq_refl). destruct (can_take _); apply (Put w); auto.
    + apply Acq. rewrite F3. reflexivity.
    + apply fits_none; auto.
  - destruct r.
    + apply (Put w); auto. repeat apply conj; cbn; try discriminate. intros q [= <-]. auto.
    + unfold gate_at, log. cbn. rewrite gates_release. apply (Put w); auto. apply fits_none; auto.
    + unfold gate_at, log. cbn. rewrite gates_release. apply (Put w); auto. apply fits_none; auto.
Qed.

Lemma app_same {A} (l d : list A) : l = l ++ d -> d = [].
Proof. intros E. rewrite <- (app_nil_r l) in E at 1. apply app_inv_head in E. auto. Qed.
Lemma handle_fits w e i h : good_state w -> w_closing w = [] -> channel_event e = false ->
  (forall g, gate_at w i = Some g -> w_log (handle w e) = w_log w ++ [Polled i] \/ gate_fits (w_state w) g) ->
  gate_at (handle w e) i = Some h -> gate_fits (w_state w) h.
Proof.
  intros G C He Hg Hh.
  assert (Nil : w_log w <> w_log w ++ [Polled i]) by (intros E; now apply app_same in E).
  assert (Same : forall g, gate_at w i = Some g -> w_log (handle w e) = w_log w \/
    (exists x, w_log (handle w e) = w_log w ++ [x] /\ x <> Polled i) -> gate_fits (w_state w) g).
  { intros g H El. destruct (Hg g H) as [E|]; auto. exfalso. destruct El as [El|(x & El & Nx)]; rewrite El in E; [auto|].
    apply app_inv_head in E. congruence. }
  destruct (handle_effect w e) as [Ecl Eg El|es' Eg El Hev Ho|Ecl Eg El|j g g' r Hr Gj Eg El Hp Hx|j g g' x Hr Gj Eg El Hx]; [| congruence | | |].
  - unfold gate_at in Hh. rewrite Eg in Hh. apply Same; auto.
  - unfold gate_at in Hh. rewrite Eg in Hh. destruct (Nat.lt_trichotomy i (length (w_gates w))) as [L|[L|L]].
    + rewrite app_nth1 in Hh by auto. apply Same; auto.
    + subst. rewrite app_nth2, Nat.sub_diag in Hh by auto. injection Hh as <-. apply fits_none; auto.
    + rewrite nth_overflow in Hh by (rewrite app_length; cbn; lia). discriminate.
  - destruct (Nat.eq_dec i j) as [<-|N].
    + apply (step_fits w i g r); auto. subst e. cbn [handle] in Hh. rewrite Gj in Hh. exact Hh.
    + unfold gate_at in Hh. rewrite Eg, nth_upd in Hh. destruct (Nat.eqb_spec i j); [congruence|]. apply Same; auto.
  - destruct (Nat.eq_dec i j) as [<-|N].
    + pose proof Hh as Hh'. unfold gate_at in Hh'. rewrite Eg, nth_upd, Nat.eqb_refl in Hh'. apply gate_some in Gj as L.
      apply Nat.ltb_lt in L. rewrite L in Hh'. cbn [andb] in Hh'.
      destruct x as [y| |j|j|j|j|j p|j|j]; try contradiction; destruct Hx as (-> & Hx).
      * destruct Hx as (_ & f & ->). injection Hh' as <-. apply fits_none; auto.
      * destruct Hr as [r Hr]. apply (step_fits w i g r); auto.
        -- apply Same; auto. right. exists (Ready i). split; auto. discriminate.
        -- subst e. cbn [handle] in Hh. rewrite Gj in Hh. exact Hh.
      * destruct Hx as (_ & f & ->). injection Hh' as <-. apply fits_none; auto.
      * destruct Hx as (_ & ->). injection Hh' as <-. apply fits_none; auto.
      * destruct Hx as (_ & _ & ->). injection Hh' as <-. apply fits_none; auto.
      * destruct Hx as (_ & _ & ->). injection Hh' as <-. apply Same; auto. right. exists (Panic i). split; auto. discriminate.
      * destruct Hx as (_ & ->). discriminate.
    + unfold gate_at in Hh. rewrite Eg, nth_upd in Hh. destruct (Nat.eqb_spec i j); [congruence|]. apply Same; auto. right.
      exists x. split; auto. destruct x; try congruence. destruct Hx as (-> & _). congruence.
Qed.

(** What holds after [l2] was added to the log without a change of setting *)
Record phase (w1 w : world) (l2 : list seen) : Prop := {
  ph_log : w_log w = w_log w1 ++ l2;
  ph_state : w_state w = w_state w1;
  ph_closing : w_closing w = [];
  ph_fits : forall i g, In i (polled_in l2) -> gate_at w i = Some g -> gate_fits (w_state w) g;
  ph_passes : forall k, w_state w = Limited k -> fresh_passes l2 <= used k l2;
  ph_shut : w_state w = Shut -> fresh_passes l2 = 0 /\ fresh_readies l2 = 0
}.

Lemma phase_step w1 w l2 e : inv w -> phase w1 w l2 ->
  count is_set (w_log (handle w e)) = count is_set (w_log w) -> exists d, phase w1 (handle w e) (l2 ++ d).
Proof.
  intros [GL G P U] [H1 H2 H3 H4 H5 H6] Hn.
  destruct (channel_event e) eqn:He.
  { destruct e as [x|k| | | | |]; try discriminate; cbn [handle] in *.
    - exfalso. revert Hn. unfold send. destruct (w_state w); cbn [w_log]; rewrite !count_app; cbn; lia.
    - exists []. rewrite app_nil_r. unfold close. rewrite H3. cbn. split; auto. }
  pose proof (handle_same w e He) as [S1 S2 S3 S4 S5].
  assert (Mk : forall d, w_log (handle w e) = w_log w ++ d ->
    (forall i g, In i (polled_in (l2 ++ d)) -> gate_at (handle w e) i = Some g -> gate_fits (w_state w) g) ->
    (forall k, w_state w = Limited k -> fresh_passes (l2 ++ d) <= used k (l2 ++ d)) ->
    (w_state w = Shut -> fresh_passes (l2 ++ d) = 0 /\ fresh_readies (l2 ++ d) = 0) ->
    phase w1 (handle w e) (l2 ++ d)).
  { intros d D1 D2 D3 D4. split; rewrite ?S1, ?S3; auto. rewrite D1, H1, app_assoc. reflexivity. }
  assert (Mk1 : forall x, w_log (handle w e) = w_log w ++ [x] ->
    (forall i p, x <> Pass i p) /\ (forall i, x <> Ready i) ->
    (forall i g, In i (polled_in (l2 ++ [x])) -> gate_at (handle w e) i = Some g -> gate_fits (w_state w) g) ->
    exists d, phase w1 (handle w e) (l2 ++ d)).
  { intros x D1 D2 D3. exists [x].
    assert (N1 : passing x = None) by (destruct D2 as [D2 _]; destruct x as [| | | | | |i p| |]; auto; now destruct (D2 i p)).
    assert (N2 : readying x = None) by (destruct D2 as [_ D2]; destruct x as [| | |i| | | | |]; auto; now destruct (D2 i)).
    apply Mk; auto; unfold fresh_passes, fresh_readies.
    - intros k Hk. rewrite fresh_snoc, N1 by auto. rewrite used_snoc. specialize (H5 k Hk). unfold fresh_passes in H5. lia.
    - intros Hs. specialize (H6 Hs). rewrite !fresh_snoc, N1, N2 by auto. unfold fresh_passes, fresh_readies in H6. lia. }
  assert (Fit : forall d i h, w_log (handle w e) = w_log w ++ d -> In i (polled_in (l2 ++ d)) ->
    gate_at (handle w e) i = Some h -> gate_fits (w_state w) h).
  { intros d i h El Hi. apply handle_fits; auto. intros g Gi. rewrite El.
    unfold polled_in in Hi. rewrite flat_map_app, in_app_iff in Hi. destruct Hi as [Hi|Hi]; [right; now apply (H4 i)|]. left.
    destruct (handle_log w e) as (d' & El' & Hd). rewrite El' in El. apply app_inv_head in El. subst d'.
    destruct Hd as [-> | [[x ->]|[x ->]]]; cbn in Hi; try contradiction. destruct x; cbn in Hi; try contradiction.
    destruct Hi as [-> |[]]. reflexivity. }
  destruct (handle_effect w e) as [Ecl Eg El|es' Eg El Hev Ho|Ecl Eg El|j g g' r Hr Gj Eg El Hp Hx|j g g' x Hr Gj Eg El Hx]; [| congruence | | |].
  - exists []. apply Mk; rewrite ?app_nil_r; auto. rewrite <- (app_nil_r l2). intros. eapply Fit; eauto. now rewrite app_nil_r.
  - exists []. apply Mk; rewrite ?app_nil_r; auto. rewrite <- (app_nil_r l2). intros. eapply Fit; eauto. now rewrite app_nil_r.
  - exists []. apply Mk; rewrite ?app_nil_r; auto. rewrite <- (app_nil_r l2). intros. eapply Fit; eauto. now rewrite app_nil_r.
  - assert (Cases : (exists p, x = Pass j p /\ g_permit g = Some p) \/ (x = Ready j /\ exists p, g_pc g = Acquired p) \/
      ((forall i p, x <> Pass i p) /\ (forall i, x <> Ready i))).
    { destruct x as [y| |i|i|i|i|i p|i|i]; try contradiction; destruct Hx as (-> & Hx).
      all: try (right; right; split; intros; discriminate).
      - right. left. split; auto. destruct Hr as [r ->]. cbn [handle] in El, Eg. rewrite Gj in El, Eg.
        destruct (g_pc g) as [| |k|p] eqn:Pc; eauto; exfalso; destruct Hx as (Hi & p & ->).
        + unfold pc_idle in Hi. rewrite Pc in Hi. discriminate.
        + unfold step in El. rewrite Pc in El.
          assert (El' : forall w', w_log w' = w_log w -> w_log w' <> w_log w ++ [Ready j])
            by (intros w' -> E; now apply app_same in E).
          assert (El2 : w_log w ++ [Pending j] <> w_log w ++ [Ready j]) by (intros E; apply app_inv_head in E; discriminate).
          unfold poll_future in El. destruct (g_acquire g) as [[|k v|k v|v]|].
          * destruct (w_state w); now apply El' in El.
          * destruct (s_closed _); [now apply El' in El|]. destruct (can_take _); [now apply El' in El|]. cbn in El. congruence.
          * destruct (s_closed _); [now apply El' in El|]. destruct (mem _ _); [now apply El' in El|]. cbn in El. congruence.
          * destruct (_ =? _); [cbn in El; congruence|now apply El' in El].
          * destruct (w_state w); now apply El' in El.
        + unfold step in El. rewrite Pc in El. destruct (can_take _); cbn in El; now apply app_same in El.
      - left. exists p. split; auto. apply Hx. }
    destruct Cases as [(p & -> & Hp)|[(-> & p & Hp)|N]].
    + exists [Pass j p]. apply Mk; auto.
      * intros. eapply Fit; eauto.
      * intros k Hk. unfold fresh_passes. rewrite fresh_snoc by (right; discriminate). rewrite used_snoc. cbn [passing app].
        specialize (H5 k Hk). unfold fresh_passes in H5. destruct (existsb (Nat.eqb j) (polled_in l2)) eqn:Ex; [|lia].
        apply mem_iff in Ex. destruct (H4 j g Ex Gj) as (F & _). specialize (F p Hp). rewrite Hk in F. cbn in F. subst p.
        cbn. rewrite Nat.eqb_refl. cbn. lia.
      * intros Hs. specialize (H6 Hs). unfold fresh_passes, fresh_readies in *. rewrite !fresh_snoc by (right; discriminate).
        cbn [passing readying app]. destruct (existsb (Nat.eqb j) (polled_in l2)) eqn:Ex; [|lia].
        apply mem_iff in Ex. destruct (H4 j g Ex Gj) as (F & _). specialize (F p Hp). rewrite Hs in F. destruct F.
    + exists [Ready j]. apply Mk; auto.
      * intros. eapply Fit; eauto.
      * intros k Hk. unfold fresh_passes. rewrite fresh_snoc by (left; reflexivity). rewrite used_snoc. cbn [passing].
        specialize (H5 k Hk). unfold fresh_passes in H5. lia.
      * intros Hs. specialize (H6 Hs). unfold fresh_passes, fresh_readies in *. rewrite !fresh_snoc by (right; discriminate).
        cbn [passing readying app]. destruct (existsb (Nat.eqb j) (polled_in l2)) eqn:Ex; [|lia].
        apply mem_iff in Ex. destruct (H4 j g Ex Gj) as (_ & F & _). specialize (F p Hp). rewrite Hs in F. destruct F.
    + apply (Mk1 x); auto. intros. eapply Fit; eauto.
Qed.

Lemma set_mono w e : count is_set (w_log w) <= count is_set (w_log (handle w e)).
Proof. destruct (handle_log w e) as (d & -> & _). rewrite count_app. lia. Qed.
Lemma phase_run es1 es2 : w_closing (run es1) = [] ->
  count is_set (w_log (run (es1 ++ es2))) = count is_set (w_log (run es1)) ->
  exists l2, phase (run es1) (run (es1 ++ es2)) l2.
Proof.
  intros C. induction es2 as [|e es2 IH] using rev_ind; intros Hn.
  - exists []. rewrite app_nil_r. split; auto; try (intros; unfold fresh_passes, fresh_readies; cbn; auto; lia).
    + now rewrite app_nil_r.
    + intros i g [].
  - rewrite app_assoc, run_snoc in *.
    assert (M : count is_set (w_log (run es1)) <= count is_set (w_log (run (es1 ++ es2)))).
    { clear. induction es2 as [|e es2 IH] using rev_ind; [rewrite app_nil_r; lia|]. rewrite app_assoc, run_snoc.
      pose proof (set_mono (run (es1 ++ es2)) e). lia. }
    pose proof (set_mono (run (es1 ++ es2)) e) as M'.
    destruct IH as [l2 H]; [lia|]. destruct (phase_step _ _ l2 e (inv_run (es1 ++ es2)) H ltac:(lia)) as [d Hd]. eauto.
Qed.

(** ** The bounds *)
Lemma after_set before x mid after es :
  w_log (run es) = (before ++ Set_ x :: mid) ++ after -> no_set (mid ++ after) -> settled (before ++ Set_ x :: mid) ->
  exists es1 es2, es = es1 ++ es2 /\ w_log (run es1) = before ++ Set_ x :: mid /\ phase (run es1) (run es) after /\
    w_state (run es1) = state_of (length (limits before)) x /\ limits (w_log (run es1)) = limits before ++ limit_of (Set_ x).
Proof.
  intros E N S. destruct (settled_cut _ _ _ E S) as (es1 & es2 & -> & E1 & C).
  unfold no_set in N. rewrite count_app in N.
  assert (Nm : no_set mid) by (unfold no_set; lia).
  exists es1, es2. repeat apply conj; auto.
  - destruct (phase_run es1 es2 C) as [l2 H].
    + rewrite E, E1, count_app. lia.
    + pose proof (ph_log _ _ _ H) as L. rewrite E, E1 in L. apply app_inv_head in L. now subst.
  - rewrite (gs_state _ (in_state _ (inv_run es1))), E1, last_set_app. cbn.
    destruct (last_set_none (length (limits before) + length (limit_of (Set_ x))) (state_of (length (limits before)) x) mid Nm) as [H _].
    destruct x; exact H.
  - rewrite E1, limits_app. cbn [limits flat_map]. change (flat_map limit_of mid) with (limits mid).
    destruct (last_set_none 0 Open mid Nm) as [_ ->]. now rewrite app_nil_r.
Qed.

Theorem limited_bound es before n mid after :
  w_log (run es) = before ++ Set_ (To_limit n) :: mid ++ after -> no_set (mid ++ after) ->
  settled (before ++ Set_ (To_limit n) :: mid) -> fresh_passes after <= n.
Proof.
  intros E N S. assert (E' : w_log (run es) = (before ++ Set_ (To_limit n) :: mid) ++ after) by (rewrite <- app_assoc; exact E).
  destruct (after_set _ _ _ _ _ E' N S) as (es1 & es2 & -> & E1 & P & St & Li). cbn in St, Li.
  pose proof (ph_passes _ _ _ P (length (limits before))) as H. rewrite (ph_state _ _ _ P) in H. specialize (H St).
  destruct (inv_run (es1 ++ es2)) as [_ G Pm _].
  assert (Li2 : limits (w_log (run (es1 ++ es2))) = limits before ++ [n]).
  { rewrite E', limits_app, <- E1, Li. destruct (last_set_none 0 Open after) as [_ ->]; [unfold no_set in *; rewrite count_app in N; lia|].
    now rewrite app_nil_r. }
  assert (Lk : length (limits before) < length (w_sems (run (es1 ++ es2)))).
  { rewrite (gs_len _ G), Li2, app_length. cbn. lia. }
  pose proof (pe_sum _ Pm _ Lk) as Su. rewrite Li2, app_nth2, Nat.sub_diag in Su by lia. cbn [nth] in Su.
  assert (used (length (limits before)) after <= used (length (limits before)) (w_log (run (es1 ++ es2)))).
  { rewrite E'. unfold used. rewrite (count_app _ (before ++ _)). lia. }
  lia.
Qed.

Theorem shut_bound es before mid after :
  w_log (run es) = before ++ Set_ To_shut :: mid ++ after -> no_set (mid ++ after) ->
  settled (before ++ Set_ To_shut :: mid) -> fresh_passes after = 0 /\ fresh_readies after = 0.
Proof.
  intros E N S. assert (E' : w_log (run es) = (before ++ Set_ To_shut :: mid) ++ after) by (rewrite <- app_assoc; exact E).
  destruct (after_set _ _ _ _ _ E' N S) as (es1 & es2 & -> & E1 & P & St & Li). cbn in St, Li.
  apply (ph_shut _ _ _ P). now rewrite (ph_state _ _ _ P).
Qed.

(** Who was ready, or asking, may still pass once. *)
Lemma without_shorter i l : In i l -> length (without i l) < length l.
Proof.
  unfold without. assert (F : forall f (l : list nat), length (filter f l) <= length l) by (intros f m; induction m as [|y m IHm]; cbn; [lia|destruct (f y); cbn; lia]).
  induction l as [|x l IH]; intros H; [destruct H|]. cbn. destruct (Nat.eqb_spec x i) as [->|N]; cbn.
  - specialize (F (fun j => negb (j =? i)) l). lia.
  - destruct H as [->|H]; [congruence|]. apply IH in H. lia.
Qed.
Lemma passes_bound l2 : forall l1 polled ids,
  (forall a e b, l2 = a ++ e :: b -> allowed (l1 ++ a) e) ->
  (forall i, ~ In i polled -> stands i l1 = Asking \/ stands i l1 = May_pass -> In i ids) ->
  count is_pass l2 <= fresh passing polled l2 + length ids.
Proof.
  induction l2 as [|e l2 IH]; intros l1 polled ids Al Hi; [cbn; lia|].
  assert (Al' : forall a x b, l2 = a ++ x :: b -> allowed ((l1 ++ [e]) ++ a) x).
  { intros a x b ->. rewrite <- app_assoc. apply (Al (e :: a) x b). reflexivity. }
  pose proof (Al [] e l2 eq_refl) as Ae. rewrite app_nil_r in Ae.
  assert (St : forall i, stands i (l1 ++ [e]) = turn i (stands i l1) e) by (intros; apply stands_snoc).
  assert (Easy : passing e = None -> (forall i, e <> Polled i) ->
     (forall i, ~ In i polled -> stands i (l1 ++ [e]) = Asking \/ stands i (l1 ++ [e]) = May_pass -> In i ids) ->
     count is_pass (e :: l2) <= fresh passing polled (e :: l2) + length ids).
  { intros Hp Np Hi'. specialize (IH (l1 ++ [e]) polled ids Al' Hi').
    destruct e as [y| |j|j|j|j|j p|j|j]; cbn in *; try exact IH; try discriminate. now destruct (Np j). }
  destruct e as [y| |j|j|j|j|j p|j|j]; try (apply Easy; [reflexivity|discriminate|]; intros i Ni; rewrite St; cbn [turn]).
  - apply Hi; auto.
  - apply Hi; auto.
  - cbn [fresh]. apply (IH (l1 ++ [Polled j])); auto. intros i Ni. rewrite St. cbn [turn].
    destruct (Nat.eqb_spec j i) as [->|N]; [exfalso; apply Ni; now left|]. apply Hi. intros C. apply Ni. now right.
  - destruct (Nat.eqb_spec j i) as [->|N]; [|apply Hi; auto]. intros _. apply Hi; auto.
  - destruct (Nat.eqb_spec j i) as [->|N]; [|apply Hi; auto]. intros [|]; discriminate.
  - destruct (Nat.eqb_spec j i) as [->|N]; [|apply Hi; auto]. intros [|]; discriminate.
  - cbn [fresh passing]. change (count is_pass (Pass j p :: l2)) with (S (count is_pass l2)).
    destruct (existsb (Nat.eqb j) polled) eqn:Ex.
    + assert (count is_pass l2 <= fresh passing polled l2 + length ids); [|lia]. apply (IH (l1 ++ [Pass j p])); auto.
      intros i Ni. rewrite St. cbn [turn]. destruct (Nat.eqb_spec j i) as [->|N]; [intros [|]; discriminate|]. apply Hi; auto.
    + cbn in Ae. assert (Nj : ~ In j polled) by (rewrite <- mem_iff; unfold mem; congruence).
      pose proof (without_shorter j ids (Hi j Nj (or_intror Ae))) as Sh.
      assert (count is_pass l2 <= fresh passing polled l2 + length (without j ids)); [|lia]. apply (IH (l1 ++ [Pass j p])); auto.
      intros i Ni. rewrite St. cbn [turn]. destruct (Nat.eqb_spec j i) as [->|N]; [intros [|]; discriminate|].
      intros H. apply without_in. split; [apply Hi; auto|congruence].
  - apply Hi; auto.
  - destruct (Nat.eqb_spec j i) as [->|N]; [|apply Hi; auto]. intros [|]; discriminate.
Qed.
Lemma all_passes es l1 l2 ids : w_log (run es) = l1 ++ l2 ->
  (forall i, stands i l1 = Asking \/ stands i l1 = May_pass -> In i ids) ->
  count is_pass l2 <= fresh_passes l2 + length ids.
Proof.
  intros E H. apply (passes_bound l2 l1); auto. intros a e b ->.
  apply (gl_allowed _ (good_log_run es)) with b. rewrite E, <- app_assoc. reflexivity.
Qed.
Theorem limited_total es before n mid after ids :
  w_log (run es) = before ++ Set_ (To_limit n) :: mid ++ after -> no_set (mid ++ after) ->
  settled (before ++ Set_ (To_limit n) :: mid) ->
  (forall i, stands i (before ++ Set_ (To_limit n) :: mid) = Asking \/
             stands i (before ++ Set_ (To_limit n) :: mid) = May_pass -> In i ids) ->
  count is_pass after <= n + length ids.
Proof.
  intros E N S Hi. pose proof (limited_bound _ _ _ _ _ E N S).
  pose proof (all_passes es (before ++ Set_ (To_limit n) :: mid) after ids) as H1.
  rewrite <- app_assoc in H1. specialize (H1 E Hi). lia.
Qed.
Theorem shut_total es before mid after ids :
  w_log (run es) = before ++ Set_ To_shut :: mid ++ after -> no_set (mid ++ after) ->
  settled (before ++ Set_ To_shut :: mid) ->
  (forall i, stands i (before ++ Set_ To_shut :: mid) = Asking \/
             stands i (before ++ Set_ To_shut :: mid) = May_pass -> In i ids) ->
  count is_pass after <= length ids.
Proof.
  intros E N S Hi. destruct (shut_bound _ _ _ _ E N S).
  pose proof (all_passes es (before ++ Set_ To_shut :: mid) after ids) as H1.
  rewrite <- app_assoc in H1. specialize (H1 E Hi). lia.
Qed.
