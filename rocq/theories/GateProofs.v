(** Invariants of the gate *)
From Coq Require Import List Arith Bool Lia.
From Verif Require Import GateModel GateSpec.
Import ListNotations.

(** ** Lists *)
Section Lists.
  Context {A : Type}.
  Implicit Types l : list A.
  Lemma upd_length l i x : length (upd l i x) = length l.
  Proof. revert i; induction l as [|y l IH]; intros [|i]; cbn; auto. Qed.
  Lemma nth_upd l i x j d : nth j (upd l i x) d = if (j =? i) && (i <? length l) then x else nth j l d.
  Proof.
    revert i j; induction l as [|y l IH]; intros i j; [destruct i, j; cbn; rewrite ?andb_false_r; auto|].
    destruct i as [|i], j as [|j]; cbn; auto. rewrite IH. reflexivity.
  Qed.
  Fixpoint sum (f : A -> nat) l : nat := match l with [] => 0 | x :: l => f x + sum f l end.
  Lemma sum_app f l l' : sum f (l ++ l') = sum f l + sum f l'.
  Proof. induction l; cbn; lia. Qed.
  Lemma sum_upd f l i x d : i < length l -> sum f (upd l i x) + f (nth i l d) = sum f l + f x.
  Proof.
    revert i; induction l as [|y l IH]; intros [|i] Hi; cbn in *; try lia.
    specialize (IH i ltac:(lia)). lia.
  Qed.
End Lists.
Lemma mem_iff i l : mem i l = true <-> In i l.
Proof.
  unfold mem. rewrite existsb_exists. split.
  - intros (x & H & E). apply Nat.eqb_eq in E. now subst.
  - intros H. exists i. split; auto. apply Nat.eqb_refl.
Qed.
Lemma mem_false i l : mem i l = false <-> ~ In i l.
Proof. rewrite <- mem_iff. destruct (mem i l); split; congruence. Qed.
Lemma without_in i j l : In j (without i l) <-> In j l /\ j <> i.
Proof. unfold without. rewrite filter_In, negb_true_iff, Nat.eqb_neq. reflexivity. Qed.
Lemma without_nodup i l : NoDup l -> NoDup (without i l).
Proof. apply NoDup_filter. Qed.
Lemma without_id i l : ~ In i l -> without i l = l.
Proof.
  unfold without. induction l as [|x l IH]; intros H; cbn; auto.
  destruct (Nat.eqb_spec x i); [subst; exfalso; apply H; now left|].
  cbn. rewrite IH; auto. intros C; apply H; now right.
Qed.
Lemma without_length i l : NoDup l -> In i l -> S (length (without i l)) = length l.
Proof.
  induction 1 as [|x l Hx Hn IH]; [intros []|]. intros [->|Hi]; unfold without in *; cbn.
  - rewrite Nat.eqb_refl. cbn. f_equal. f_equal. now apply without_id.
  - destruct (Nat.eqb_spec x i); [subst; tauto|]. cbn. f_equal. apply IH; auto.
Qed.

(** ** Runs *)
Lemma run_snoc es e : run (es ++ [e]) = handle (run es) e.
Proof. unfold run. now rewrite fold_left_app. Qed.
Lemma run_app es es' : run (es ++ es') = fold_left handle es' (run es).
Proof. unfold run. now rewrite fold_left_app. Qed.
Lemma run_inv (P : world -> Prop) : P init -> (forall w e, P w -> P (handle w e)) -> forall es, P (run es).
Proof.
  intros H0 HS es. induction es as [|e es IH] using rev_ind; [exact H0|]. rewrite run_snoc. auto.
Qed.

(** All the ways an event can go *)
Lemma gate_some w i g : gate_at w i = Some g -> i < length (w_gates w).
Proof.
  unfold gate_at. intros H. destruct (Nat.lt_ge_cases i (length (w_gates w))); auto.
  rewrite nth_overflow in H; [discriminate|auto].
Qed.

(** ** What is logged *)
Lemma stands_snoc i l e : stands i (l ++ [e]) = turn i (stands i l) e.
Proof. unfold stands. now rewrite fold_left_app. Qed.

Definition pc_idle (g : gate) : bool := match g_pc g with Idle => true | _ => false end.
Definition consistent (s : standing) (g : option gate) : Prop :=
  match g with
  | None => s = Out
  | Some g =>
      match g_pc g with
      | Idle => match g_permit g with
                | Some _ => s = May_pass /\ g_acquire g = None
                | None => s = Waiting \/ s = Out /\ g_acquire g = None
                end
      | Entered => s = Asking /\ g_permit g = None
      | _ => s = Asking /\ g_permit g = None /\ g_acquire g = None
      end
  end.
Definition all_allowed (l : list seen) : Prop := forall a e b, l = a ++ e :: b -> allowed a e.
Lemma all_allowed_snoc l e : all_allowed l -> allowed l e -> all_allowed (l ++ [e]).
Proof.
  intros H He a e' b E. destruct b as [|x b] using rev_ind.
  - apply app_inj_tail in E as [-> ->]. exact He.
  - clear IHb. rewrite app_comm_cons, app_assoc in E. apply app_inj_tail in E as [E _]. eapply H; eauto.
Qed.

Record good_log (w : world) : Prop := {
  gl_gates : forall i, consistent (stands i (w_log w)) (gate_at w i);
  gl_allowed : all_allowed (w_log w)
}.

Lemma gates_put_sem w k s : w_gates (put_sem w k s) = w_gates w. Proof. reflexivity. Qed.
Lemma gates_release w p : w_gates (release w p) = w_gates w. Proof. destruct p; reflexivity. Qed.
Lemma log_release w p : w_log (release w p) = w_log w. Proof. destruct p; reflexivity. Qed.
Lemma state_release w p : w_state (release w p) = w_state w. Proof. destruct p; reflexivity. Qed.
Lemma version_release w p : w_version (release w p) = w_version w. Proof. destruct p; reflexivity. Qed.
Lemma closing_release w p : w_closing (release w p) = w_closing w. Proof. destruct p; reflexivity. Qed.

(** What an event does to the gates and the log: at most one gate changes and at most
    one entry about it is added. *)
Definition channel_event (e : event) : bool := match e with Send _ | Close _ => true | _ => false end.
(** Which event a log entry comes from *)
Definition caused (ev : event) (e : seen) : Prop :=
  match e with
  | Polled i => ev = Poll i
  | Ready i | Pending i | Failed i => exists r, ev = Step i r
  | Pass i _ | Panic i => ev = Call i
  | Dropped i => ev = Drop i
  | _ => True
  end.
Inductive effect (ev : event) (w w' : world) : Prop :=
| E_none : ev <> Clone -> w_gates w' = w_gates w -> w_log w' = w_log w -> effect ev w w'
| E_admin es : w_gates w' = w_gates w -> w_log w' = w_log w ++ es ->
    channel_event ev = true ->
    (forall e, In e es -> match e with Set_ _ | Returned => True | _ => False end) -> effect ev w w'
| E_clone : ev = Clone -> w_gates w' = w_gates w ++ [Some new_gate] -> w_log w' = w_log w -> effect ev w w'
| E_gate i g g' r : ev = Step i r -> gate_at w i = Some g -> w_gates w' = upd (w_gates w) i g' -> w_log w' = w_log w ->
    pc_idle g = false -> (exists h, g' = Some h /\ pc_idle h = false /\ g_permit h = None /\
      (g_pc h = Entered \/ g_acquire h = None)) -> effect ev w w'
| E_log i g g' e : caused ev e -> gate_at w i = Some g -> w_gates w' = upd (w_gates w) i g' -> w_log w' = w_log w ++ [e] ->
    match e with
    | Polled j => j = i /\ pc_idle g = true /\ exists f, g' = Some (Gate None f Entered)
    | Ready j => j = i /\ pc_idle g = false /\ exists p, g' = Some (Gate (Some p) None Idle)
    | Pending j => j = i /\ pc_idle g = false /\ exists f, g' = Some (Gate None f Idle)
    | Failed j => j = i /\ pc_idle g = false /\ g' = Some (Gate None None Idle)
    | Pass j p => j = i /\ pc_idle g = true /\ g_permit g = Some p /\ g' = Some (Gate None (g_acquire g) Idle)
    | Panic j => j = i /\ pc_idle g = true /\ g_permit g = None /\ g' = Some g
    | Dropped j => j = i /\ pc_idle g = true /\ g' = None
    | _ => False
    end -> effect ev w w'.

Lemma upd_same {A} (l : list A) i d : upd l i (nth i l d) = l.
Proof. revert i; induction l as [|x l IH]; intros [|i]; cbn; f_equal; auto. Qed.

Lemma handle_effect w e : effect e w (handle w e).
Proof.
  destruct e as [x|k| |i|i r|i|i]; cbn [handle].
  - unfold send. destruct (w_state w).
    + apply E_admin with [Set_ x; Returned]; cbn; auto; [now rewrite <- app_assoc|].
      intros e [<-|[<-|[]]]; exact I.
    + apply E_admin with [Set_ x]; cbn; auto. intros e [<-|[]]; exact I.
    + apply E_admin with [Set_ x; Returned]; cbn; auto; [now rewrite <- app_assoc|].
      intros e [<-|[<-|[]]]; exact I.
  - unfold close. destruct (mem k (w_closing w)).
    + apply E_admin with [Returned]; cbn; auto. intros e [<-|[]]; exact I.
    + apply E_none; [discriminate|reflexivity|reflexivity].
  - now apply E_clone.
  - destruct (gate_at w i) as [g|] eqn:G; [|apply E_none; [discriminate|reflexivity|reflexivity]].
    unfold poll. destruct (g_pc g) eqn:P; try (apply E_none; [discriminate|reflexivity|reflexivity]).
    eapply E_log with (i := i) (e := Polled i); [reflexivity|eauto|..]; cbn [log put_gate w_log w_gates].
    + destruct (g_permit g); now rewrite ?gates_release.
    + destruct (g_permit g); now rewrite ?log_release.
    + unfold pc_idle. rewrite P. eauto.
  - destruct (gate_at w i) as [g|] eqn:G; [|apply E_none; [discriminate|reflexivity|reflexivity]].
    assert (I : forall p, g_pc g = p -> p <> Idle -> pc_idle g = false)
      by (intros p H N; unfold pc_idle; rewrite H; destruct p; congruence).
    unfold step. destruct (g_pc g) eqn:P; [apply E_none; [discriminate|reflexivity|reflexivity]| | |].
    + assert (I' : pc_idle g = false) by (eapply I; eauto; discriminate). clear I.
      destruct (g_acquire g) as [f|] eqn:F.
      * unfold poll_future. destruct f as [|k v|k v|v].
        -- destruct (w_state w); eapply E_gate with (i := i); cbn; eauto; eexists; cbn; eauto 8.
        -- destruct (s_closed _); [eapply E_gate with (i := i); cbn; eauto; eexists; cbn; eauto 8|].
           destruct (can_take _); [eapply E_gate with (i := i); cbn; eauto; eexists; cbn; eauto 8|].
           eapply E_log with (i := i); [|eassumption|cbn; reflexivity|cbn; reflexivity|]; cbn; eauto.
        -- destruct (s_closed _); [eapply E_gate with (i := i); cbn; eauto; eexists; cbn; eauto 8|].
           destruct (mem _ _); [eapply E_gate with (i := i); cbn; eauto; eexists; cbn; eauto 8|].
           eapply E_log with (i := i); [|eassumption|cbn; reflexivity|cbn; reflexivity|]; cbn; eauto.
        -- destruct (_ =? _); [|eapply E_gate with (i := i); cbn; eauto; eexists; cbn; eauto 8].
           eapply E_log with (i := i); [|eassumption|cbn; reflexivity|cbn; reflexivity|]; cbn; eauto.
      * destruct (w_state w); eapply E_gate with (i := i); cbn; eauto; eexists; cbn; eauto 8.
    + assert (I' : pc_idle g = false) by (eapply I; eauto; discriminate). clear I.
      destruct (can_take _); eapply E_gate with (i := i); cbn; eauto; eexists; cbn; eauto 8.
    + assert (I' : pc_idle g = false) by (eapply I; eauto; discriminate). clear I.
      destruct r; (eapply E_log with (i := i);
        [|eassumption|cbn [log w_gates]; rewrite ?gates_release; reflexivity
        |cbn [log w_log]; rewrite ?log_release; reflexivity|cbn; eauto]; cbn; eauto).
  - destruct (gate_at w i) as [g|] eqn:G; [|apply E_none; [discriminate|reflexivity|reflexivity]].
    unfold call. destruct (g_pc g) eqn:P; try (apply E_none; [discriminate|reflexivity|reflexivity]).
    assert (I' : pc_idle g = true) by (unfold pc_idle; now rewrite P).
    destruct (g_permit g) eqn:Q.
    + eapply E_log with (i := i) (e := Pass i o); cbn; eauto.
    + eapply E_log with (i := i) (g' := Some g) (e := Panic i); cbn; eauto.
      rewrite <- G. unfold gate_at. now rewrite upd_same.
  - destruct (gate_at w i) as [g|] eqn:G; [|apply E_none; [discriminate|reflexivity|reflexivity]].
    unfold drop. destruct (g_pc g) eqn:P; try (apply E_none; [discriminate|reflexivity|reflexivity]).
    assert (I' : pc_idle g = true) by (unfold pc_idle; now rewrite P).
    eapply E_log with (i := i) (e := Dropped i) (g' := None); [reflexivity|eauto|..]; auto.
    + destruct (g_acquire g) as [[| | |]|], (g_permit g); cbn; now rewrite ?gates_release.
    + destruct (g_acquire g) as [[| | |]|], (g_permit g); cbn; now rewrite ?log_release.
Qed.

Lemma stands_admin i l es :
  (forall e, In e es -> match e with Set_ _ | Returned => True | _ => False end) -> stands i (l ++ es) = stands i l.
Proof.
  unfold stands. rewrite fold_left_app. generalize (fold_left (turn i) l Out). induction es as [|e es IH]; intros s H; auto.
  cbn [fold_left]. rewrite IH by (intros; apply H; now right).
  specialize (H e (or_introl eq_refl)). destruct e; cbn; tauto.
Qed.
Lemma allowed_admin l es :
  (forall e, In e es -> match e with Set_ _ | Returned => True | _ => False end) -> all_allowed l -> all_allowed (l ++ es).
Proof.
  induction es as [|e es IH] using rev_ind; intros H Hl; [now rewrite app_nil_r|].
  rewrite app_assoc. apply all_allowed_snoc.
  - apply IH; auto. intros e' Hi. apply H. apply in_or_app; auto.
  - specialize (H e). destruct e; cbn; auto; exfalso; apply H; apply in_or_app; cbn; auto.
Qed.

Lemma good_log_run es : good_log (run es).
Proof.
  apply run_inv.
  - split.
    + intros [|[|i]]; cbn; auto.
    + intros [|] e b E; discriminate.
  - intros w e [HG HA].
    destruct (handle_effect w e) as [Ecl Eg El|es' Eg El Hev Ho|Ecl Eg El|i g g' r Hr G Eg El Hp Hg|i g g' e' Hr G Eg El He].
    + split; rewrite ?El; unfold gate_at; rewrite ?Eg; auto.
    + split; rewrite ?El.
      * intros i. rewrite stands_admin by auto. unfold gate_at. rewrite Eg. apply HG.
      * now apply allowed_admin.
    + split; rewrite ?El; auto. intros i. specialize (HG i). unfold gate_at in *. rewrite Eg.
      destruct (Nat.lt_trichotomy i (length (w_gates w))) as [L|[L|L]].
      * rewrite app_nth1; auto.
      * subst i. rewrite app_nth2, Nat.sub_diag by lia. cbn.
        rewrite nth_overflow in HG by lia. cbn in HG. auto.
      * rewrite nth_overflow; [|rewrite app_length; cbn; lia]. rewrite nth_overflow in HG by lia. exact HG.
    + split; rewrite ?El; auto. intros j. pose proof (HG j) as Hj. pose proof (HG i) as Hi. unfold gate_at in *. rewrite Eg, nth_upd.
      destruct (Nat.eqb_spec j i) as [->|]; [|exact Hj]. apply gate_some in G as L. apply Nat.ltb_lt in L. rewrite L. cbn [andb].
      destruct Hg as (h & -> & P1 & P2 & P3). rewrite G in Hi. cbn in Hi |- *.
      unfold pc_idle in *. destruct (g_pc g); try discriminate; destruct (g_pc h); try discriminate; intuition congruence.
    + pose proof (HG i) as Hi. rewrite G in Hi. cbn in Hi. unfold pc_idle in He. split; rewrite El.
      * intros j. rewrite stands_snoc. pose proof (HG j) as Hj. unfold gate_at in *. rewrite Eg, nth_upd.
        apply gate_some in G as L. apply Nat.ltb_lt in L. rewrite L, andb_true_r.
        destruct (Nat.eqb_spec j i) as [->|N].
        -- destruct e' as [x| |j'|j'|j'|j'|j' p|j'|j']; try contradiction; destruct He as (-> & Hp & He); cbn [turn];
             rewrite ?Nat.eqb_refl.
           ++ destruct He as [f ->]. cbn. auto.
           ++ destruct He as [p ->]. cbn. auto.
           ++ destruct He as [f ->]. cbn. auto.
           ++ subst. cbn. auto.
           ++ destruct He as [Hq ->]. cbn. right. split; auto. destruct (g_pc g); try discriminate.
              rewrite Hq in Hi. tauto.
           ++ destruct He as [Hq ->]. exact Hi.
           ++ subst. reflexivity.
        -- assert (T : turn j (stands j (w_log w)) e' = stands j (w_log w)).
           { destruct e' as [x| |j'|j'|j'|j'|j' p|j'|j']; try contradiction; cbn; destruct He as (-> & _); auto;
               destruct (Nat.eqb_spec i j); congruence. }
           rewrite T. exact Hj.
      * apply all_allowed_snoc; auto.
        destruct e' as [x| |j'|j'|j'|j'|j' p|j'|j']; try contradiction; destruct He as (-> & Hp & He); cbn;
          destruct (g_pc g); try discriminate; destruct (g_permit g); intuition congruence.
Qed.
