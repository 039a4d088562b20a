(** C21: a clone that asks gets a permit when one is left *)
From Coq Require Import List Arith Bool Lia.
From Verif Require Import GateModel GateSpec GateProofs GateStateProofs GatePermitProofs GateBoundProofs.
Import ListNotations.

(** ** Who has the permits *)
Lemma sum_le {A} (f : A -> nat) (d : A) (l : list A) : (forall x, In x l -> f x <= 1) -> forall s,
  sum f l <= length (filter (fun j => 0 <? f (nth (j - s) l d)) (seq s (length l))).
Proof.
  induction l as [|x l IH]; intros H s; cbn [sum length seq filter]; [lia|].
  specialize (IH (fun y Hy => H y (or_intror Hy)) (S s)).
  assert (E : filter (fun j => 0 <? f (nth (j - s) (x :: l) d)) (seq (S s) (length l)) =
              filter (fun j => 0 <? f (nth (j - S s) l d)) (seq (S s) (length l))).
  { apply filter_ext_in. intros j Hj. apply in_seq in Hj. replace (j - s) with (S (j - S s)) by lia. reflexivity. }
  rewrite E, Nat.sub_diag. cbn [nth]. pose proof (H x (or_introl eq_refl)). destruct (Nat.ltb_spec 0 (f x)); cbn [length]; lia.
Qed.
Lemma nodup_app {A} (a b : list A) : NoDup a -> NoDup b -> (forall x, In x a -> ~ In x b) -> NoDup (a ++ b).
Proof.
  induction 1 as [|x a Hx Ha IH]; intros Hb D; cbn; auto. constructor.
  - rewrite in_app_iff. intros [?|?]; [auto|]. eapply D; eauto. now left.
  - apply IH; auto. intros y Hy. apply D. now right.
Qed.

Lemma holds_stands w k j : inv w -> 0 < holds k (gate_at w j) ->
  stands j (w_log w) <> Out /\ holds k (gate_at w j) = 1 /\ forall k', ~ waits (gate_at w j) k'.
Proof.
  intros [GL _ _ _] H. pose proof (gl_gates w GL j) as C. destruct (gate_at w j) as [g|]; [|cbn in H; lia].
  unfold consistent, holds in *. destruct (g_pc g) as [| |k'|p].
  - destruct (g_permit g) as [p|]; [|cbn in H; lia]. destruct C as [C A]. destruct (has k p); cbn in H |- *; [|lia].
    repeat apply conj; try congruence; try lia. intros k' W. now apply waits_none in W.
  - destruct C as [C D]. rewrite D in H. cbn in H. lia.
  - destruct C as [C [D _]]. rewrite D in H. cbn in H. lia.
  - destruct C as (C & D & A). rewrite D in *. destruct (has k p); cbn in H |- *; [|lia].
    repeat apply conj; try congruence; try lia. intros k' W. now apply waits_none in W.
Qed.
Lemma waits_stands w k j : inv w -> waits (gate_at w j) k -> stands j (w_log w) <> Out.
Proof.
  intros [GL _ _ _] (g & v & E & A). pose proof (gl_gates w GL j) as C. rewrite E in C. cbn in C.
  destruct (g_pc g); [destruct (g_permit g)| | |]; intuition congruence.
Qed.

Lemma others_bound w i k ids : inv w -> holds k (gate_at w i) = 0 ->
  (forall j, j <> i -> stands j (w_log w) <> Out -> In j ids) ->
  length (without i (s_given (sem_at w k))) + sum (holds k) (w_gates w) <= length ids.
Proof.
  intros V Hi Hj. pose proof (in_permits _ V) as P.
  set (hs := filter (fun j => 0 <? holds k (nth (j - 0) (w_gates w) None)) (seq 0 (length (w_gates w)))).
  assert (L : sum (holds k) (w_gates w) <= length hs).
  { apply sum_le. intros g Hg. apply (In_nth _ _ None) in Hg as (j & _ & <-). change (nth j (w_gates w) None) with (gate_at w j).
    destruct (Nat.eq_dec (holds k (gate_at w j)) 0) as [->|N]; [lia|]. destruct (holds_stands w k j V) as (_ & -> & _); lia. }
  assert (Hh : forall j, In j hs -> 0 < holds k (gate_at w j)).
  { intros j. unfold hs. rewrite filter_In, Nat.sub_0_r, Nat.ltb_lt. tauto. }
  assert (Hg : forall j, In j (without i (s_given (sem_at w k))) -> j <> i /\ waits (gate_at w j) k).
  { intros j Hj'. apply without_in in Hj' as [H1 H2]. split; auto. apply P. now right. }
  etransitivity; [|apply NoDup_incl_length with (l := without i (s_given (sem_at w k)) ++ hs)].
  - rewrite app_length. lia.
  - apply nodup_app.
    + apply without_nodup. destruct (pe_ok w P k) as [O _]. now apply (nodup_without 0) in O.
    + apply NoDup_filter, seq_NoDup.
    + intros j H1 H2. apply Hg in H1 as [_ W]. apply Hh in H2. destruct (holds_stands w k j V H2) as (_ & _ & N). now apply N in W.
  - intros j H. apply in_app_iff in H as [H|H].
    + apply Hg in H as [N W]. apply Hj; auto. eapply waits_stands; eauto.
    + apply Hh in H. apply Hj; [|now apply (holds_stands w k j V)]. intros ->. lia.
Qed.

(** ** Steps of one clone *)
Definition steps (m : nat) (i : nat) (w : world) : world := fold_left handle (repeat (Step i Inner_ready) m) w.
Lemma steps_S m i w : steps (S m) i w = steps m i (handle w (Step i Inner_ready)).
Proof. reflexivity. Qed.
Definition gets_ready (i : nat) (w : world) : Prop := exists m, w_log (steps m i w) = w_log w ++ [Ready i].
Lemma gets_step i w w' : handle w (Step i Inner_ready) = w' -> w_log w' = w_log w -> gets_ready i w' -> gets_ready i w.
Proof. intros E L [m H]. exists (S m). rewrite steps_S, E, H, L. reflexivity. Qed.
Lemma gate_put w i g g' : gate_at w i = Some g -> gate_at (put_gate w i (Some g')) i = Some g'.
Proof.
  intros H. apply gate_some in H. unfold gate_at. cbn [put_gate w_gates]. rewrite nth_upd, Nat.eqb_refl. apply Nat.ltb_lt in H. now rewrite H.
Qed.
Lemma step_at w i g : gate_at w i = Some g -> handle w (Step i Inner_ready) = step w i g Inner_ready.
Proof. intros H. cbn [handle]. now rewrite H. Qed.

Lemma go_acquired w i g p : gate_at w i = Some g -> g_pc g = Acquired p -> gets_ready i w.
Proof.
  intros H P. exists 1. unfold steps. cbn [repeat fold_left]. rewrite (step_at w i g H). unfold step. rewrite P. reflexivity.
Qed.
Lemma go_top_open w i : w_state w = Open -> gate_at w i = Some (Gate None (Some Top) Entered) -> gets_ready i w.
Proof.
  intros S H. eapply gets_step; [rewrite (step_at w i _ H); unfold step, poll_future; cbn [g_pc g_acquire]; rewrite S; reflexivity|reflexivity|].
  eapply go_acquired; [eapply gate_put; eauto|reflexivity].
Qed.
Lemma go_acquire w i k v : can_take (sem_at w k) = true ->
  gate_at w i = Some (Gate None (Some (Acquire k v)) Entered) -> gets_ready i w.
Proof.
  intros S H. assert (C : s_closed (sem_at w k) = false) by (unfold can_take in S; now destruct (s_closed (sem_at w k))).
  eapply gets_step; [rewrite (step_at w i _ H); unfold step, poll_future; cbn [g_pc g_acquire]; rewrite C, S; reflexivity|reflexivity|].
  eapply go_acquired; [exact (gate_put w i _ (Gate None None (Acquired (Some k))) H)|reflexivity].
Qed.
Lemma go_top_limited w i k : w_state w = Limited k -> can_take (sem_at w k) = true ->
  gate_at w i = Some (Gate None (Some Top) Entered) -> gets_ready i w.
Proof.
  intros S T H. eapply gets_step; [rewrite (step_at w i _ H); unfold step, poll_future; cbn [g_pc g_acquire]; rewrite S; reflexivity|reflexivity|].
  eapply (go_acquire _ i k); [exact T|]. eapply gate_put; eauto.
Qed.
(** Whether a clone can get a permit from the state *)
Definition available (w : world) : Prop :=
  match w_state w with Open => True | Limited k => can_take (sem_at w k) = true | Shut => False end.
Lemma go_top w i : available w -> gate_at w i = Some (Gate None (Some Top) Entered) -> gets_ready i w.
Proof.
  unfold available. destruct (w_state w) eqn:S; intros A H; [now apply go_top_open|now apply (go_top_limited w i sem)|destruct A].
Qed.
Lemma go_none w i : available w -> gate_at w i = Some (Gate None None Entered) -> gets_ready i w.
Proof.
  unfold available. intros A H.
  destruct (w_state w) as [|k|] eqn:S; [| |destruct A].
  - eapply gets_step; [rewrite (step_at w i _ H); unfold step; cbn [g_pc g_acquire]; rewrite S; reflexivity|reflexivity|].
    eapply go_acquired; [eapply gate_put; eauto|reflexivity].
  - eapply gets_step; [rewrite (step_at w i _ H); unfold step; cbn [g_pc g_acquire]; rewrite S; reflexivity|reflexivity|].
    set (w' := put_gate w i (Some (Gate None None (Looked k)))).
    assert (H' : gate_at w' i = Some (Gate None None (Looked k))) by (eapply gate_put; eauto).
    eapply gets_step; [rewrite (step_at w' i _ H'); unfold step; cbn [g_pc g_acquire]; change (sem_at w' k) with (sem_at w k); rewrite A; reflexivity|reflexivity|].
    eapply go_acquired; [exact (gate_put w' i _ (Gate None None (Acquired (Some k))) H')|reflexivity].
Qed.
Lemma go_changed w i v : available w -> v <> w_version w -> gate_at w i = Some (Gate None (Some (Changed v)) Entered) -> gets_ready i w.
Proof.
  intros A N H. apply Nat.eqb_neq in N.
  eapply gets_step; [rewrite (step_at w i _ H); unfold step, poll_future; cbn [g_pc g_acquire]; rewrite N; reflexivity|reflexivity|].
  apply go_top; [exact A|]. eapply gate_put; eauto.
Qed.

(** A running poll whose setting lets it through: *)
Lemma entered_ready w i f : inv w -> w_closing w = [] -> gate_at w i = Some (Gate None f Entered) ->
  w_state w <> Shut ->
  (forall k, w_state w = Limited k -> 0 < s_free (sem_at w k) \/ In i (s_given (sem_at w k))) ->
  gets_ready i w.
Proof.
  intros V C H NS Fr. pose proof (in_state _ V) as G. pose proof (in_permits _ V) as P.
  assert (Av : (forall k, w_state w = Limited k -> ~ waits (gate_at w i) k) -> available w).
  { intros Nw. unfold available. destruct (w_state w) as [|k|] eqn:S; auto. destruct (gs_cur w G k S) as (_ & Cl & _).
    unfold can_take. rewrite Cl. cbn. destruct (Fr k eq_refl) as [F|F].
    - destruct (s_free (sem_at w k)); [lia|reflexivity].
    - exfalso. apply (Nw k eq_refl). apply P. now right. }
  pose proof (gs_gates w G i _ H) as (A1 & _). destruct f as [f|]; [|apply go_none; auto].
  2: { apply Av. intros k _ W. rewrite H in W. now apply waits_none in W. }
  specialize (A1 f eq_refl). cbn in A1. destruct f as [|k v|k v|v]; cbn in A1.
  - apply go_top; auto. apply Av. intros k _ W. rewrite H in W. destruct W as (? & ? & [= <-] & W). discriminate.
  - assert (Nw : forall k', w_state w = Limited k' -> ~ waits (gate_at w i) k').
    { intros k' _ W. rewrite H in W. destruct W as (? & ? & [= <-] & W). discriminate. }
    destruct (s_closed (sem_at w k)) eqn:Cl.
    + eapply gets_step; [rewrite (step_at w i _ H); unfold step, poll_future; cbn [g_pc g_acquire]; rewrite Cl; reflexivity|reflexivity|].
      apply go_changed with v; [exact (Av Nw)| |eapply gate_put; eauto]. cbn. intros E.
      destruct A1 as (_ & _ & A1). apply (gs_cur w G) in A1; auto. destruct A1 as (_ & A1 & _). congruence.
    + apply (go_acquire w i k v); auto. destruct (gs_old w G k) as [S|[S|S]]; [apply A1| |congruence|rewrite C in S; destruct S].
      specialize (Av Nw). unfold available in Av. now rewrite S in Av.
  - destruct (s_closed (sem_at w k)) eqn:Cl.
    + assert (Nk : w_state w <> Limited k) by (intros E; apply (gs_cur w G) in E as (_ & E & _); congruence).
      assert (Nw : forall k', w_state w = Limited k' -> ~ waits (gate_at w i) k').
      { intros k' E W. rewrite H in W. destruct W as (? & ? & [= <-] & W). cbn in W. injection W as <- _. auto. }
      eapply gets_step; [rewrite (step_at w i _ H); unfold step, poll_future; cbn [g_pc g_acquire]; rewrite Cl; reflexivity|reflexivity|].
      apply go_changed with v.
      * specialize (Av Nw). unfold available in *. cbn [put_sem put_gate w_state]. destruct (w_state w) as [|k'|] eqn:S; auto.
        unfold sem_at in *. cbn [put_sem put_gate w_sems]. rewrite nth_upd. destruct (Nat.eqb_spec k' k); [congruence|exact Av].
      * cbn. intros E. destruct A1 as (_ & _ & A1). auto.
      * exact (gate_put w i _ _ H).
    + destruct (gs_old w G k) as [S|[S|S]]; [apply A1| |congruence|rewrite C in S; destruct S].
      assert (M : In i (s_given (sem_at w k))).
      { assert (M : member i (sem_at w k)) by (apply P; auto; rewrite H; eexists; exists v; cbn; auto).
        destruct M as [M|M]; auto. destruct (Fr k S) as [F|F]; auto. destruct (pe_ok w P k) as [_ O].
        assert (s_free (sem_at w k) = 0); [|lia]. apply O. intros E. rewrite E in M. destruct M. }
      apply mem_iff in M.
      eapply gets_step; [rewrite (step_at w i _ H); unfold step, poll_future; cbn [g_pc g_acquire]; rewrite Cl, M; reflexivity|reflexivity|].
      eapply go_acquired; [exact (gate_put w i _ (Gate None None (Acquired (Some k))) H)|reflexivity].
  - apply go_changed with v; auto.
    + apply Av. intros k _ W. rewrite H in W. destruct W as (? & ? & [= <-] & W). discriminate.
    + intros E. apply NS. now apply A1.
Qed.

(** ** From the outside *)
Lemma gates_alive es i : alive i es (w_log (run es)) -> exists g, gate_at (run es) i = Some g.
Proof.
  intros [L D]. set (n := length (filter (fun e => match e with Clone => true | _ => false end) es)) in *.
  assert (H : length (w_gates (run es)) = S n /\
              forall i, i < length (w_gates (run es)) -> gate_at (run es) i = None -> In (Dropped i) (w_log (run es))).
  { subst n. clear L D i. induction es as [|e es [IH1 IH2]] using rev_ind.
    - split; [reflexivity|]. intros [|i]; cbn; [discriminate|lia].
    - rewrite run_snoc, filter_app, app_length.
      assert (Ne : forall w', w_gates w' = w_gates (run es) -> forall i, i < length (w_gates w') -> gate_at w' i = None ->
                   In (Dropped i) (w_log (run es))).
      { intros w' E i. unfold gate_at. rewrite E. apply IH2. }
      destruct (handle_effect (run es) e) as [Ecl Eg El|es' Eg El Hev Ho|Ecl Eg El|j g g' r Hr Gj Eg El Hp Hx|j g g' x Hr Gj Eg El Hx].
      + split; [|rewrite El; apply Ne; auto]. rewrite Eg, IH1. destruct e; try congruence; cbn; lia.
      + split; [|intros i; rewrite El, in_app_iff; intros; left; eapply Ne; eauto]. rewrite Eg, IH1. destruct e; try discriminate; cbn; lia.
      + subst e. split.
        * rewrite Eg, app_length, IH1. cbn. lia.
        * intros i. unfold gate_at. rewrite Eg, El, app_length. cbn [length]. intros L.
          destruct (Nat.lt_ge_cases i (length (w_gates (run es)))) as [L'|L'].
          -- rewrite app_nth1 by auto. apply IH2; auto.
          -- rewrite app_nth2 by auto. replace (i - length (w_gates (run es))) with 0 by lia. discriminate.
      + destruct Hx as (h & -> & _). subst e. split.
        * rewrite Eg, upd_length, IH1. cbn. lia.
        * intros i. rewrite Eg, El, upd_length. unfold gate_at. rewrite Eg, nth_upd. intros L.
          destruct (_ && _); [discriminate|now apply IH2].
      + split.
        * rewrite Eg, upd_length, IH1. destruct e; cbn; try lia. exfalso.
          destruct x; try contradiction; cbn in Hr; try discriminate; destruct Hr; discriminate.
        * intros i. rewrite Eg, El, upd_length. unfold gate_at. rewrite Eg, nth_upd, in_app_iff. intros L.
          destruct (Nat.eqb_spec i j) as [->|N]; cbn [andb]; [|intros; left; now apply IH2].
          destruct (j <? _); [|intros; left; now apply IH2]. intros ->. right. left.
          destruct x; try contradiction; destruct Hx as (-> & Hx); auto; exfalso.
          all: decompose [and ex] Hx; congruence. }
  destruct H as [H1 H2]. destruct (gate_at (run es) i) as [g|] eqn:E; [eauto|]. exfalso. apply D, H2; auto. lia.
Qed.

Lemma run_poll es i m : w_log (run (es ++ Poll i :: repeat (Step i Inner_ready) m)) = w_log (steps m i (run (es ++ [Poll i]))).
Proof. unfold steps. change (Poll i :: repeat (Step i Inner_ready) m) with ([Poll i] ++ repeat (Step i Inner_ready) m).
  rewrite app_assoc, run_app. reflexivity. Qed.

(** Polling a clone that exists and is not being polled *)
Lemma poll_enters es i : alive i es (w_log (run es)) -> stands i (w_log (run es)) <> Asking ->
  w_log (run (es ++ [Poll i])) = w_log (run es) ++ [Polled i] /\
  exists f, gate_at (run (es ++ [Poll i])) i = Some (Gate None f Entered).
Proof.
  intros A N. destruct (gates_alive es i A) as [g Gi]. rewrite run_snoc. cbn [handle]. rewrite Gi. unfold poll.
  pose proof (gl_gates _ (good_log_run es) i) as C. rewrite Gi in C. cbn in C.
  destruct (g_pc g); try (exfalso; apply N; tauto).
  set (w' := match g_permit g with Some p => release (run es) p | None => run es end).
  assert (E : w_gates w' = w_gates (run es) /\ w_log w' = w_log (run es)).
  { subst w'. destruct (g_permit g); rewrite ?gates_release, ?log_release; auto. }
  destruct E as [E1 E2]. split.
  - cbn [log put_gate w_log]. now rewrite E2.
  - exists (g_acquire g). assert (H : gate_at w' i = Some g) by (unfold gate_at; rewrite E1; exact Gi).
    exact (gate_put w' i g _ H).
Qed.

Lemma settled_closing es : settled (w_log (run es)) -> w_closing (run es) = [].
Proof.
  intros S. pose proof (gs_count _ (in_state _ (inv_run es))) as C. unfold settled in S.
  destruct (w_closing (run es)); auto. cbn in C. lia.
Qed.
Lemma settled_snoc l i : settled l -> settled (l ++ [Polled i]).
Proof. unfold settled. rewrite !count_app. cbn. lia. Qed.
Lemma state_now es before x mid : w_log (run es) = before ++ Set_ x :: mid -> no_set mid ->
  w_state (run es) = state_of (length (limits before)) x /\ limits (w_log (run es)) = limits before ++ limit_of (Set_ x).
Proof.
  intros E N. rewrite (gs_state _ (in_state _ (inv_run es))), E, last_set_app, limits_app. cbn [limits flat_map].
  change (flat_map limit_of mid) with (limits mid).
  destruct (last_set_none (length (limits before) + length (limit_of (Set_ x))) (state_of (length (limits before)) x) mid N) as [H ->].
  rewrite app_nil_r. split; [|reflexivity]. cbn [last_set]. destruct x; exact H.
Qed.

Lemma setting_state l : forall k s x, (exists j, s = state_of j x) ->
  exists j, last_set k s l = state_of j (fold_left (fun s e => match e with Set_ x => x | _ => s end) l x).
Proof.
  induction l as [|e l IH]; intros k s x H; cbn [last_set fold_left]; auto. destruct e; auto. apply IH. eauto.
Qed.
Theorem open_admits es i :
  setting_now (w_log (run es)) = To_open -> settled (w_log (run es)) ->
  alive i es (w_log (run es)) -> stands i (w_log (run es)) <> Asking ->
  exists m, w_log (run (es ++ Poll i :: repeat (Step i Inner_ready) m)) = w_log (run es) ++ [Polled i; Ready i].
Proof.
  intros E S A St. destruct (poll_enters es i A St) as (L & f & H).
  assert (S' : w_state (run (es ++ [Poll i])) = Open).
  { rewrite (gs_state _ (in_state _ (inv_run _))), L.
    destruct (setting_state (w_log (run es) ++ [Polled i]) 0 Open To_open) as [j ->]; [now exists 0|].
    rewrite fold_left_app. cbn. unfold setting_now in E. now rewrite E. }
  destruct (entered_ready (run (es ++ [Poll i])) i f (inv_run _)) as [m Hm]; auto.
  - apply settled_closing. rewrite L. now apply settled_snoc.
  - congruence.
  - intros k Hk. congruence.
  - exists m. rewrite run_poll, Hm, L, <- app_assoc. reflexivity.
Qed.

Theorem limited_admits es before n mid i ids :
  w_log (run es) = before ++ Set_ (To_limit n) :: mid -> no_set mid -> settled (w_log (run es)) ->
  alive i es (w_log (run es)) -> stands i (w_log (run es)) <> Asking ->
  (forall j, j <> i -> stands j (w_log (run es)) <> Out -> In j ids) ->
  count is_pass mid + length ids < n ->
  exists m, w_log (run (es ++ Poll i :: repeat (Step i Inner_ready) m)) = w_log (run es) ++ [Polled i; Ready i].
Proof.
  intros E N S A St Hj Hn. destruct (poll_enters es i A St) as (L & f & H).
  assert (E' : w_log (run (es ++ [Poll i])) = before ++ Set_ (To_limit n) :: (mid ++ [Polled i])) by (rewrite L, E, <- app_assoc; reflexivity).
  assert (N' : no_set (mid ++ [Polled i])) by (unfold no_set in *; rewrite count_app; cbn; lia).
  destruct (state_now _ _ _ _ E' N') as [S' Li]. cbn in S', Li.
  pose proof (inv_run (es ++ [Poll i])) as V.
  destruct (entered_ready (run (es ++ [Poll i])) i f V) as [m Hm]; auto.
  - apply settled_closing. rewrite L. now apply settled_snoc.
  - congruence.
  - intros k Hk. rewrite S' in Hk. injection Hk as <-. set (k := length (limits before)) in *.
    assert (Hi : holds k (gate_at (run (es ++ [Poll i])) i) = 0) by (rewrite H; reflexivity).
    pose proof (others_bound _ i k ids V Hi) as B.
    assert (B' : forall j, j <> i -> stands j (w_log (run (es ++ [Poll i]))) <> Out -> In j ids).
    { intros j Nj. rewrite L, stands_snoc. cbn. destruct (Nat.eqb_spec i j); [congruence|]. now apply Hj. }
    specialize (B B').
    assert (Lk : k < length (w_sems (run (es ++ [Poll i])))).
    { rewrite (gs_len _ (in_state _ V)), Li, app_length. cbn. lia. }
    pose proof (pe_sum _ (in_permits _ V) k Lk) as Su. rewrite Li, app_nth2 in Su by (subst k; lia).
    subst k. rewrite Nat.sub_diag in Su. cbn [nth] in Su. set (k := length (limits before)) in *.
    assert (U : used k (w_log (run (es ++ [Poll i]))) <= count is_pass mid).
    { rewrite E'. destruct (set_cut es before (To_limit n) mid E) as (es0 & _ & _ & E0).
      pose proof (in_used _ (inv_run es0) k) as U0. rewrite (gs_len _ (in_state _ (inv_run es0))), E0 in U0. specialize (U0 (le_n _)).
      unfold used in *. rewrite count_app, U0. cbn. rewrite filter_app, app_length. cbn. unfold count. rewrite Nat.add_0_r.
      clear. induction mid as [|e mid IH]; cbn; [lia|]. destruct e; cbn; try exact IH. destruct (has k p); cbn; lia. }
    destruct (in_dec Nat.eq_dec i (s_given (sem_at (run (es ++ [Poll i])) k))) as [M|M]; [auto|]. left.
    rewrite (without_id i) in B by auto. lia.
  - exists m. rewrite run_poll, Hm, L, <- app_assoc. reflexivity.
Qed.
