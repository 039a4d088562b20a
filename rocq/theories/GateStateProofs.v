(** The channel's state, the semaphores and the permits *)
From Coq Require Import List Arith Bool Lia.
From Verif Require Import GateModel GateSpec GateProofs.
Import ListNotations.

Lemma sem_put w k s j : k < length (w_sems w) -> sem_at (put_sem w k s) j = if j =? k then s else sem_at w j.
Proof.
  intros L. unfold sem_at. cbn. rewrite nth_upd. apply Nat.ltb_lt in L. now rewrite L, andb_true_r.
Qed.
Lemma sem_put_out w k s j : length (w_sems w) <= k -> sem_at (put_sem w k s) j = sem_at w j.
Proof.
  intros L. unfold sem_at. cbn. rewrite nth_upd. apply Nat.ltb_ge in L. now rewrite L, andb_false_r.
Qed.

(** ** Gate events leave the channel alone *)
Record same_channel (w w' : world) : Prop := {
  sc_state : w_state w' = w_state w; sc_version : w_version w' = w_version w; sc_closing : w_closing w' = w_closing w;
  sc_len : length (w_sems w') = length (w_sems w);
  sc_closed : forall k, s_closed (sem_at w' k) = s_closed (sem_at w k)
}.
Lemma same_refl w : same_channel w w. Proof. now split. Qed.
Lemma same_trans a b c : same_channel a b -> same_channel b c -> same_channel a c.
Proof. intros [] []; split; congruence. Qed.
Lemma same_gate w w' i g : same_channel w w' -> same_channel w (put_gate w' i g).
Proof. intros []. split; cbn; auto. Qed.
Lemma same_log w w' e : same_channel w w' -> same_channel w (log w' e).
Proof. intros []. split; cbn; auto. Qed.
Lemma same_sem w w' k s : same_channel w w' -> s_closed s = s_closed (sem_at w k) -> same_channel w (put_sem w' k s).
Proof.
  intros [] E. split; [exact sc_state0|exact sc_version0|exact sc_closing0|cbn; rewrite upd_length; auto|]. intros j.
  destruct (Nat.lt_ge_cases k (length (w_sems w'))).
  - rewrite sem_put by auto. destruct (Nat.eqb_spec j k); [subst; auto|auto].
  - rewrite sem_put_out by auto. auto.
Qed.
Lemma released_closed s : s_closed (released s) = s_closed s.
Proof. unfold released. now destruct (s_queue s). Qed.
Lemma forgotten_closed i s : s_closed (forgotten i s) = s_closed s.
Proof. unfold forgotten. destruct (mem _ _); [now rewrite released_closed|reflexivity]. Qed.
Lemma same_release w w' p : same_channel w w' -> same_channel w (release w' p).
Proof.
  intros H. destruct p as [k|]; cbn; auto. apply same_sem; auto. rewrite released_closed. apply (sc_closed _ _ H).
Qed.
Lemma handle_same w e : channel_event e = false -> same_channel w (handle w e).
Proof.
  assert (R := same_refl w).
  destruct e as [x|k| |i|i r|i|i]; cbn [handle channel_event]; try discriminate; intros _.
  - split; reflexivity.
  - destruct (gate_at w i) as [g|]; auto. unfold poll. destruct (g_pc g); auto.
    apply same_log, same_gate. destruct (g_permit g); auto. now apply same_release.
  - destruct (gate_at w i) as [g|]; auto. unfold step, poll_future.
    destruct (g_pc g); auto.
    + destruct (g_acquire g) as [[|k v|k v|v]|].
      * destruct (w_state w); now apply same_gate.
      * destruct (s_closed _) eqn:C; [now apply same_gate|]. destruct (can_take _).
        -- apply same_sem; [now apply same_gate|reflexivity].
        -- apply same_log, same_sem; [now apply same_gate|]. cbn. auto.
      * destruct (s_closed _) eqn:C; [|destruct (mem _ _)].
        -- apply same_sem; [now apply same_gate|]. apply forgotten_closed.
        -- apply same_sem; [now apply same_gate|]. cbn. auto.
        -- now apply same_log, same_gate.
      * destruct (_ =? _); [now apply same_log, same_gate|now apply same_gate].
      * destruct (w_state w); now apply same_gate.
    + destruct (can_take _); [|now apply same_gate]. apply same_sem; [now apply same_gate|reflexivity].
    + destruct r; apply same_log; try apply same_release; now apply same_gate.
  - destruct (gate_at w i) as [g|]; auto. unfold call. destruct (g_pc g); auto.
    destruct (g_permit g); [|now apply same_log]. now apply same_log, same_gate.
  - destruct (gate_at w i) as [g|]; auto. unfold drop. destruct (g_pc g); auto.
    apply same_log, same_gate. destruct (g_acquire g) as [[| | |]|].
    3: { set (w' := match g_permit g with Some p => release w p | None => w end).
         assert (H : same_channel w w') by (subst w'; destruct (g_permit g); auto; now apply same_release).
         apply same_sem; auto. rewrite forgotten_closed. apply (sc_closed _ _ H). }
    all: destruct (g_permit g); auto; now apply same_release.
Qed.

(** ** The state is the last setting *)
Definition limit_of (e : seen) : list nat := match e with Set_ (To_limit n) => [n] | _ => [] end.
Definition limits (l : list seen) : list nat := flat_map limit_of l.
Lemma limits_app l l' : limits (l ++ l') = limits l ++ limits l'.
Proof. apply flat_map_app. Qed.
Definition state_of (k : nat) (x : setting) : state :=
  match x with To_open => Open | To_limit _ => Limited k | To_shut => Shut end.
Fixpoint last_set (k : nat) (s : state) (l : list seen) : state :=
  match l with
  | [] => s
  | Set_ x :: l => last_set (k + length (limit_of (Set_ x))) (state_of k x) l
  | _ :: l => last_set k s l
  end.
Lemma last_set_app k s l l' : last_set k s (l ++ l') = last_set (k + length (limits l)) (last_set k s l) l'.
Proof.
  revert k s; induction l as [|e l IH]; intros k s; cbn; [now rewrite Nat.add_0_r|].
  destruct e as [x| | | | | | | |]; rewrite IH; auto.
  rewrite app_length, Nat.add_assoc. reflexivity.
Qed.
Lemma count_app f l l' : count f (l ++ l') = count f l + count f l'.
Proof. unfold count. now rewrite filter_app, app_length. Qed.
Lemma last_set_none k s l : no_set l -> last_set k s l = s /\ limits l = [].
Proof.
  unfold no_set. revert k s. induction l as [|e l IH]; intros k s H; cbn; auto.
  destruct e as [x| | | | | | | |]; cbn in H; try (apply IH; exact H). discriminate.
Qed.

Definition future_ok (w : world) (f : future) : Prop :=
  match f with
  | Top => True
  | Acquire k v | Queued k v => k < length (w_sems w) /\ v <= w_version w /\ (v = w_version w -> w_state w = Limited k)
  | Changed v => v <= w_version w /\ (v = w_version w -> w_state w = Shut)
  end.
Definition gate_ok (w : world) (g : gate) : Prop :=
  (forall f, g_acquire g = Some f -> future_ok w f) /\
  (forall k, g_pc g = Looked k -> k < length (w_sems w)) /\
  (forall k, g_pc g = Acquired (Some k) -> k < length (w_sems w)) /\
  (forall k, g_permit g = Some (Some k) -> k < length (w_sems w)).
Record good_state (w : world) : Prop := {
  gs_len : length (w_sems w) = length (limits (w_log w));
  gs_count : count is_set (w_log w) = count is_returned (w_log w) + length (w_closing w);
  gs_state : w_state w = last_set 0 Open (w_log w);
  gs_cur : forall k, w_state w = Limited k -> k < length (w_sems w) /\ s_closed (sem_at w k) = false /\ ~ In k (w_closing w);
  gs_closing : NoDup (w_closing w) /\ forall k, In k (w_closing w) -> k < length (w_sems w);
  gs_old : forall k, k < length (w_sems w) -> w_state w = Limited k \/ s_closed (sem_at w k) = true \/ In k (w_closing w);
  gs_gates : forall i g, gate_at w i = Some g -> gate_ok w g
}.

Lemma gate_ok_same w w' g : same_channel w w' -> gate_ok w g -> gate_ok w' g.
Proof.
  intros [S V C L _] (H1 & H2 & H3 & H4). unfold gate_ok. rewrite L. repeat apply conj; auto.
  intros f Hf. specialize (H1 f Hf). unfold future_ok in *. rewrite L, V, S. exact H1.
Qed.
Lemma gate_ok_none w f p : (forall f', f = Some f' -> future_ok w f') -> (p = Idle \/ p = Entered) -> gate_ok w (Gate None f p).
Proof. intros H [-> | ->]; unfold gate_ok; cbn; repeat apply conj; auto; discriminate. Qed.

(** The gate that a gate event leaves *)
Lemma handle_gate_ok w e : good_state w -> channel_event e = false ->
  forall i g, gate_at (handle w e) i = Some g -> gate_ok w g.
Proof.
  intros G He i g.
  assert (Base : gate_at w i = Some g -> gate_ok w g) by apply (gs_gates w G).
  assert (New : gate_ok w new_gate) by (apply gate_ok_none; [discriminate|auto]).
  assert (Put : forall w' j h, w_gates w' = w_gates w -> (forall g', h = Some g' -> gate_ok w g') ->
            gate_at (put_gate w' j h) i = Some g -> gate_ok w g).
  { intros w' j h Eg Hh. unfold gate_at. cbn. rewrite nth_upd, Eg. destruct (_ && _); auto. }
  destruct e as [x|k| |j|j r|j|j]; try discriminate; cbn [handle].
  - unfold gate_at, clone. cbn. destruct (Nat.lt_trichotomy i (length (w_gates w))) as [L|[L|L]].
    + rewrite app_nth1; auto.
    + subst. rewrite app_nth2, Nat.sub_diag by auto. cbn. intros [= <-]. exact New.
    + rewrite nth_overflow; [discriminate|rewrite app_length; cbn; lia].
  - destruct (gate_at w j) as [h|] eqn:H; auto. pose proof (gs_gates w G j h H) as (A1 & A2 & A3 & A4).
    unfold poll. destruct (g_pc h); auto.
    eapply (Put _ j); [destruct (g_permit h); now rewrite ?gates_release|].
    intros g' [= <-]. apply gate_ok_none; auto.
  - destruct (gate_at w j) as [h|] eqn:H; auto. pose proof (gs_gates w G j h H) as (A1 & A2 & A3 & A4).
    assert (Cur : forall k, w_state w = Limited k -> k < length (w_sems w)) by (intros k Hk; now apply (gs_cur w G)).
    unfold step. destruct (g_pc h) eqn:P; auto.
    + destruct (g_acquire h) as [f|] eqn:F.
      * specialize (A1 f eq_refl). unfold poll_future. destruct f as [|k v|k v|v]; cbn in A1.
        -- destruct (w_state w) as [|k|] eqn:S; eapply (Put w j); auto; intros g' [= <-].
           ++ unfold gate_ok; cbn; repeat apply conj; discriminate.
           ++ apply gate_ok_none; auto. intros f' [= <-]. cbn. auto.
           ++ apply gate_ok_none; auto. intros f' [= <-]. cbn. auto.
        -- destruct (s_closed _) eqn:C; [|destruct (can_take _)]; eapply (Put w j); auto; intros g' [= <-].
           ++ apply gate_ok_none; auto. intros f' [= <-]. cbn. split; [apply A1|]. intros E. exfalso.
              destruct A1 as (_ & _ & A1). specialize (A1 E). apply (gs_cur w G) in A1. destruct A1 as (_ & A1 & _). congruence.
           ++ unfold gate_ok; cbn; repeat apply conj; try discriminate. intros k' [= <-]. apply A1.
           ++ apply gate_ok_none; auto. intros f' [= <-]. cbn. auto.
        -- destruct (s_closed _) eqn:C; [|destruct (mem _ _)]; eapply (Put w j); auto; intros g' [= <-].
           ++ apply gate_ok_none; auto. intros f' [= <-]. cbn. split; [apply A1|]. intros E. exfalso.
              destruct A1 as (_ & _ & A1). specialize (A1 E). apply (gs_cur w G) in A1. destruct A1 as (_ & A1 & _). congruence.
           ++ unfold gate_ok; cbn; repeat apply conj; try discriminate. intros k' [= <-]. apply A1.
           ++ apply gate_ok_none; auto. intros f' [= <-]. cbn. auto.
        -- destruct (_ =? _); eapply (Put w j); auto; intros g' [= <-]; apply gate_ok_none; auto; intros f' [= <-]; cbn; auto.
      * destruct (w_state w) as [|k|] eqn:S; eapply (Put w j); auto; intros g' [= <-].
        -- unfold gate_ok; cbn; repeat apply conj; discriminate.
        -- unfold gate_ok; cbn; repeat apply conj; try discriminate. intros k' [= <-]. now apply Cur.
        -- apply gate_ok_none; auto. intros f' [= <-]. cbn. auto.
    + specialize (A2 _ eq_refl). destruct (can_take _); eapply (Put w j); auto; intros g' [= <-].
      * unfold gate_ok; cbn; repeat apply conj; try discriminate. now intros k' [= <-].
      * apply gate_ok_none; auto. intros f' [= <-]. cbn. auto.
    + destruct r.
      * eapply (Put w j); auto; intros g' [= <-]. unfold gate_ok; cbn; repeat apply conj; try discriminate.
        intros k' [= ->]. now apply A3.
      * unfold gate_at, log. cbn. rewrite gates_release. eapply (Put w j); auto; intros g' [= <-]. exact New.
      * unfold gate_at, log. cbn. rewrite gates_release. eapply (Put w j); auto; intros g' [= <-]. exact New.
  - destruct (gate_at w j) as [h|] eqn:H; auto. pose proof (gs_gates w G j h H) as (A1 & A2 & A3 & A4).
    unfold call. destruct (g_pc h); auto. destruct (g_permit h); auto. eapply (Put w j); auto; intros g' [= <-].
    apply gate_ok_none; auto.
  - destruct (gate_at w j) as [h|] eqn:H; auto. unfold drop. destruct (g_pc h); auto.
    eapply (Put _ j None); [|discriminate].
    destruct (g_acquire h) as [[| | |]|], (g_permit h); cbn; now rewrite ?gates_release.
Qed.

Lemma handle_good_state w e : good_state w -> good_state (handle w e).
Proof.
  intros G. destruct (channel_event e) eqn:He.
  - destruct e as [x|k| | | | |]; try discriminate; cbn [handle].
    + (* Send *)
      unfold send. set (sems := match x with To_limit n => w_sems w ++ [Sem n [] [] false] | _ => w_sems w end).
      set (st := match x with To_open => Open | To_limit _ => Limited (length (w_sems w)) | To_shut => Shut end).
      assert (Ll : length sems = length (w_sems w) + length (limit_of (Set_ x))).
      { subst sems. destruct x; cbn; rewrite ?app_length; cbn; lia. }
      assert (Lo : forall k, k < length (w_sems w) -> nth k sems no_sem = sem_at w k).
      { intros k Hk. subst sems. destruct x; auto. now rewrite app_nth1. }
      assert (St : forall k, st = Limited k -> k = length (w_sems w) /\ k < length sems /\ s_closed (nth k sems no_sem) = false).
      { intros k. subst st sems. destruct x; try discriminate. intros [= <-]. rewrite app_length, app_nth2, Nat.sub_diag by auto. cbn. lia. }
      assert (New : forall k, length (w_sems w) <= k -> k < length sems -> st = Limited k).
      { intros k H1 H2. subst st sems. destruct x; try lia. rewrite app_length in H2. cbn in H2. f_equal. lia. }
      assert (Ls : last_set 0 Open (w_log w ++ [Set_ x]) = st).
      { rewrite last_set_app, <- (gs_state w G). cbn. rewrite <- (gs_len w G). now destruct x. }
      assert (H : exists c r, (r = [] \/ r = [Returned]) /\ length c + length r = 1 /\ (forall k, In k c <-> w_state w = Limited k) /\
        (match w_state w with
         | Limited old => World st (S (w_version w)) sems (w_closing w ++ [old]) (w_gates w) (w_log w ++ [Set_ x])
         | _ => World st (S (w_version w)) sems (w_closing w) (w_gates w) ((w_log w ++ [Set_ x]) ++ [Returned])
         end) = World st (S (w_version w)) sems (w_closing w ++ c) (w_gates w) ((w_log w ++ [Set_ x]) ++ r)).
      { destruct (w_state w) as [|old|].
        - exists [], [Returned]. rewrite app_nil_r. repeat apply conj; auto; split; intros; [contradiction|discriminate].
        - exists [old], []. rewrite (app_nil_r (_ ++ [_])). repeat apply conj; auto. intros k; cbn. split; [intros [->|[]]; auto|].
          intros [= ->]; auto.
        - exists [], [Returned]. rewrite app_nil_r. repeat apply conj; auto; split; intros; [contradiction|discriminate]. }
      destruct H as (c & r & Hr & Hcr & Hc & ->).
      assert (Rr : limits r = [] /\ count is_set r = 0 /\ count is_returned r = length r /\ forall n s, last_set n s r = s)
        by (destruct Hr as [-> | ->]; repeat apply conj; reflexivity).
      destruct Rr as (R1 & R2 & R3 & R4).
      assert (Cb : forall k, In k c -> k < length (w_sems w) /\ ~ In k (w_closing w))
        by (intros k Hk; apply Hc in Hk; apply (gs_cur w G) in Hk; tauto).
      assert (Cd : NoDup c) by (destruct c as [|? [|]]; cbn in Hcr; try lia; repeat constructor; auto).
      destruct G as [G1 G2 G3 G4 [G5 G5'] G6 G7].
      split; unfold sem_at; cbn [w_state w_sems w_log w_closing].
      * rewrite !limits_app, !app_length, R1. cbn [limits flat_map]. rewrite app_nil_r. cbn [length]. lia.
      * rewrite !count_app, app_length, R2, R3. cbn. lia.
      * rewrite last_set_app, R4. auto.
      * intros k Hk. apply St in Hk as (-> & ? & ?). repeat apply conj; auto. rewrite in_app_iff.
        intros [C|C]; [apply G5' in C|apply Cb in C]; lia.
      * split.
        -- clear - G5 Cd Cb. induction G5 as [|a l Ha Hl IH]; cbn; auto. constructor.
           ++ rewrite in_app_iff. intros [?|C]; [auto|]. apply Cb in C. cbn in C. tauto.
           ++ apply IH. intros k Hk. apply Cb in Hk. cbn in Hk. tauto.
        -- intros k Hk. apply in_app_iff in Hk as [C|C]; [apply G5' in C|apply Cb in C]; lia.
      * intros k Hk. destruct (Nat.lt_ge_cases k (length (w_sems w))) as [L|L]; [|left; auto].
        rewrite Lo by auto. rewrite in_app_iff, (Hc k). destruct (G6 k L) as [?|[?|?]]; auto.
      * intros i g Hg. pose proof (G7 i g Hg) as (A1 & A2 & A3 & A4).
        unfold gate_ok; cbn [w_sems]. repeat apply conj.
        -- intros f Hf. specialize (A1 f Hf). destruct f; cbn in *; auto.
          ++ destruct A1 as (? & ? & _). repeat apply conj; try lia.
          ++ destruct A1 as (? & ? & _). repeat apply conj; try lia.
          ++ split; lia.
        -- intros k Hk. specialize (A2 k Hk). lia.
        -- intros k Hk. specialize (A3 k Hk). lia.
        -- intros k Hk. specialize (A4 k Hk). lia.
    + (* Close *)
      unfold close. destruct (mem k (w_closing w)) eqn:M; auto. apply mem_iff in M.
      destruct G as [G1 G2 G3 G4 [G5 G5'] G6 G7]. pose proof (G5' k M) as Lk. apply Nat.ltb_lt in Lk as Lb.
      split; unfold sem_at; cbn [w_state w_sems w_log w_closing].
      * rewrite upd_length, limits_app. cbn. now rewrite app_nil_r.
      * rewrite !count_app. cbn. pose proof (without_length k _ G5 M). lia.
      * rewrite last_set_app, <- G3. reflexivity.
      * intros k' Hk'. rewrite upd_length, nth_upd, Lb, andb_true_r. apply G4 in Hk' as (H1 & H2 & H3).
        destruct (Nat.eqb_spec k' k); [subst; tauto|]. repeat apply conj; auto. rewrite without_in. tauto.
      * split; [now apply without_nodup|]. intros k' Hk'. rewrite upd_length. apply without_in in Hk' as [? _]. auto.
      * intros k'. rewrite upd_length, nth_upd, Lb, andb_true_r, without_in. intros L.
        destruct (Nat.eqb_spec k' k); [auto|]. destruct (G6 k' L) as [?|[?|?]]; auto.
      * intros i g Hg. specialize (G7 i g Hg). unfold gate_ok, future_ok in *. cbn [w_sems w_state w_version]. rewrite upd_length. exact G7.
  - pose proof (handle_same w e He) as S. pose proof (handle_gate_ok w e G He) as HG.
    assert (Lg : limits (w_log (handle w e)) = limits (w_log w) /\ count is_set (w_log (handle w e)) = count is_set (w_log w) /\
                 count is_returned (w_log (handle w e)) = count is_returned (w_log w) /\
                 last_set 0 Open (w_log (handle w e)) = last_set 0 Open (w_log w)).
    { destruct (handle_effect w e) as [Ecl Eg El|es' Eg El Hev Ho|Ecl Eg El|i g g' r Hr Gi Eg El Hp Hg|i g g' e' Hr Gi Eg El Hx];
        try (rewrite El; auto; fail).
      - congruence.
      - rewrite El, limits_app, !count_app, last_set_app.
        destruct e'; try contradiction; cbn; rewrite ?app_nil_r, ?Nat.add_0_r; auto. }
    destruct Lg as (L1 & L2 & L3 & L4). destruct G as [G1 G2 G3 G4 G5 G6 G7].
    pose proof S as [S1 S2 S3 S4 S5].
    split; rewrite ?S1, ?S3, ?S4, ?L1, ?L2, ?L3, ?L4; auto.
    + intros k Hk. rewrite S5. auto.
    + intros k Hk. rewrite S5. auto.
    + intros i g Hg. apply (gate_ok_same w); eauto.
Qed.
