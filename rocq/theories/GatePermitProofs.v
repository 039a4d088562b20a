(** Permits are neither lost nor made *)
From Coq Require Import List Arith Bool Lia.
From Verif Require Import GateModel GateSpec GateProofs GateStateProofs.
Import ListNotations.

Definition waits (g : option gate) (k : nat) : Prop := exists h v, g = Some h /\ g_acquire h = Some (Queued k v).
Definition b2n (b : bool) : nat := if b then 1 else 0.
Definition has (k : nat) (p : option nat) : bool := match p with Some j => j =? k | None => false end.
Definition holds (k : nat) (g : option gate) : nat :=
  match g with
  | Some g => b2n (match g_permit g with Some p => has k p | None => false end) +
              b2n (match g_pc g with Acquired p => has k p | _ => false end)
  | None => 0
  end.
Definition used (k : nat) (l : list seen) : nat := count (fun e => match e with Pass _ p => has k p | _ => false end) l.
Arguments used : simpl never.
Definition member (j : nat) (s : sem) : Prop := In j (s_queue s) \/ In j (s_given s).
Definition sem_ok (s : sem) : Prop := NoDup (s_queue s ++ s_given s) /\ (s_queue s <> [] -> s_free s = 0).

Record permits (w : world) : Prop := {
  pe_ok : forall k, sem_ok (sem_at w k);
  pe_waits : forall k i, member i (sem_at w k) -> waits (gate_at w i) k;
  pe_member : forall k i, waits (gate_at w i) k -> s_closed (sem_at w k) = false -> member i (sem_at w k);
  pe_sum : forall k, k < length (w_sems w) ->
    s_free (sem_at w k) + length (s_given (sem_at w k)) + sum (holds k) (w_gates w) + used k (w_log w) =
    nth k (limits (w_log w)) 0
}.

Definition touch (w : world) (i : nat) (g : option gate) (k : nat) (s : sem) (l : list seen) : world :=
  World (w_state w) (w_version w) (upd (w_sems w) k s) (w_closing w) (upd (w_gates w) i g) l.

Lemma touch_permits w i g g' k s l :
  permits w -> gate_at w i = Some g -> (k < length (w_sems w) \/ s = sem_at w k) ->
  sem_ok s ->
  (forall j, j <> i -> (member j s <-> member j (sem_at w k))) ->
  (member i s -> waits g' k) ->
  (waits g' k -> s_closed s = false -> member i s) ->
  (s_closed s = false -> s_closed (sem_at w k) = false) ->
  (forall k', k' <> k -> (waits g' k' <-> waits (Some g) k')) ->
  limits l = limits (w_log w) ->
  (s_free s + length (s_given s) + holds k g' + used k l =
   s_free (sem_at w k) + length (s_given (sem_at w k)) + holds k (Some g) + used k (w_log w)) ->
  (forall k', k' <> k -> holds k' g' + used k' l = holds k' (Some g) + used k' (w_log w)) ->
  permits (touch w i g' k s l).
Proof.
  intros [P1 P2 P3 P4] G K S M1 M2 M3 C W L E1 E2.
  assert (Sem : forall j, sem_at (touch w i g' k s l) j = if j =? k then s else sem_at w j).
  { intros j. unfold sem_at, touch. cbn. rewrite nth_upd. destruct (Nat.eqb_spec j k); [|reflexivity]. subst j.
    destruct (Nat.ltb_spec k (length (w_sems w))); [reflexivity|].
    destruct K as [K|K]; [lia|]. cbn. rewrite K. reflexivity. }
  assert (Lt := gate_some _ _ _ G). apply Nat.ltb_lt in Lt as Lb.
  assert (Gt : forall j, gate_at (touch w i g' k s l) j = if j =? i then g' else gate_at w j).
  { intros j. unfold gate_at, touch. cbn. rewrite nth_upd, Lb, andb_true_r. reflexivity. }
  split.
  - intros j. rewrite Sem. destruct (_ =? _); auto.
  - intros j i'. rewrite Sem, Gt. destruct (Nat.eqb_spec j k) as [->|Nk], (Nat.eqb_spec i' i) as [->|Ni]; intros H.
    + auto.
    + apply P2. now apply M1.
    + apply W; auto. rewrite <- G. auto.
    + auto.
  - intros j i'. rewrite Sem, Gt. destruct (Nat.eqb_spec j k) as [->|Nk], (Nat.eqb_spec i' i) as [->|Ni]; intros H Hc.
    + auto.
    + apply M1; auto.
    + apply P3; auto. rewrite G. apply W; auto.
    + auto.
  - intros j. rewrite Sem. unfold touch. cbn [w_sems w_gates w_log]. rewrite upd_length, L. intros Hj. specialize (P4 j Hj).
    pose proof (sum_upd (holds j) (w_gates w) i g' None Lt) as Su. unfold gate_at in G. rewrite G in Su.
    destruct (Nat.eqb_spec j k) as [->|Nk].
    + lia.
    + specialize (E2 j Nk). lia.
Qed.

Lemma nodup_swap {A} (l l' : list A) : NoDup (l ++ l') <-> NoDup (l' ++ l).
Proof.
  assert (H : forall a b : list A, NoDup (a ++ b) -> NoDup (b ++ a)).
  { intros a. induction a as [|x a IH]; intros b H; [now rewrite app_nil_r|].
    cbn in H. apply NoDup_cons_iff in H as [Hx H]. apply IH in H.
    apply NoDup_remove_1 with x in H || idtac.
    rewrite in_app_iff in Hx.
    assert (NoDup (x :: b ++ a)) by (constructor; [rewrite in_app_iff; tauto|auto]).
    clear - H0. revert H0. induction b as [|y b IH]; cbn; auto. intros H.
    apply NoDup_cons_iff in H as [H1 H2]. apply NoDup_cons_iff in H2 as [H3 H4]. constructor.
    - rewrite in_app_iff in *. cbn in *. rewrite in_app_iff in *. intuition.
    - apply IH. constructor; auto. intros C. apply H1. now right. }
  split; apply H.
Qed.

Lemma released_ok s : sem_ok s -> sem_ok (released s).
Proof.
  unfold sem_ok, released. destruct s as [f q g c]; cbn [s_queue s_given s_free s_closed].
  destruct q as [|i q]; cbn [s_queue s_given s_free].
  - intros [H _]. split; auto. congruence.
  - intros [H Hf]. split; [|intros _; apply Hf; discriminate].
    cbn in H. apply NoDup_cons_iff in H as [Hi H]. rewrite app_assoc. apply nodup_swap. cbn. now constructor.
Qed.
Lemma released_member s j : member j (released s) <-> member j s.
Proof.
  unfold member, released. destruct s as [f [|i q] g c]; cbn [s_queue s_given]; [reflexivity|].
  rewrite in_app_iff. cbn. intuition.
Qed.
Lemma released_total s : s_free (released s) + length (s_given (released s)) = S (s_free s + length (s_given s)).
Proof. unfold released. destruct s as [f [|i q] g c]; cbn; rewrite ?app_length; cbn; lia. Qed.
Lemma not_ok_twice s i : sem_ok s -> In i (s_given s) -> In i (s_queue s) -> False.
Proof.
  intros [H _] Hg Hq. induction (s_queue s) as [|x q IH]; cbn in *; [auto|].
  apply NoDup_cons_iff in H as [H1 H2]. destruct Hq as [->|Hq]; auto. apply H1. apply in_or_app; auto.
Qed.
Lemma nodup_without i q g : NoDup (q ++ g) -> NoDup (without i q ++ g) /\ NoDup (q ++ without i g) /\ NoDup q /\ NoDup g.
Proof.
  intros H. assert (Hg : NoDup g) by (induction q; cbn in H; auto; apply NoDup_cons_iff in H; tauto).
  repeat apply conj; auto.
  - induction q as [|x q IH]; cbn in *; auto. apply NoDup_cons_iff in H as [H1 H2]. unfold without in *. cbn.
    destruct (negb (x =? i)); cbn; [|now apply IH]. constructor; [|now apply IH]. intros C. apply H1.
    rewrite in_app_iff in *. rewrite filter_In in C. tauto.
  - induction q as [|x q IH]; cbn in *; [now apply without_nodup|]. apply NoDup_cons_iff in H as [H1 H2].
    constructor; [|now apply IH]. intros C. apply H1. rewrite in_app_iff in *. rewrite without_in in C. tauto.
  - induction q as [|x q IH]; cbn in *; [constructor|]. apply NoDup_cons_iff in H as [H1 H2]. constructor; [|now apply IH].
    intros C. apply H1. apply in_or_app; auto.
Qed.
Lemma forgotten_ok i s : sem_ok s -> sem_ok (forgotten i s).
Proof.
  intros [H Hf]. pose proof (nodup_without i _ _ H) as (H1 & H2 & _ & _). unfold forgotten. destruct (mem i (s_given s)).
  - apply released_ok. split; auto.
  - split; auto. cbn. intros N. apply Hf. intros C. rewrite C in N. now apply N.
Qed.
Lemma forgotten_member i s j : sem_ok s -> member j (forgotten i s) <-> member j s /\ j <> i.
Proof.
  intros Ok. unfold forgotten. destruct (mem i (s_given s)) eqn:M.
  - apply mem_iff in M. rewrite released_member. unfold member. cbn. rewrite without_in.
    pose proof (not_ok_twice s i Ok M). split; [|tauto]. intros [?|?]; [|tauto]. split; auto. intros ->. auto.
  - apply mem_false in M. unfold member. cbn. rewrite without_in. split; [|tauto]. intros [?|?]; [tauto|]. split; auto.
    intros ->. auto.
Qed.
Lemma forgotten_total i s : sem_ok s ->
  s_free (forgotten i s) + length (s_given (forgotten i s)) = s_free s + length (s_given s).
Proof.
  intros [H _]. pose proof (nodup_without i _ _ H) as (_ & _ & _ & H1). unfold forgotten. destruct (mem i (s_given s)) eqn:M.
  - rewrite released_total. cbn. apply mem_iff in M. pose proof (without_length i _ H1 M). lia.
  - reflexivity.
Qed.

Lemma waits_none h k : g_acquire h = None -> ~ waits (Some h) k.
Proof. intros H (h' & v & [= <-] & E). congruence. Qed.
Lemma waits_same h h' k : g_acquire h = g_acquire h' -> (waits (Some h) k <-> waits (Some h') k).
Proof. intros H. split; intros (x & v & [= <-] & E); eexists; exists v; (split; [reflexivity|congruence]). Qed.

Lemma touch_same w i g l :
  World (w_state w) (w_version w) (w_sems w) (w_closing w) (upd (w_gates w) i g) l = touch w i g 0 (sem_at w 0) l.
Proof. unfold touch, sem_at. now rewrite upd_same. Qed.
Lemma used_snoc k l e : used k (l ++ [e]) = used k l + match e with Pass _ p => b2n (has k p) | _ => 0 end.
Proof. unfold used. rewrite count_app. f_equal. cbn. destruct e; auto. destruct (has k p); reflexivity. Qed.
Lemma limits_snoc l e : (forall x, e <> Set_ x) -> limits (l ++ [e]) = limits l.
Proof. intros H. rewrite limits_app. destruct e as [x| | | | | | | |]; cbn; rewrite ?app_nil_r; auto. now destruct (H x). Qed.

(** A change that leaves the semaphores alone *)
Lemma keep_permits w i g g' l :
  permits w -> gate_at w i = Some g ->
  (forall k, s_closed (sem_at w k) = false -> (waits g' k <-> waits (Some g) k)) ->
  (forall k, waits (Some g) k -> waits g' k) ->
  limits l = limits (w_log w) ->
  (forall k, holds k g' + used k l = holds k (Some g) + used k (w_log w)) ->
  permits (World (w_state w) (w_version w) (w_sems w) (w_closing w) (upd (w_gates w) i g') l).
Proof.
  intros [P1 P2 P3 P4] G W W' L E. assert (Lt := gate_some _ _ _ G). apply Nat.ltb_lt in Lt as Lb.
  set (w' := World _ _ _ _ _ _).
  assert (Gt : forall j, gate_at w' j = if j =? i then g' else gate_at w j).
  { intros j. unfold gate_at, w'. cbn. rewrite nth_upd, Lb, andb_true_r. reflexivity. }
  split.
  - exact P1.
  - intros k j H. rewrite Gt. apply P2 in H. destruct (Nat.eqb_spec j i); [subst; apply W'; rewrite <- G; auto|auto].
  - intros k j. rewrite Gt. intros H C. change (s_closed (sem_at w k) = false) in C. apply P3; auto.
    destruct (Nat.eqb_spec j i); [|auto]. subst. rewrite G. now apply W.
  - intros k Hk. change (s_free (sem_at w k) + length (s_given (sem_at w k)) + sum (holds k) (upd (w_gates w) i g') + used k l =
      nth k (limits l) 0). rewrite L. specialize (P4 k Hk). specialize (E k).
    pose proof (sum_upd (holds k) (w_gates w) i g' None Lt) as Su. unfold gate_at in G. rewrite G in Su. lia.
Qed.

Lemma closed_permits w k cl l : permits w -> limits l = limits (w_log w) -> (forall j, used j l = used j (w_log w)) ->
  permits (World (w_state w) (w_version w) (upd (w_sems w) k (closed (sem_at w k))) cl (w_gates w) l).
Proof.
  intros [P1 P2 P3 P4] L U. set (w' := World _ _ _ _ _ _).
  assert (Sem : forall j, sem_at w' j = sem_at w j \/ sem_at w' j = closed (sem_at w j)).
  { intros j. unfold sem_at, w'. cbn. rewrite nth_upd. destruct (Nat.eqb_spec j k); [subst|auto].
    destruct (_ <? _); auto. }
  split.
  - intros j. destruct (Sem j) as [-> | ->]; auto. destruct (P1 j) as [H _]. split; cbn; [|congruence].
    now apply (nodup_without 0) in H.
  - intros j i H. apply P2. destruct (Sem j) as [-> | ->] in H; auto. destruct H as [[]|H]. now right.
  - intros j i H C. destruct (Sem j) as [E|E]; rewrite E in *; [|discriminate]. now apply P3.
  - intros j. unfold w' at 1. cbn [w_sems]. rewrite upd_length. intros Hj. specialize (P4 j Hj).
    unfold w' at 3 4 5. cbn [w_gates w_log]. rewrite L, U. destruct (Sem j) as [-> | ->]; auto.
Qed.

Lemma send_permits w x : length (w_sems w) = length (limits (w_log w)) ->
  (forall i g, gate_at w i = Some g -> gate_ok w g) -> (forall k, length (w_sems w) <= k -> used k (w_log w) = 0) ->
  permits w -> permits (send w x).
Proof.
  intros Ln Ok Uz [P1 P2 P3 P4].
  assert (Hs : w_sems (send w x) = w_sems w ++ match x with To_limit n => [Sem n [] [] false] | _ => [] end /\
               w_gates (send w x) = w_gates w /\ limits (w_log (send w x)) = limits (w_log w) ++ limit_of (Set_ x) /\
               forall k, used k (w_log (send w x)) = used k (w_log w)).
  { unfold send. destruct (w_state w), x; cbn [w_sems w_gates w_log]; rewrite ?app_nil_r; repeat apply conj; auto;
      try (rewrite !limits_app; cbn; now rewrite ?app_nil_r); intros k; rewrite !used_snoc; lia. }
  destruct Hs as (Hs & Hg & Hl & Hu).
  assert (Sem : forall k, sem_at (send w x) k = sem_at w k \/
    exists n, x = To_limit n /\ k = length (w_sems w) /\ sem_at (send w x) k = Sem n [] [] false).
  { intros k. unfold sem_at. rewrite Hs. destruct (Nat.lt_trichotomy k (length (w_sems w))) as [L|[L|L]].
    - rewrite app_nth1; auto.
    - subst. rewrite app_nth2, Nat.sub_diag by auto. rewrite (nth_overflow (w_sems w)) by auto. destruct x; eauto.
    - left. rewrite !nth_overflow; auto; try lia. rewrite app_length. destruct x; cbn; lia. }
  split.
  - intros k. destruct (Sem k) as [-> | (n & _ & _ & ->)]; auto. split; cbn; [constructor|congruence].
  - intros k i. unfold gate_at. rewrite Hg. destruct (Sem k) as [-> | (n & _ & _ & ->)]; [apply P2|]. intros [[]|[]].
  - intros k i. unfold gate_at. rewrite Hg. destruct (Sem k) as [-> | (n & _ & -> & ->)]; [apply P3|].
    intros (h & v & Hh & Ha) _. exfalso. apply Ok in Hh. destruct Hh as (Hh & _). specialize (Hh _ Ha). cbn in Hh. lia.
  - intros k. rewrite Hg, Hl, Hu, Hs, app_length. intros Hk. destruct (Nat.lt_ge_cases k (length (w_sems w))) as [L|L].
    + rewrite app_nth1 by lia. destruct (Sem k) as [-> | (n & _ & -> & _)]; [|lia]. auto.
    + destruct x as [|n|]; cbn in Hk; try lia. assert (k = length (w_sems w)) as -> by lia.
      rewrite app_nth2, <- Ln, Nat.sub_diag by lia. destruct (Sem (length (w_sems w))) as [E | (m & [= <-] & _ & E)].
      { exfalso. unfold sem_at in E. rewrite Hs in E. rewrite app_nth2, Nat.sub_diag in E by lia.
        rewrite (nth_overflow (w_sems w)) in E by lia. discriminate. }
      rewrite E. cbn [s_free s_given length nth limit_of]. rewrite Uz by auto.
      assert (Z : sum (holds (length (w_sems w))) (w_gates w) = 0).
      { assert (H : forall i g, nth i (w_gates w) None = Some g -> gate_ok w g) by exact Ok. clear - H.
        induction (w_gates w) as [|g l IH]; auto. cbn. rewrite IH by (intros i; apply (H (S i))).
        destruct g as [g|]; auto. specialize (H 0 g eq_refl) as (_ & _ & H1 & H2). cbn.
        destruct (g_permit g) as [[k|]|].
        - specialize (H2 k eq_refl). cbn. destruct (Nat.eqb_spec k (length (w_sems w))); [lia|].
          destruct (g_pc g) as [| | |[k'|]]; auto. specialize (H1 k' eq_refl). cbn. destruct (Nat.eqb_spec k' (length (w_sems w))); [lia|auto].
        - destruct (g_pc g) as [| | |[k'|]]; auto. specialize (H1 k' eq_refl). cbn. destruct (Nat.eqb_spec k' (length (w_sems w))); [lia|auto].
        - destruct (g_pc g) as [| | |[k'|]]; auto. specialize (H1 k' eq_refl). cbn. destruct (Nat.eqb_spec k' (length (w_sems w))); [lia|auto]. }
      lia.
Qed.

Definition used_old (w : world) : Prop := forall k, length (w_sems w) <= k -> used k (w_log w) = 0.

Record inv (w : world) : Prop := {
  in_log : good_log w; in_state : good_state w; in_permits : permits w; in_used : used_old w
}.

Lemma handle_used w e : good_state w -> used_old w -> used_old (handle w e).
Proof.
  intros G U k.
  assert (L : length (w_sems w) <= length (w_sems (handle w e))).
  { destruct (channel_event e) eqn:He.
    - destruct e as [x|j| | | | |]; try discriminate; cbn [handle]; unfold send, close.
      + destruct (w_state w), x; cbn; rewrite ?app_length; lia.
      + destruct (mem _ _); cbn; rewrite ?upd_length; lia.
    - pose proof (sc_len _ _ (handle_same w e He)). lia. }
  intros Hk. assert (Hk' : length (w_sems w) <= k) by lia. specialize (U k Hk').
  destruct (handle_effect w e) as [Ecl Eg El|es' Eg El Hev Ho|Ecl Eg El|i g g' r Hr Gi Eg El Hp Hg|i g g' e' Hr Gi Eg El Hx]; rewrite El; auto.
  - unfold used in *. rewrite count_app, U. cbn. clear - Ho. induction es' as [|e es IH]; auto.
    pose proof (Ho e (or_introl eq_refl)). unfold count in *. cbn. destruct e; try contradiction; apply IH; intros; apply Ho; now right.
  - rewrite used_snoc, U. destruct e'; auto. destruct Hx as (-> & _ & Hp & _).
    destruct (gs_gates w G _ _ Gi) as (_ & _ & _ & A). destruct p as [k'|]; auto. specialize (A k' Hp). cbn.
    destruct (Nat.eqb_spec k' k); [lia|reflexivity].
Qed.

Ltac solve_waits :=
  repeat match goal with
  | H : waits (Some (Gate _ _ _)) _ |- _ => destruct H as (? & ? & [= <-] & H); cbn [g_acquire] in H
  | H : waits (Some ?g) _, E : g_acquire ?g = _ |- _ => destruct H as (? & ? & [= <-] & H); rewrite E in H
  | H : waits None _ |- _ => destruct H as (? & ? & ? & ?)
  end; try discriminate.

Lemma handle_permits w e : inv w -> permits (handle w e).
Proof.
  intros [GL G P U].
  destruct e as [x|k| |i|i r|i|i]; cbn [handle].
  - apply send_permits; auto; apply G.
  - unfold close. destruct (mem k (w_closing w)); auto. apply closed_permits; auto.
    + now rewrite limits_snoc.
    + intros j. rewrite used_snoc. lia.
  - (* Clone *)
    destruct P as [P1 P2 P3 P4].
    assert (Gt : forall i, gate_at (clone w) i = gate_at w i \/ gate_at w i = None /\ gate_at (clone w) i = Some new_gate).
    { intros i. unfold gate_at, clone. cbn. destruct (Nat.lt_trichotomy i (length (w_gates w))) as [L|[L|L]].
      - rewrite app_nth1; auto.
      - subst. rewrite app_nth2, Nat.sub_diag, (nth_overflow (w_gates w)) by auto. cbn. auto.
      - rewrite !nth_overflow; auto; try lia. rewrite app_length. cbn. lia. }
    split; auto.
    + intros k i H. apply P2 in H. destruct (Gt i) as [-> | [E _]]; auto. rewrite E in H. now destruct H as (? & ? & ? & _).
    + intros k i H C. apply P3; auto. destruct (Gt i) as [E | [_ E]]; rewrite E in H; auto. now apply waits_none in H.
    + intros k Hk. unfold clone. cbn [w_gates w_log]. rewrite sum_app. cbn. specialize (P4 k Hk). unfold sem_at in *. cbn in *. lia.
  - (* Poll *)
    destruct (gate_at w i) as [g|] eqn:Gi; auto. unfold poll. destruct (g_pc g) eqn:Pc; auto.
    pose proof (gs_gates w G i g Gi) as (_ & _ & _ & A4).
    assert (Keep : (forall k, holds k (Some g) = 0) ->
      permits (World (w_state w) (w_version w) (w_sems w) (w_closing w) (upd (w_gates w) i (Some (Gate None (g_acquire g) Entered)))
                 (w_log w ++ [Polled i]))).
    { intros Z. apply (keep_permits w i g); auto.
      - intros k _. now apply waits_same.
      - intros k. now apply waits_same.
      - now apply limits_snoc.
      - intros k. rewrite used_snoc, Z. cbn. lia. }
    destruct (g_permit g) as [[k|]|] eqn:Pm.
    + apply (touch_permits w i g _ k (released (sem_at w k)) (w_log w ++ [Polled i])); auto.
      * apply released_ok, P.
      * intros j _. apply released_member.
      * intros H. apply -> released_member in H. apply P in H. rewrite Gi in H. apply (waits_same g); auto.
      * intros H C. apply <- released_member. apply P; [|now rewrite released_closed in C]. rewrite Gi. apply (waits_same g) in H; auto.
      * now rewrite released_closed.
      * intros k' _. now apply waits_same.
      * now apply limits_snoc.
      * rewrite used_snoc, released_total. cbn. rewrite Pm, Pc. cbn. rewrite Nat.eqb_refl. cbn. lia.
      * intros k' Nk. rewrite used_snoc. cbn. rewrite Pm, Pc. cbn. destruct (Nat.eqb_spec k k'); [congruence|]. cbn. lia.
    + apply Keep. intros k. cbn. now rewrite Pm, Pc.
    + apply Keep. intros k. cbn. now rewrite Pm, Pc.
  - (* Step *)
    destruct (gate_at w i) as [g|] eqn:Gi; auto.
    pose proof (gs_gates w G i g Gi) as (A1 & A2 & A3 & A4).
    pose proof (gl_gates w GL i) as Co. rewrite Gi in Co. cbn in Co.
    assert (Keep : forall g' l, g_permit g = None -> (forall p, g_pc g <> Acquired p) -> (forall k, ~ waits (Some g) k) -> (forall k, ~ waits (Some g') k) ->
      g_permit g' = None -> (forall k, g_pc g' <> Acquired (Some k)) -> (l = w_log w \/ l = w_log w ++ [Pending i]) ->
      permits (World (w_state w) (w_version w) (w_sems w) (w_closing w) (upd (w_gates w) i (Some g')) l)).
    { intros g' l H1 H2 H3 H4 H5 H6 Hl. apply (keep_permits w i g); auto.
      - intros k _. split; intros H; [now apply H4 in H|now apply H3 in H].
      - intros k H. now apply H3 in H.
      - destruct Hl as [-> | ->]; [auto|now apply limits_snoc].
      - intros k. cbn. rewrite H1, H5.
        assert (used k l = used k (w_log w)) as -> by (destruct Hl as [-> | ->]; [auto|rewrite used_snoc; lia]).
        destruct (g_pc g) as [| | |p]; try (now destruct (H2 p)).
        all: destruct (g_pc g') as [| | |[k'|]]; try (now destruct (H6 k')); cbn; lia. }
    assert (Take : forall k, g_permit g = None -> (forall p, g_pc g <> Acquired p) -> (forall k, ~ waits (Some g) k) -> k < length (w_sems w) ->
      can_take (sem_at w k) = true ->
      permits (touch w i (Some (Gate None None (Acquired (Some k)))) k (taken (sem_at w k)) (w_log w))).
    { intros k H1 H2 H3 Lk Ct. unfold can_take in Ct. apply andb_true_iff in Ct as [Cc Cf].
      apply negb_true_iff, Nat.eqb_neq in Cf.
      assert (Nh : forall k', holds k' (Some g) = 0).
      { intros k'. cbn. rewrite H1. destruct (g_pc g) as [| | |p]; auto. now destruct (H2 p). }
      assert (Nw : forall k', ~ waits (Some (Gate None None (Acquired (Some k)))) k') by (intros k' H; solve_waits).
      apply (touch_permits w i g); auto.
      - destruct (pe_ok w P k) as [O1 O2]. split; auto. cbn. intros N. specialize (O2 N). lia.
      - intros j _. reflexivity.
      - intros H. change (member i (sem_at w k)) in H. apply P in H. rewrite Gi in H. now apply H3 in H.
      - intros H. now apply Nw in H.
      - intros k' _. split; intros H; [now apply Nw in H|now apply H3 in H].
      - rewrite Nh. cbn. rewrite Nat.eqb_refl. cbn. lia.
      - intros k' Nk. rewrite Nh. cbn. destruct (Nat.eqb_spec k k'); [congruence|reflexivity]. }
    unfold step. destruct (g_pc g) as [| |k|p] eqn:Pc; auto.
    + destruct Co as [_ Co]. destruct (g_acquire g) as [f|] eqn:Ac.
      * specialize (A1 f eq_refl). unfold poll_future.
        destruct f as [|k v|k v|v]; cbn in A1.
        -- case (w_state w); intros; apply Keep; auto; try discriminate; intros k' H; solve_waits.
        -- destruct (s_closed (sem_at w k)) eqn:C; [apply Keep; auto; try discriminate; intros k' H; solve_waits|].
           destruct (can_take (sem_at w k)) eqn:Ct; [apply Take; auto; try discriminate; [intros k' H; solve_waits|apply A1]|].
           set (s' := Sem (s_free (sem_at w k)) (s_queue (sem_at w k) ++ [i]) (s_given (sem_at w k)) false).
           assert (Nm : ~ member i (sem_at w k)).
           { intros H. apply P in H. rewrite Gi in H. solve_waits. }
           assert (Mi : member i s') by (left; cbn; apply in_or_app; cbn; auto).
           apply (touch_permits w i g (Some (Gate None (Some (Queued k v)) Idle)) k s' (w_log w ++ [Pending i])); auto.
           ++ left. apply A1.
           ++ destruct (pe_ok w P k) as [O1 O2]. split; cbn.
              ** rewrite <- app_assoc. apply nodup_swap. cbn. constructor.
                 --- rewrite in_app_iff. unfold member in Nm. tauto.
                 --- now apply nodup_swap.
              ** intros _. unfold can_take in Ct. rewrite C in Ct. cbn in Ct. apply negb_false_iff, Nat.eqb_eq in Ct. auto.
           ++ intros j Nj. unfold member. cbn. rewrite in_app_iff. cbn. intuition congruence.
           ++ intros _. exists (Gate None (Some (Queued k v)) Idle), v. auto.
           ++ intros k' Nk'. split; intros H; solve_waits. injection H as <- <-. congruence.
           ++ now apply limits_snoc.
           ++ rewrite used_snoc. cbn. rewrite Co, Pc. cbn. lia.
           ++ intros k' _. rewrite used_snoc. cbn. rewrite Co, Pc. cbn. lia.
        -- destruct (s_closed (sem_at w k)) eqn:C.
           ++ apply (touch_permits w i g _ k (forgotten i (sem_at w k)) (w_log w)); auto.
              ** left. apply A1.
              ** apply forgotten_ok, P.
              ** intros j Nj. rewrite forgotten_member by apply P. tauto.
              ** intros H. apply forgotten_member in H as [_ H]; [congruence|apply P].
              ** intros H; solve_waits.
              ** now rewrite forgotten_closed.
              ** intros k' Nk'. split; intros H; solve_waits. injection H as <- <-. congruence.
              ** rewrite forgotten_total by apply P. cbn. rewrite Co, Pc. cbn. lia.
              ** intros k' _. cbn. rewrite Co, Pc. cbn. lia.
           ++ destruct (mem i (s_given (sem_at w k))) eqn:M.
              ** apply mem_iff in M. destruct (pe_ok w P k) as [O1 O2].
                 pose proof (nodup_without i _ _ O1) as (_ & N1 & _ & N2).
                 apply (touch_permits w i g _ k
                   (Sem (s_free (sem_at w k)) (s_queue (sem_at w k)) (without i (s_given (sem_at w k))) false) (w_log w)); auto.
                 --- left. apply A1.
                 --- split; auto.
                 --- intros j Nj. unfold member. cbn. rewrite without_in. tauto.
                 --- intros [H|H]; cbn in H.
                     +++ exfalso. apply (not_ok_twice (sem_at w k) i); auto. now split.
                     +++ apply without_in in H. tauto.
                 --- intros H; solve_waits.
                 --- intros k' Nk'. split; intros H; solve_waits. injection H as <- <-. congruence.
                 --- cbn. rewrite Co, Pc, Nat.eqb_refl. cbn. pose proof (without_length i _ N2 M). lia.
                 --- intros k' Nk'. cbn. rewrite Co, Pc. destruct (Nat.eqb_spec k k'); [congruence|reflexivity].
              ** apply (keep_permits w i g); auto.
                 --- intros k' _. apply waits_same. now rewrite Ac.
                 --- intros k'. apply waits_same. now rewrite Ac.
                 --- now apply limits_snoc.
                 --- intros k'. rewrite used_snoc. cbn. rewrite Co, Pc. cbn. lia.
        -- destruct (v =? w_version w); apply Keep; auto; try discriminate; intros k' H; solve_waits.
      * case (w_state w); intros; apply Keep; auto; try discriminate; intros k' H; solve_waits.
    + destruct Co as (_ & Co & Ac). specialize (A2 k eq_refl). destruct (can_take (sem_at w k)) eqn:Ct.
      * apply Take; auto; try discriminate. intros k' H; solve_waits.
      * apply Keep; auto; try discriminate; intros k' H; solve_waits.
    + destruct Co as (_ & Co & Ac).
      assert (Nw : forall k, ~ waits (Some g) k) by (intros k H; solve_waits).
      assert (Rel : forall e, (e = Pending i \/ e = Failed i) -> permits (log (release (put_gate w i (Some (Gate None None Idle))) p) e)).
      { intros e He. assert (Le : limits (w_log w ++ [e]) = limits (w_log w)) by (apply limits_snoc; destruct He; subst; discriminate).
        assert (Ue : forall k, used k (w_log w ++ [e]) = used k (w_log w)) by (intros k; rewrite used_snoc; destruct He; subst; lia).
        destruct p as [k|].
        - apply (touch_permits w i g _ k (released (sem_at w k)) (w_log w ++ [e])); auto.
          + apply released_ok, P.
          + intros j _. apply released_member.
          + intros H. apply -> released_member in H. apply P in H. rewrite Gi in H. now apply Nw in H.
          + intros H; solve_waits.
          + now rewrite released_closed.
          + intros k' _. split; intros H; [solve_waits|now apply Nw in H].
          + rewrite Ue, released_total. cbn. rewrite Co, Pc. cbn. rewrite Nat.eqb_refl. cbn. lia.
          + intros k' Nk. rewrite Ue. cbn. rewrite Co, Pc. cbn. destruct (Nat.eqb_spec k k'); [congruence|reflexivity].
        - apply (keep_permits w i g); auto.
          + intros k _. split; intros H; [solve_waits|now apply Nw in H].
          + intros k H. now apply Nw in H.
          + intros k. rewrite Ue. cbn. now rewrite Co, Pc. }
      destruct r; [|apply Rel; auto|apply Rel; auto].
      apply (keep_permits w i g); auto.
      * intros k _. split; intros H; [solve_waits|now apply Nw in H].
      * intros k H. now apply Nw in H.
      * now apply limits_snoc.
      * intros k. rewrite used_snoc. cbn. rewrite Co, Pc. cbn. lia.
  - (* Call *)
    destruct (gate_at w i) as [g|] eqn:Gi; auto. unfold call. destruct (g_pc g) eqn:Pc; auto.
    destruct (g_permit g) as [p|] eqn:Pm.
    + apply (keep_permits w i g); auto.
      * intros k _. now apply waits_same.
      * intros k. now apply waits_same.
      * now apply limits_snoc.
      * intros k. rewrite used_snoc. cbn. rewrite Pm, Pc. cbn. lia.
    + assert (E : upd (w_gates w) i (Some g) = w_gates w) by (unfold gate_at in Gi; rewrite <- Gi; apply upd_same).
      unfold log. rewrite <- E. apply (keep_permits w i g); auto.
      * intros k _. now apply waits_same.
      * now apply limits_snoc.
      * intros k. rewrite used_snoc. lia.
  - (* Drop *)
    destruct (gate_at w i) as [g|] eqn:Gi; auto. unfold drop. destruct (g_pc g) eqn:Pc; auto.
    pose proof (gl_gates w GL i) as Co. rewrite Gi in Co. cbn in Co. rewrite Pc in Co.
    pose proof (gs_gates w G i g Gi) as (A1 & A2 & A3 & A4).
    assert (Le : limits (w_log w ++ [Dropped i]) = limits (w_log w)) by (apply limits_snoc; discriminate).
    assert (Ue : forall k, used k (w_log w ++ [Dropped i]) = used k (w_log w)) by (intros k; rewrite used_snoc; lia).
    assert (Keep : (forall k, ~ waits (Some g) k) -> (forall k, holds k (Some g) = 0) ->
      permits (World (w_state w) (w_version w) (w_sems w) (w_closing w) (upd (w_gates w) i None) (w_log w ++ [Dropped i]))).
    { intros Nw Z. apply (keep_permits w i g); auto.
      - intros k _. split; intros H; [solve_waits|now apply Nw in H].
      - intros k H. now apply Nw in H. }
    destruct (g_permit g) as [p|] eqn:Pm.
    + destruct Co as [_ Ac]. rewrite Ac.
      assert (Nw : forall k, ~ waits (Some g) k) by (intros k H; solve_waits).
      destruct p as [k|]; [|apply Keep; auto; intros k; cbn; now rewrite Pm, Pc].
      apply (touch_permits w i g None k (released (sem_at w k)) (w_log w ++ [Dropped i])); auto.
      * apply released_ok, P.
      * intros j _. apply released_member.
      * intros H. apply -> released_member in H. apply P in H. rewrite Gi in H. now apply Nw in H.
      * intros H; solve_waits.
      * now rewrite released_closed.
      * intros k' _. split; intros H; [solve_waits|now apply Nw in H].
      * rewrite Ue, released_total. cbn. rewrite Pm, Pc. cbn. rewrite Nat.eqb_refl. cbn. lia.
      * intros k' Nk. rewrite Ue. cbn. rewrite Pm, Pc. cbn. destruct (Nat.eqb_spec k k'); [congruence|reflexivity].
    + assert (Z : forall k, holds k (Some g) = 0) by (intros k; cbn; now rewrite Pm, Pc).
      destruct (g_acquire g) as [[|k v|k v|v]|] eqn:Ac;
        try (apply Keep; auto; intros k' H; solve_waits; fail).
      apply (touch_permits w i g None k (forgotten i (sem_at w k)) (w_log w ++ [Dropped i])); auto.
      * left. apply (A1 _ eq_refl).
      * apply forgotten_ok, P.
      * intros j Nj. rewrite forgotten_member by apply P. tauto.
      * intros H. apply forgotten_member in H as [_ H]; [congruence|apply P].
      * intros H; solve_waits.
      * now rewrite forgotten_closed.
      * intros k' Nk'. split; intros H; solve_waits. injection H as <- <-. congruence.
      * rewrite forgotten_total, Ue, Z by apply P. cbn. lia.
Qed.

Lemma inv_run es : inv (run es).
Proof.
  assert (H : forall es, good_log (run es)) by exact good_log_run.
  induction es as [|e es IH] using rev_ind.
  - split; auto.
    + split; cbn; auto; try lia.
      * intros k; discriminate.
      * split; [constructor|intros k []].
      * intros [|[|i]] g; cbn; intros [= <-]. apply gate_ok_none; [discriminate|auto].
    + split; cbn.
      * intros [|k]; split; cbn; try constructor; congruence.
      * intros [|k] i [[]|[]].
      * intros k i (h & v & E & A). destruct i as [|[|i]]; cbn in E; try discriminate. injection E as <-. discriminate.
      * lia.
    + intros k _. reflexivity.
  - split; rewrite ?run_snoc; auto.
    + rewrite <- run_snoc. apply H.
    + now apply handle_good_state, in_state.
    + now apply handle_permits.
    + apply handle_used; apply IH.
Qed.
