(** Proofs about failure accrual. *)
From Coq Require Import List NArith ZArith QArith Bool Lia.
From Verif Require BackoffModel EnvModel.
From Verif Require Import BreakerModel BreakerSpec BreakerProofs BreakerKindProofs BackoffProofs ClientPolicyModel ClientPolicySpec ClientPolicyProofs ClientPolicyThresholdProofs.
From Verif Require Import AccrualModel AccrualSpec.
Import ListNotations.
Open Scope N_scope.

Lemma accrual_field L export pb m p b two a : try_from L export pb = Some (ClientPolicy m p b) -> accrual_of p two = Some a ->
  optionally accrual_says (field pb two) a.
Proof.
  intros T A. destruct (proj1 (policy_iff L export pb m p) (ex_intro _ b T)) as (_ & k & K & S). unfold field. rewrite K.
  destruct k as [timeout h1 h2 o|h|h|g|o|t]; destruct p as [t' h1' h2' o'|h'|h'|g'|o'|t'']; cbn [protocol_says] in S; try contradiction; cbn [accrual_of] in A; try discriminate; injection A as <-.
  - destruct S as (_ & (x1 & E1 & _ & A1) & (x2 & E2 & _ & A2) & _). subst h1 h2. destruct two; assumption.
  - exact (proj2 S).
  - exact (proj2 S).
  - exact (proj2 S).
Qed.
Lemma plain_valid pb b d : backoff_says pb b -> pbo_max pb = Some d -> in_range d -> valid (plain b).
Proof.
  intros (_ & (x & E & MX) & LE & P & _) D R. rewrite E in D. injection D as ->. unfold valid, plain. cbn [BackoffModel.bo_min BackoffModel.bo_max]. split; [exact LE|]. split; [exact P|].
  unfold duration_says in MX. unfold in_range in R. unfold BackoffModel.dur_max, BackoffModel.sec. destruct d as [s n]. cbn [fst snd] in *. lia.
Qed.
Theorem consecutive_says L export pb policy two a n bo d : try_from L export pb = Some policy -> accrual_of (cp_protocol policy) two = Some a ->
  field pb two = Some (Some (Pb_consecutive n (Some bo))) -> pbo_max bo = Some d -> in_range d ->
  exists min max, required duration_says (pbo_min bo) min /\ required duration_says (pbo_max bo) max /\
    forall instant_max capacity t0 es, clock t0 es -> exists s,
      history (trips_consecutive n) recovers_consecutive (pause min max) (fst (endpoint a instant_max capacity t0 es)) s /\
      snd (endpoint a instant_max capacity t0 es) = gate_of s.
Proof.
  intros T A F D R. destruct policy as [m p b]. pose proof (accrual_field _ _ _ _ _ _ _ _ T A) as S. rewrite F in S. destruct a as [a|]; [|destruct S]. cbn [optionally] in S.
  destruct a as [n' bo'|]; cbn [accrual_says] in S; [|contradiction]. destruct S as (<- & x & X & S). injection X as <-.
  pose proof (plain_valid _ _ _ S D R) as V. destruct S as (MN & MX & _). exists (EnvModel.bo_min bo'), (EnvModel.bo_max bo'). split; [exact MN|]. split; [exact MX|].
  intros im cap t0 es C. unfold endpoint. cbn [breaker fst snd]. exact (consecutive_history im (plain bo') cap n t0 es V C).
Qed.
Theorem unified_says L export pb policy two a x decay m n bo d : try_from L export pb = Some policy -> accrual_of (cp_protocol policy) two = Some a ->
  field pb two = Some (Some (Pb_unified x decay m n (Some bo))) -> pbo_max bo = Some d -> in_range d -> n < 2 ^ 32 ->
  exists min max window, required duration_says (pbo_min bo) min /\ required duration_says (pbo_max bo) max /\ defaulting duration_says 10000000000 decay window /\
    forall instant_max capacity t0 es, clock t0 es -> exists s,
      history (trips_unified n (from_fraction x) window m) recovers_unified (pause min max) (fst (endpoint a instant_max capacity t0 es)) s /\
      snd (endpoint a instant_max capacity t0 es) = gate_of s.
Proof.
  intros T A F D R LT. destruct policy as [me p b]. pose proof (accrual_field _ _ _ _ _ _ _ _ T A) as S. rewrite F in S. destruct a as [a|]; [|destruct S]. cbn [optionally] in S.
  destruct a as [|t w m' n' bo']; cbn [accrual_says] in S; [contradiction|]. destruct S as (_ & _ & -> & W & _ & <- & _ & <- & y & Y & S). injection Y as <-.
  pose proof (plain_valid _ _ _ S D R) as V. destruct S as (MN & MX & _). exists (EnvModel.bo_min bo'), (EnvModel.bo_max bo'), w. split; [exact MN|]. split; [exact MX|]. split; [exact W|].
  intros im cap t0 es C. unfold endpoint. cbn [breaker fst snd].
  assert (LE : n <= 18446744073709551615) by (change (2 ^ 32) with 4294967296 in LT; lia).
  exact (unified_history n (from_fraction x) w m LE (threshold_range x) im (plain bo') cap t0 es V C).
Qed.
(** The jitter of a backoff *)
Lemma plain_jitter b q : EnvModel.bo_jitter b = EnvModel.Fin q -> 0 < EnvModel.bo_max b ->
  ((forall base secs nanos, BackoffModel.jitter (plain b) base secs nanos = Some 0) <-> (q == 0)%Q).
Proof.
  intros E P. unfold BackoffModel.jitter, plain. cbn [BackoffModel.bo_jitter BackoffModel.bo_max]. rewrite E. destruct (Qeq_bool q 0) eqn:Z; cbn [negb].
  - apply Qeq_bool_iff in Z. split; [intros _; exact Z|reflexivity].
  - split.
    + intros H. specialize (H 0 0 1). change (BackoffModel.duration_new 0 1) with (Some 1) in H. injection H. lia.
    + intros H. apply Qeq_bool_iff in H. congruence.
Qed.
Theorem jitter_says L export pb policy two a bo : try_from L export pb = Some policy -> accrual_of (cp_protocol policy) two = Some a ->
  (exists n, field pb two = Some (Some (Pb_consecutive n (Some bo)))) \/
  (exists x decay m n, field pb two = Some (Some (Pb_unified x decay m n (Some bo)))) ->
  exists q k b, pbo_jitter bo = EnvModel.Fin q /\ breaker a = Some (k, b) /\
    ((forall base secs nanos, BackoffModel.jitter b base secs nanos = Some 0) <-> (q == 0)%Q).
Proof.
  intros T A F. destruct policy as [m p b]. pose proof (accrual_field _ _ _ _ _ _ _ _ T A) as S.
  assert (X : exists bo' k, backoff_says bo bo' /\ breaker a = Some (k, plain bo')).
  { destruct F as [(n & F)|(x & dec & mm & n & F)]; rewrite F in S; (destruct a as [a|]; [|destruct S]); cbn [optionally] in S.
    - destruct a as [n' bo'|t w m' n' bo']; cbn [accrual_says] in S; [|contradiction]. destruct S as (_ & y & Y & S). injection Y as <-.
      exists bo'. eexists. split; [exact S|reflexivity].
    - destruct a as [n' bo'|t w m' n' bo']; cbn [accrual_says] in S; [contradiction|]. destruct S as (_ & _ & _ & _ & _ & _ & _ & _ & y & Y & S). injection Y as <-.
      exists bo'. eexists. split; [exact S|reflexivity]. }
  destruct X as (bo' & k & (_ & _ & _ & P & J & q & Q & _) & B). exists q, k, (plain bo'). split; [exact Q|]. split; [exact B|].
  apply plain_jitter; [now rewrite J|exact P].
Qed.
(** Without a task *)
Lemma open_for_ever im bo cap : forall es (w : world (consecutive 0)), w_gate w = Open -> w_phase w = Returned ->
  passed (w_log (fold_left (step im bo cap (consecutive 0)) es w)) = (passed (w_log w) + sends es)%nat /\ w_gate (fold_left (step im bo cap (consecutive 0)) es w) = Open.
Proof.
  intros es. induction es as [|e es IH]; intros w G P; cbn [fold_left]; [split; [unfold sends; cbn; lia|exact G]|].
  assert (X : w_gate (step im bo cap _ w e) = Open /\ w_phase (step im bo cap _ w e) = Returned /\ passed (w_log (step im bo cap _ w e)) = (passed (w_log w) + sends [e])%nat).
  { destruct e as [|id c|id|i f|]; cbn [step].
    - unfold send. rewrite G. cbn [w_gate w_phase w_log]. split; [reflexivity|]. split; [exact P|]. unfold passed, sends. rewrite filter_app, app_length. reflexivity.
    - unfold respond. destruct (mem id (w_flight w)); [destruct (Nat.ltb (length (w_queue w)) cap)|]; cbn [w_gate w_phase w_log]; (split; [exact G|split; [exact P|]]); unfold passed, sends; rewrite ?filter_app, ?app_length; cbn; lia.
    - unfold cancel. destruct (mem id (w_flight w)); cbn [w_gate w_phase w_log]; (split; [exact G|split; [exact P|]]); unfold passed, sends; rewrite ?filter_app, ?app_length; cbn; lia.
    - unfold run_task, timer, take, arm. rewrite P. destruct (f || _); rewrite ?P; destruct (w_queue w) as [|[id c] q]; (split; [exact G|split; [exact P|]]); unfold sends; cbn; lia.
    - cbn [w_gate w_phase w_log]. split; [exact G|]. split; [reflexivity|]. unfold sends. cbn. lia. }
  destruct X as (G' & P' & N'). destruct (IH _ G' P') as [A B]. split; [|exact B]. rewrite A, N'. unfold sends. cbn [filter]. destruct e; cbn [length]; lia.
Qed.
Theorem none_says im cap t0 es : passed (fst (endpoint None im cap t0 es)) = sends es /\ snd (endpoint None im cap t0 es) = Open.
Proof. unfold endpoint. cbn [breaker fst snd]. unfold run. cbn [fold_left]. apply (open_for_ever im _ cap es (step im _ cap (consecutive 0) (start (consecutive 0) t0) Lost)); reflexivity. Qed.
Theorem absent_says L timeout export pb two a : accrual_of (cp_protocol (received L timeout export pb)) two = Some a ->
  field pb two = None \/ try_from L export pb = None -> forall im cap t0 es, passed (fst (endpoint a im cap t0 es)) = sends es /\ snd (endpoint a im cap t0 es) = Open.
Proof.
  intros A F im cap t0 es. assert (E : a = None).
  { unfold received in A. destruct (try_from L export pb) as [[m p b]|] eqn:T.
    - destruct F as [F|F]; [|discriminate]. pose proof (accrual_field _ _ _ _ _ _ _ _ T A) as S. rewrite F in S. destruct a; [destruct S|reflexivity].
    - cbn in A. destruct two; congruence. }
  subst a. apply none_says.
Qed.
