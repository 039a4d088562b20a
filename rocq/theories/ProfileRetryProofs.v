From Coq Require Import String List Arith NArith ZArith Bool Lia ZifyBool ZifyNat ZifyN.
From Verif Require Import Bytes BytesProofs FilterModel TraceModel ReplayModel ReplaySpec ReplayProofs PeekModel RetryModel RetrySpec RetryProofs ProfileRetryModel ProfileRetrySpec.
From Verif Require BreakerModel ClassifyModel ClassifySpec ClassifyProofs ProfileModel.
Import ListNotations.
Open Scope nat_scope.

Lemma failed_iff cs hs r : is_failure cs hs r = true <-> failed cs hs r.
Proof.
  unfold is_failure, failed. change (match cs with [] => ClassifyModel.Default | _ => ClassifyModel.Profile cs end) with (request_from cs).
  pose proof (ClassifyProofs.classify_effective (request_from cs) hs) as E.
  pose proof (ClassifyProofs.class_correct (ClassifyModel.classify (request_from cs) hs) (rs_status r) (rs_headers r) (peek_trailers (rs_body r))) as C.
  split.
  - intro H. do 2 eexists. split; [exact E|]. split; [exact C|exact H].
  - intros (c & cl & E' & C' & F).
    assert (c = ClassifyModel.classify (request_from cs) hs) as ->.
    { destruct (request_from cs); cbn [ClassifySpec.effective] in E, E';
        [destruct E as [[A ->]|[A ->]]; destruct E' as [[B ->]|[B ->]]; tauto|congruence|congruence|
         destruct E as [[A ->]|[A ->]]; destruct E' as [[B ->]|[B ->]]; tauto]. }
    rewrite (ClassifyProofs.class_of_fun _ _ _ _ _ _ C C'). exact F.
Qed.

Definition failing (cs : list ClassifyModel.rclass) (hs : headers) (o : outcome) : bool :=
  match o with Ok r => is_failure cs hs r | Err _ => false end.

Lemma retryable_iff cs w q o : retryable cs w q o = true <-> to_retry cs (q_headers q) w (q_body q) o.
Proof.
  unfold retryable, to_retry. destruct o as [r|e].
  - destruct (is_capped w (q_body q)) as [[|]|].
    + split; [discriminate|intros [X _]; discriminate].
    + rewrite failed_iff. split; [intro F; split; [reflexivity|eauto]|]. intros (_ & r' & E & F). inversion E; subst. exact F.
    + split; [discriminate|intros [X _]; discriminate].
  - split; [discriminate|]. intros (_ & r & E & _). discriminate.
Qed.

Definition env_of (ts : list turn) (k : nat) : RetryModel.turn :=
  match nth_error ts k with
  | Some t => RetryModel.Turn (if t_grant t then match t_ready t with None => Ready | Some e => ReadyErr e end else NotReady) (t_ops t) (t_outcome t)
  | None => RetryModel.Turn NotReady [] (Err [])
  end.

Lemma again_same cs hs : forall ts all k w q last, (forall i, env_of all (k + i) = env_of ts i) -> q_headers q = hs ->
  d_attempts (again cs ts w q last) = RetryModel.d_attempts (RetryModel.retries (failing cs hs) clone_ext (length ts) (env_of all) k w q last) /\
  d_world (again cs ts w q last) = RetryModel.d_world (RetryModel.retries (failing cs hs) clone_ext (length ts) (env_of all) k w q last).
Proof.
  induction ts as [|t ts IH]; intros all k w q last E H; cbn [again RetryModel.retries length]; [split; reflexivity|].
  pose proof (E 0) as E0. rewrite Nat.add_0_r in E0. rewrite E0. unfold env_of at 1 4. cbn [nth_error RetryModel.t_ready].
  destruct (t_grant t); cbn [negb]; [|split; reflexivity].
  destruct (t_ready t) as [e|]; [split; reflexivity|].
  change (clone_request w q) with (mk_backup clone_ext w q).
  destruct (mk_backup clone_ext w q) as [w1 q1] eqn:B.
  assert (SR : RetryModel.send_req w1 q (env_of (t :: ts) 0) = send_req w1 q t) by reflexivity.
  rewrite SR. destruct (send_req w1 q t) as [w2 a].
  cbn [account_for add_attempt RetryModel.count RetryModel.add_attempt d_attempts d_world RetryModel.d_attempts RetryModel.d_world].
  assert (HQ : q_headers q1 = hs) by (unfold mk_backup in B; injection B as _ <-; exact H).
  assert (RT : retryable cs w2 q1 (at_outcome a) = failing cs hs (at_outcome a) && negb (not_replayable w2 q1)).
  { unfold retryable, failing, not_replayable. rewrite HQ. destruct (at_outcome a) as [r|e]; [|reflexivity].
    destruct (is_capped w2 (q_body q1)) as [[|]|]; cbn [negb]; rewrite ?andb_false_r, ?andb_true_r; reflexivity. }
  rewrite RT. destruct (failing cs hs (at_outcome a)); cbn [andb negb]; [|split; reflexivity].
  destruct (not_replayable w2 q1); cbn [negb]; [split; reflexivity|].
  destruct (IH all (S k) w2 q1 (at_outcome a)) as [A W]; [|exact HQ|rewrite A, W; split; reflexivity].
  intro i. specialize (E (S i)). rewrite Nat.add_succ_r in E. rewrite Nat.add_succ_l, E. reflexivity.
Qed.

Lemma call_same cs t ts w q :
  d_attempts (call_retry cs (t :: ts) w q) =
    RetryModel.d_attempts (send_req_with_retries (failing cs (q_headers q)) clone_ext (length ts) (env_of (t :: ts)) w q) /\
  d_world (call_retry cs (t :: ts) w q) =
    RetryModel.d_world (send_req_with_retries (failing cs (q_headers q)) clone_ext (length ts) (env_of (t :: ts)) w q).
Proof.
  cbn [call_retry]. unfold send_req_with_retries.
  change (clone_request w q) with (mk_backup clone_ext w q).
  destruct (mk_backup clone_ext w q) as [w1 q1] eqn:B.
  assert (SR : RetryModel.send_req w1 q (env_of (t :: ts) 0) = send_req w1 q t) by reflexivity.
  rewrite SR. destruct (send_req w1 q t) as [w2 a].
  cbn [account_for add_attempt RetryModel.count RetryModel.add_attempt d_attempts d_world RetryModel.d_attempts RetryModel.d_world].
  assert (HQ : q_headers q1 = q_headers q) by (unfold mk_backup in B; injection B as _ <-; reflexivity).
  assert (RT : retryable cs w2 q1 (at_outcome a) = failing cs (q_headers q) (at_outcome a) && negb (not_replayable w2 q1)).
  { unfold retryable, failing, not_replayable. rewrite HQ. destruct (at_outcome a) as [r|e]; [|reflexivity].
    destruct (is_capped w2 (q_body q1)) as [[|]|]; cbn [negb]; rewrite ?andb_false_r, ?andb_true_r; reflexivity. }
  rewrite RT. destruct (failing cs (q_headers q) (at_outcome a)); cbn [andb negb]; [|split; reflexivity].
  destruct (not_replayable w2 q1); cbn [negb]; [split; reflexivity|].
  destruct (again_same cs (q_headers q) ts (t :: ts) 1 w2 q1 (at_outcome a)) as [A W]; [|exact HQ|rewrite A, W; split; reflexivity].
  intro i. reflexivity.
Qed.

(** ** The budget *)

Lemma last_cons a l : last_answer (a :: l) = Some (match last_answer l with Some o => o | None => at_outcome a end).
Proof. unfold last_answer. cbn [rev]. destruct (rev l); reflexivity. Qed.

Lemma send_out w q t w' a : send_req w q t = (w', a) -> at_outcome a = t_outcome t.
Proof. unfold send_req. destruct (run w _). intro H. inversion H; subst. reflexivity. Qed.

Definition last_of (l : list attempt) (o : outcome) : outcome := match last_answer l with Some o => o | None => o end.

(** As [ending], after an answer that is to be retried *)
Inductive over (cs : list ClassifyModel.rclass) (hs : headers) (k : nat) (last : outcome) (d : done) : list account -> Prop :=
| O_going : d_outcome d = None -> over cs hs k last d []
| O_answered : forall o, d_outcome d = Some o -> o = last_of (d_attempts d) last ->
    ~ to_retry cs hs (d_world d) (k + length (d_attempts d)) o -> d_attempts d <> [] -> over cs hs k last d [Deposit]
| O_refused : forall o, d_outcome d = Some o -> o = last_of (d_attempts d) last ->
    to_retry cs hs (d_world d) (k + length (d_attempts d)) o -> over cs hs k last d [Withdraw false]
| O_unready : forall e, d_outcome d = Some (Err e) ->
    to_retry cs hs (d_world d) (k + length (d_attempts d)) (last_of (d_attempts d) last) -> over cs hs k last d [Withdraw true].

Lemma again_over cs hs : forall ts w q last, fresh w (q_body q) -> q_headers q = hs -> to_retry cs hs w (q_body q) last ->
  exists e, d_budget (again cs ts w q last) = repeat (Withdraw true) (length (d_attempts (again cs ts w q last))) ++ e /\
  over cs hs (q_body q) last (again cs ts w q last) e.
Proof.
  induction ts as [|t ts IH]; intros w q last F H R; cbn [again].
  - exists []. split; [reflexivity|]. constructor. reflexivity.
  - destruct (t_grant t); cbn [negb].
    2: { eexists. split; [reflexivity|]. eapply O_refused; [reflexivity|reflexivity|]. cbn. rewrite Nat.add_0_r. exact R. }
    destruct (t_ready t) as [e|].
    { exists [Withdraw true]. split; [reflexivity|]. eapply O_unready; [reflexivity|]. cbn. rewrite Nat.add_0_r. exact R. }
    change (clone_request w q) with (mk_backup clone_ext w q).
    destruct (mk_backup clone_ext w q) as [w1 q1] eqn:B.
    destruct (mk_backup_fresh _ _ _ _ _ F B) as (F1 & Q1 & _ & _ & _ & _ & H1 & _).
    destruct (send_req w1 q t) as [w2 a] eqn:S1.
    assert (L : (S (q_body q) < length (w_handles w1))%nat) by (destruct F1 as [L _]; lia).
    destruct (send_fresh w1 q (RetryModel.Turn Ready (t_ops t) (t_outcome t)) w2 a L (q_body q1) Q1 F1 S1) as (F2 & _ & _ & _ & _).
    destruct (retryable cs w2 q1 (at_outcome a)) eqn:RT.
    + apply retryable_iff in RT. rewrite H1, H in RT. rewrite H in H1.
      destruct (IH w2 q1 (at_outcome a) F2 H1 RT) as (e & E & O).
      exists e. cbn [account_for add_attempt d_attempts d_budget length repeat app]. split; [rewrite E; reflexivity|].
      assert (LO : forall l, last_of (a :: l) last = last_of l (at_outcome a)) by (intro l; unfold last_of; rewrite last_cons; destruct (last_answer l); reflexivity).
      inversion O; subst; cbn [account_for add_attempt d_attempts d_budget d_outcome d_world length] in *.
      * constructor. assumption.
      * eapply O_answered; cbn [account_for add_attempt d_attempts d_outcome d_world length]; [eassumption|rewrite LO; reflexivity| |discriminate].
        rewrite Q1 in *. rewrite Nat.add_succ_r, <- Nat.add_succ_l. assumption.
      * eapply O_refused; cbn [account_for add_attempt d_attempts d_outcome d_world length]; [eassumption|rewrite LO; reflexivity|].
        rewrite Q1 in *. rewrite Nat.add_succ_r, <- Nat.add_succ_l. assumption.
      * eapply O_unready; cbn [account_for add_attempt d_attempts d_outcome d_world length]; [eassumption|].
        rewrite LO. rewrite Q1 in *. rewrite Nat.add_succ_r, <- Nat.add_succ_l. assumption.
    + exists [Deposit]. cbn [account_for add_attempt d_attempts d_budget length repeat app]. split; [reflexivity|].
      eapply O_answered; cbn [account_for add_attempt d_attempts d_outcome d_world length]; [reflexivity|reflexivity| |discriminate].
      rewrite Nat.add_1_r, <- Q1, <- H, <- H1. intro X. apply retryable_iff in X. congruence.
Qed.

Lemma init_fresh b limit : fresh (init b limit) 0.
Proof. split; [reflexivity|]. eexists. reflexivity. Qed.

Theorem budget_used : forall cs t ts b limit q, q_body q = 0 ->
  let d := call_retry cs (t :: ts) (init b limit) q in
  exists e, d_budget d = repeat (Withdraw true) (length (d_attempts d) - 1) ++ e /\ ending cs (q_headers q) d e.
Proof.
  intros cs t ts b limit q Q0 d. subst d. cbn [call_retry].
  assert (F : fresh (init b limit) (q_body q)) by (rewrite Q0; apply init_fresh).
  change (clone_request (init b limit) q) with (mk_backup clone_ext (init b limit) q).
  destruct (mk_backup clone_ext (init b limit) q) as [w1 q1] eqn:B.
  destruct (mk_backup_fresh _ _ _ _ _ F B) as (F1 & Q1 & _ & _ & _ & _ & H1 & _).
  destruct (send_req w1 q t) as [w2 a] eqn:S1.
  assert (L : (S (q_body q) < length (w_handles w1))%nat) by (destruct F1 as [L _]; lia).
  destruct (send_fresh w1 q (RetryModel.Turn Ready (t_ops t) (t_outcome t)) w2 a L (q_body q1) Q1 F1 S1) as (F2 & _ & _ & _ & _).
  rewrite Q0 in Q1.
  destruct (retryable cs w2 q1 (at_outcome a)) eqn:RT.
  - apply retryable_iff in RT. rewrite H1 in RT.
    destruct (again_over cs (q_headers q) ts w2 q1 (at_outcome a) F2 H1 RT) as (e & E & O). exists e.
    cbn [add_attempt d_attempts d_budget length]. rewrite Nat.sub_succ, Nat.sub_0_r. split; [exact E|].
    assert (LA : last_answer (a :: d_attempts (again cs ts w2 q1 (at_outcome a))) = Some (last_of (d_attempts (again cs ts w2 q1 (at_outcome a))) (at_outcome a)))
      by (rewrite last_cons; reflexivity).
    rewrite Q1 in O. inversion O; subst; cbn [add_attempt d_attempts d_budget d_outcome d_world length Nat.add] in *.
    + apply Going. assumption.
    + eapply Answered; cbn [add_attempt d_attempts d_outcome d_world length]; eassumption.
    + eapply Refused; cbn [add_attempt d_attempts d_outcome d_world length]; eassumption.
    + eapply Unready; cbn [add_attempt d_attempts d_outcome d_world length]; eassumption.
  - exists [Deposit]. split; [reflexivity|].
    eapply Answered; [reflexivity|reflexivity|]. cbn [add_attempt d_attempts d_world length].
    rewrite <- Q1, <- H1. intro X. apply retryable_iff in X. congruence.
Qed.

Lemma granted_repeat n l : granted (repeat (Withdraw true) n ++ l) = n + granted l.
Proof. unfold granted. induction n; cbn; [reflexivity|]. rewrite IHn. reflexivity. Qed.
Lemma deposits_repeat n l : deposits (repeat (Withdraw true) n ++ l) = deposits l.
Proof. unfold deposits. induction n; cbn; auto. Qed.

Theorem bounded : forall ds reserve gain cost,
  (forall d, In d ds -> exists cs t ts b limit q, q_body q = 0 /\ d = call_retry cs (t :: ts) (init b limit) q) ->
  sum (fun d => granted (d_budget d)) ds * cost <= reserve + sum (fun d => deposits (d_budget d)) ds * gain ->
  (sum (fun d => length (d_attempts d)) ds - length ds) * cost <= reserve + length ds * gain.
Proof.
  intros ds reserve gain cost H B.
  assert (X : sum (fun d => length (d_attempts d)) ds <= length ds + sum (fun d => granted (d_budget d)) ds /\
    sum (fun d => deposits (d_budget d)) ds <= length ds).
  { clear B. induction ds as [|d ds IH]; cbn [sum fold_right length]; [split; lia|].
    assert (A : length (d_attempts d) <= 1 + granted (d_budget d) /\ deposits (d_budget d) <= 1).
    { destruct (H d (or_introl eq_refl)) as (cs & t & ts & b & limit & q & Q & ->).
      destruct (budget_used cs t ts b limit q Q) as (e & E & O). rewrite E, granted_repeat, deposits_repeat.
      split; [lia|]. inversion O; subst; cbn; lia. }
    destruct IH as [I1 I2]; [intros x I; apply H; right; exact I|].
    change (fold_right (fun d n => length (d_attempts d) + n) 0 ds) with (sum (fun d => length (d_attempts d)) ds).
    change (fold_right (fun d n => granted (d_budget d) + n) 0 ds) with (sum (fun d => granted (d_budget d)) ds).
    change (fold_right (fun d n => deposits (d_budget d) + n) 0 ds) with (sum (fun d => deposits (d_budget d)) ds). lia. }
  destruct X as [X1 X2].
  assert (Y : (sum (fun d => length (d_attempts d)) ds - length ds) * cost <= sum (fun d => granted (d_budget d)) ds * cost) by (apply Nat.mul_le_mono_r; lia).
  assert (Z : sum (fun d => deposits (d_budget d)) ds * gain <= length ds * gain) by (apply Nat.mul_le_mono_r; lia). lia.
Qed.

(** ** The attempts *)

Theorem only_failures : forall cs t ts b limit q, q_body q = 0 ->
  let l := d_attempts (call_retry cs (t :: ts) (init b limit) q) in
  (1 <= length l) /\
  (forall i a, nth_error l i = Some a -> exists t', nth_error (t :: ts) i = Some t' /\ at_outcome a = t_outcome t') /\
  (forall i a, nth_error l i = Some a -> S i < length l -> exists r, at_outcome a = Ok r /\ failed cs (q_headers q) r) /\
  (forall i, 0 < i < length l -> exists t', nth_error (t :: ts) i = Some t' /\ t_grant t' = true /\ t_ready t' = None).
Proof.
  intros cs t ts b limit q Q0 l. subst l. rewrite (proj1 (call_same cs t ts (init b limit) q)).
  set (d := send_req_with_retries _ _ _ _ _ _).
  pose proof (at_most (failing cs (q_headers q)) clone_ext (length ts) (env_of (t :: ts)) b limit q Q0) as M. fold d in M.
  assert (NT : forall i, i < length (RetryModel.d_attempts d) -> exists t', nth_error (t :: ts) i = Some t').
  { intros i I. destruct (nth_error (t :: ts) i) eqn:E; [eauto|]. apply nth_error_None in E. cbn [length] in E. lia. }
  split; [lia|]. split; [|split].
  - intros i a A. assert (I : i < length (RetryModel.d_attempts d)) by (apply nth_error_Some; congruence).
    destruct (NT i I) as [t' T]. exists t'. split; [exact T|].
    rewrite (outcomes _ _ _ _ _ _ _ Q0 i a A). unfold env_of. rewrite T. reflexivity.
  - intros i a A I. pose proof (only_retryable _ _ _ _ _ _ _ Q0 i a A I) as R. unfold failing in R.
    destruct (at_outcome a) as [r|e]; [|discriminate]. exists r. split; [reflexivity|]. apply failed_iff. exact R.
  - intros i I. destruct (NT i) as [t' T]; [lia|]. exists t'. split; [exact T|].
    destruct (whole (failing cs (q_headers q)) clone_ext (length ts) (env_of (t :: ts)) b limit q Q0) as (m & W & _).
    destruct (nth_error (RetryModel.d_attempts d) i) as [a|] eqn:A; [|apply nth_error_None in A; lia].
    destruct (r_att _ _ _ _ _ _ _ _ _ W i a A) as (_ & RD & _). destruct i as [|i]; [lia|]. cbn [Nat.add] in RD.
    change (RetryModel.t_ready (env_of (t :: ts) (S i)) = Ready) in RD. unfold env_of in RD. rewrite T in RD. cbn [RetryModel.t_ready] in RD.
    destruct (t_grant t'); [|discriminate]. destruct (t_ready t'); [discriminate|]. split; reflexivity.
Qed.

Theorem same_requests : forall cs t ts b limit q, q_body q = 0 ->
  forall i a, nth_error (d_attempts (call_retry cs (t :: ts) (init b limit) q)) i = Some a ->
  q_method (at_req a) = q_method q /\ q_uri (at_req a) = q_uri q /\ q_version (at_req a) = q_version q /\
  q_headers (at_req a) = q_headers q /\ q_body (at_req a) = i.
Proof.
  intros cs t ts b limit q Q0 i a A. rewrite (proj1 (call_same cs t ts (init b limit) q)) in A.
  pose proof (same_request _ _ _ _ _ _ _ Q0 i a A). tauto.
Qed.

Theorem same_bodies : forall cs t ts b limit q, q_body q = 0 ->
  let tr := all_events (d_attempts (call_retry cs (t :: ts) (init b limit) q)) in
  forall i, started_late b i tr ->
    (exists r, body_data b = data_of i tr ++ r) /\
    (ended i tr -> data_of i tr = body_data b /\
       trailers_of i tr = match body_trailers b with Some x => [x] | None => [] end).
Proof.
  intros cs t ts b limit q Q0 tr i. subst tr. rewrite (proj1 (call_same cs t ts (init b limit) q)). intro L.
  destruct (same_body _ _ _ _ _ _ _ Q0 i L) as (A & B & _). split; trivial.
Qed.

Theorem within : forall cs t ts b limit q, q_body q = 0 ->
  let l := d_attempts (call_retry cs (t :: ts) (init b limit) q) in
  forall i j, 0 < i < length l -> started_late b j (all_events (firstn i l)) ->
  (len (data_of j (all_events (firstn i l))) <= limit)%N.
Proof.
  intros cs t ts b limit q Q0 l i j. subst l. rewrite (proj1 (call_same cs t ts (init b limit) q)).
  apply (within_limit _ _ _ _ _ _ _ Q0).
Qed.

Theorem not_wrapped : forall route ts q b hint, call route ts q b hint = None <->
  ProfileModel.r_retries route = None \/ (65536 < hint)%N.
Proof.
  intros route ts q b hint. unfold call, new_policy, try_new, MAX_BUFFERED_BYTES. destruct (ProfileModel.r_retries route).
  - destruct (65536 <? hint)%N eqn:E; split; try discriminate; try reflexivity; [right; lia|intros [X|X]; [discriminate|lia]].
  - split; [left; reflexivity|reflexivity].
Qed.
Theorem wrapped : forall route ts q b hint d, call route ts q b hint = Some d ->
  d = call_retry (ProfileModel.r_classes route) ts (init b 65536) q.
Proof.
  intros route ts q b hint d. unfold call, new_policy, try_new, MAX_BUFFERED_BYTES. destruct (ProfileModel.r_retries route); [|discriminate].
  destruct (65536 <? hint)%N; [discriminate|]. intro H. inversion H. reflexivity.
Qed.
