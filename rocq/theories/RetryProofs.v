From Coq Require Import String List Arith NArith ZArith Bool Lia ZifyBool ZifyNat ZifyN.
From Verif Require Import Bytes BytesProofs FilterModel TraceModel ReplayModel ReplaySpec ReplayProofs
  PeekModel RetryModel RetrySpec.
Import ListNotations.
Open Scope N_scope.

Lemma iter_r {A} (f : A -> A) n x : Nat.iter (S n) f x = Nat.iter n f (f x).
Proof.
  induction n as [|n IH]; [reflexivity|].
  change (f (Nat.iter (S n) f x) = f (Nat.iter n f (f x))). now rewrite IH.
Qed.

(** ** The loop *)
Section L.
Variable retryable : outcome -> bool.
Variable set_ext : ext -> ext.
Notation retries := (retries retryable set_ext).
Notation send_all := (send_req_with_retries retryable set_ext).

Definition answer (last : outcome) (l : list attempt) : outcome :=
  match last_answer l with Some o => o | None => last end.

Lemma answer_cons last a l : answer last (a :: l) = answer (at_outcome a) l.
Proof.
  unfold answer, last_answer. cbn [rev]. destruct (rev l) as [|x r]; reflexivity.
Qed.

Lemma run_handles ops : forall w w' t, run w ops = (w', t) ->
  forallb (fun o => match o with Clone _ => false | _ => true end) ops = true ->
  length (w_handles w') = length (w_handles w).
Proof.
  induction ops as [|o ops IH]; intros w w' t H Hc; cbn [run forallb] in *.
  - now injection H as <- <-.
  - apply andb_true_iff in Hc as [Ho Hc].
    destruct (step w o) as [w1 t1] eqn:E1. destruct (run w1 ops) as [w2 t2] eqn:E2. injection H as <- <-.
    rewrite (IH _ _ _ E2 Hc).
    destruct o as [i|i|i]; [|discriminate|]; cbn [step] in E1; destruct (nth_error (w_handles w) i) as [[h|]|].
    + destruct (match h_state h with Some s => _ | None => _ end) as [[s sh]|].
      * destruct (poll_state s (h_rb h) (h_rt h)) as [[[s' rb] rt] p]. injection E1 as <- <-. cbn. apply length_set.
      * injection E1 as <- <-. cbn. apply length_set.
    + now injection E1 as <- <-.
    + now injection E1 as <- <-.
    + injection E1 as <- <-. cbn. apply length_set.
    + now injection E1 as <- <-.
    + now injection E1 as <- <-.
Qed.

Lemma run_other ops : forall w w' t j, run w ops = (w', t) ->
  forallb (fun o => match o with Clone _ => false | Poll i | Drop i => negb (Nat.eqb i j) end) ops = true ->
  nth_error (w_handles w') j = nth_error (w_handles w) j /\ untouched j t.
Proof.
  induction ops as [|o ops IH]; intros w w' t j H Hc; cbn [run forallb] in *.
  - injection H as <- <-. split; [reflexivity|intros p []].
  - apply andb_true_iff in Hc as [Ho Hc].
    destruct (step w o) as [w1 t1] eqn:E1. destruct (run w1 ops) as [w2 t2] eqn:E2. injection H as <- <-.
    destruct (IH _ _ _ _ E2 Hc) as [H1 H2].
    assert (nth_error (w_handles w1) j = nth_error (w_handles w) j /\ untouched j t1) as [H3 H4].
    { destruct o as [i|i|i]; [|discriminate|]; cbn [step] in E1;
      assert (Hij : i <> j) by (apply negb_true_iff, Nat.eqb_neq in Ho; exact Ho);
      destruct (nth_error (w_handles w) i) as [[h|]|].
      + destruct (match h_state h with Some s => _ | None => _ end) as [[s sh]|].
        * destruct (poll_state s (h_rb h) (h_rt h)) as [[[s' rb] rt] p]. injection E1 as <- <-. cbn.
          split; [now apply nth_set_other|]. intros q [Hq|[]]. congruence.
        * injection E1 as <- <-. cbn. split; [now apply nth_set_other|]. intros q [Hq|[]]. congruence.
      + injection E1 as <- <-. split; [reflexivity|intros p []].
      + injection E1 as <- <-. split; [reflexivity|intros p []].
      + injection E1 as <- <-. cbn. split; [now apply nth_set_other|]. intros q [].
      + injection E1 as <- <-. split; [reflexivity|intros p []].
      + injection E1 as <- <-. split; [reflexivity|intros p []]. }
    split; [congruence|]. intros p Hp. apply in_app_iff in Hp as [Hp|Hp]; [apply (H4 p Hp)|apply (H2 p Hp)].
Qed.

Lemma service_no_clone k ops :
  forallb (fun o => match o with Clone _ => false | _ => true end) (filter (by_service k) ops) = true.
Proof.
  apply forallb_forall. intros o Ho. apply filter_In in Ho as [_ Ho]. now destruct o.
Qed.
Lemma service_all k ops : forallb (by_service k) (filter (by_service k) ops) = true.
Proof. apply forallb_forall. intros o Ho. apply filter_In in Ho. tauto. Qed.
Lemma service_other k j ops : (k < j)%nat ->
  forallb (fun o => match o with Clone _ => false | Poll i | Drop i => negb (Nat.eqb i j) end) (filter (by_service k) ops) = true.
Proof.
  intros Hj. apply forallb_forall. intros o Ho. apply filter_In in Ho as [_ Ho].
  destruct o as [i|i|i]; cbn [by_service] in Ho; try discriminate; apply Nat.leb_le in Ho;
  apply negb_true_iff, Nat.eqb_neq; lia.
Qed.

(** The backup of number [k] is live and untouched. *)
Definition fresh (w : world) (k : nat) : Prop :=
  length (w_handles w) = S k /\ exists h, nth_error (w_handles w) k = Some (Some h).

Lemma mk_backup_fresh w q w' q' : fresh w (q_body q) -> mk_backup set_ext w q = (w', q') ->
  fresh w' (q_body q') /\ q_body q' = S (q_body q) /\
  run w [Clone (q_body q)] = (w', []) /\
  q_method q' = q_method q /\ q_uri q' = q_uri q /\ q_version q' = q_version q /\ q_headers q' = q_headers q /\
  q_ext q' = set_ext (q_ext q) /\
  w_handles w' = w_handles w ++ [Some (Handle None true true)] /\ w_shared w' = w_shared w.
Proof.
  intros [Hl [h Hh]] H. unfold mk_backup in H. cbn [step run] in *. rewrite Hh in *. cbn [fst] in *. injection H as <- <-.
  cbn [q_body q_method q_uri q_version q_headers q_ext w_handles w_shared]. rewrite Hl. repeat split; auto.
  - cbn. rewrite app_length, Hl. cbn. lia.
  - cbn [w_handles]. exists (Handle None true true). rewrite nth_error_app2 by lia. now rewrite Hl, Nat.sub_diag.
Qed.

Lemma send_fresh w q t w' a : (S (q_body q) < length (w_handles w))%nat ->
  forall k, k = S (q_body q) -> fresh w k -> send_req w q t = (w', a) ->
  fresh w' k /\ at_req a = q /\ at_outcome a = t_outcome t /\
  run w (filter (by_service (q_body q)) (t_ops t)) = (w', at_events a) /\
  nth_error (w_handles w') k = nth_error (w_handles w) k.
Proof.
  intros _ k -> [Hl [h Hh]] H. unfold send_req in H.
  destruct (run w (filter (by_service (q_body q)) (t_ops t))) as [w1 ev] eqn:E. injection H as <- <-.
  cbn [at_req at_outcome at_events].
  pose proof (run_handles _ _ _ _ E (service_no_clone _ _)) as H1.
  pose proof (run_other _ _ _ _ (S (q_body q)) E (service_other _ _ _ (Nat.lt_succ_diag_r _))) as [H2 H3].
  repeat split; auto; [congruence|]. exists h. congruence.
Qed.

Definition same_head (q : request) (m u : bytes) (v : N) (hs : headers) : Prop :=
  q_method q = m /\ q_uri q = u /\ q_version q = v /\ q_headers q = hs.

Record retried (n k : nat) (env : nat -> turn) (w : world) (backup : request) (last : outcome) (d : done) : Prop := {
  r_len : (length (d_attempts d) <= n)%nat;
  r_att : forall i a, nth_error (d_attempts d) i = Some a ->
    at_outcome a = t_outcome (env (k + i)%nat) /\ t_ready (env (k + i)%nat) = Ready /\
    same_head (at_req a) (q_method backup) (q_uri backup) (q_version backup) (q_headers backup) /\
    q_body (at_req a) = (q_body backup + i)%nat /\
    q_ext (at_req a) = Nat.iter i set_ext (q_ext backup);
  r_again : forall i a, nth_error (d_attempts d) i = Some a -> (S i < length (d_attempts d))%nat ->
    retryable (at_outcome a) = true;
  r_run : exists ops, run w ops = (d_world d, all_events (d_attempts d));
  r_last : d_attempts d <> [] \/ retryable last = true ->
    (d_outcome d = answer last (d_attempts d) \/
     exists e, t_ready (env (k + length (d_attempts d))%nat) = ReadyErr e /\ d_outcome d = Err e /\
       retryable (answer last (d_attempts d)) = true /\ (length (d_attempts d) < n)%nat);
  r_stop : length (d_attempts d) = n \/ retryable (answer last (d_attempts d)) = false \/
    t_ready (env (k + length (d_attempts d))%nat) <> Ready \/
    is_capped (d_world d) (q_body backup + length (d_attempts d))%nat <> Some false;
  r_prefix : forall i, (i < length (d_attempts d))%nat ->
    exists ops w', run w ops = (w', all_events (firstn i (d_attempts d))) /\
      (i = 0%nat /\ w' = w \/ is_capped w' (q_body backup + i)%nat = Some false);
  r_requests : m_requests (d_metrics d) = N.of_nat (length (d_attempts d));
  r_successes : m_successes (d_metrics d) =
    match rev (d_attempts d) with
    | a :: _ => match at_outcome a with Ok _ => if retryable (at_outcome a) then 0 else 1 | Err _ => 0 end
    | [] => 0
    end;
  r_limit : m_limit_exceeded (d_metrics d) = 1 -> length (d_attempts d) = n /\
    (d_attempts d <> [] \/ retryable last = true -> retryable (answer last (d_attempts d)) = true);
  r_over : m_overflow (d_metrics d) = 1 ->
    t_ready (env (k + length (d_attempts d))%nat) = NotReady /\ d_outcome d = answer last (d_attempts d);
  r_one : m_limit_exceeded (d_metrics d) + m_overflow (d_metrics d) <= 1
}.

Lemma run_cons_nil w o w1 ops w2 t : step w o = (w1, []) -> run w1 ops = (w2, t) -> run w (o :: ops) = (w2, t).
Proof. intros H1 H2. cbn [run]. now rewrite H1, H2. Qed.

Lemma all_events_cons a l : all_events (a :: l) = at_events a ++ all_events l.
Proof. reflexivity. Qed.

Lemma retries_spec n : forall env k w backup last, fresh w (q_body backup) ->
  retried n k env w backup last (retries n env k w backup last).
Proof.
  induction n as [|n IH]; intros env k w backup last Hf; cbn [RetryModel.retries].
  - constructor; cbn; auto; try lia; try discriminate; try (intros i a H; now destruct i).
    + now exists [].
    + intros _. split; [reflexivity|]. intros [H|H]; [easy|exact H].
  - destruct (t_ready (env k)) as [| |e] eqn:Er.
    2: { constructor; cbn; auto; try lia; try discriminate; try (intros i a H; now destruct i).
         - now exists [].
         - right. right. left. rewrite Nat.add_0_r, Er. discriminate.
         - intros _. now rewrite Nat.add_0_r. }
    2: { constructor; cbn; auto; try lia; try discriminate; try (intros i a H; now destruct i).
         - now exists [].
         - intros [Hl|Hl]; [easy|]. right. exists e. rewrite Nat.add_0_r. repeat split; auto. lia.
         - right. right. left. rewrite Nat.add_0_r, Er. discriminate. }
    destruct (mk_backup set_ext w backup) as [w1 q'] eqn:E1.
    destruct (mk_backup_fresh _ _ _ _ Hf E1) as (Hf1 & Hq & Hrun1 & Hm & Hu & Hv & Hh & Hx & Hw1 & _).
    destruct (send_req w1 backup (env k)) as [w2 a] eqn:E2.
    assert (Hlen : (S (q_body backup) < length (w_handles w1))%nat) by (destruct Hf1 as [Hl _]; lia).
    destruct (send_fresh _ _ _ _ _ Hlen (q_body q') Hq Hf1 E2) as (Hf2 & Hreq & Hout & Hrun2 & Hnth).
    assert (Hrun : exists ops, run w ops = (w2, at_events a)).
    { eexists (Clone (q_body backup) :: _). cbn [run] in *. destruct (step w (Clone (q_body backup))) as [x y].
      injection Hrun1 as -> Hy. rewrite app_nil_r in Hy. subst y. rewrite Hrun2. reflexivity. }
    assert (Hzero : forall o : outcome, nth_error [a] 0 = Some a) by auto.
    assert (Hprefix0 : exists ops w', run w ops = (w', all_events []) /\ (0%nat = 0%nat /\ w' = w \/ is_capped w' (q_body backup + 0)%nat = Some false)).
    { exists [], w. auto. }
    assert (Hcap : forall d, d_attempts d = [] -> d_world d = w2 ->
              d_outcome d = at_outcome a -> 
              m_requests (d_metrics d) = 0 -> m_limit_exceeded (d_metrics d) = 0 -> m_overflow (d_metrics d) = 0 ->
              m_successes (d_metrics d) = match at_outcome a with Ok _ => if retryable (at_outcome a) then 0 else 1 | Err _ => 0 end ->
              (retryable (at_outcome a) = false \/ is_capped w2 (q_body q') <> Some false) ->
              retried (S n) k env w backup last (count inc_requests (add_attempt a d))).
    { intros d Ha Hw Ho M1 M2 M3 M4 Hs. constructor; cbn [count add_attempt d_attempts d_outcome d_world d_metrics];
      rewrite ?Ha; cbn [length].
      - lia.
      - intros i b Hb. destruct i as [|i]; [|now destruct i]. injection Hb as <-. rewrite !Nat.add_0_r.
        rewrite Hreq. repeat split; auto.
      - intros i b Hb Hi. lia.
      - destruct Hrun as [ops Hr]. exists ops. rewrite Hr, Hw. unfold all_events. cbn. now rewrite app_nil_r.
      - intros _. left. rewrite Ho. reflexivity.
      - rewrite Hw. destruct Hs as [Hs|Hs]; [right; left; exact Hs|right; right; right].
        now rewrite Nat.add_1_r, <- Hq.
      - intros i Hi. replace i with 0%nat by lia. exact Hprefix0.
      - cbn. rewrite M1. reflexivity.
      - cbn. now rewrite M4.
      - cbn. rewrite M2. discriminate.
      - cbn. rewrite M3. discriminate.
      - cbn. lia. }
    destruct (retryable (at_outcome a)) eqn:Era; cbn [negb].
    2: { apply Hcap; auto; destruct (at_outcome a); auto. }
    destruct (not_replayable w2 q') eqn:Enr.
    { apply Hcap; auto; [destruct (at_outcome a); auto|].
      right. unfold not_replayable in Enr. destruct (is_capped w2 (q_body q')) as [[|]|]; congruence. }
    assert (Hnr : is_capped w2 (q_body q') = Some false).
    { unfold not_replayable in Enr. destruct (is_capped w2 (q_body q')) as [[|]|]; congruence. }
    specialize (IH env (S k) w2 q' (at_outcome a) Hf2).
    set (d := retries n env (S k) w2 q' (at_outcome a)) in *. destruct IH.
    constructor; cbn [count add_attempt d_attempts d_outcome d_world d_metrics length];
      rewrite ?answer_cons.
    + lia.
    + intros i b Hb. destruct i as [|i].
      * injection Hb as <-. rewrite !Nat.add_0_r, Hreq. repeat split; auto.
      * cbn [nth_error] in Hb. destruct (r_att0 i b Hb) as (H1 & H2 & (H3 & H4 & H5 & H6) & H7 & H8).
        replace (k + S i)%nat with (S k + i)%nat by lia.
        unfold same_head. rewrite H3, H4, H5, H6, H7, H8, Hm, Hu, Hv, Hh, Hx. repeat split; auto.
        -- lia.
        -- symmetry. apply iter_r.
    + intros i b Hb Hi. destruct i as [|i]; [now injection Hb as <-|]. apply (r_again0 i b Hb). lia.
    + destruct Hrun as [o1 H1]. destruct r_run0 as [o2 H2]. exists (o1 ++ o2). now rewrite run_app, H1, H2.
    + intros _. destruct (r_last0 (or_intror Era)) as [H|(e & H1 & H2 & H3 & H4)]; [now left|right; exists e].
      replace (k + S (length (d_attempts d)))%nat with (S k + length (d_attempts d))%nat by lia.
      repeat split; auto. lia.
    + replace (k + S (length (d_attempts d)))%nat with (S k + length (d_attempts d))%nat by lia.
      replace (q_body backup + S (length (d_attempts d)))%nat with (q_body q' + length (d_attempts d))%nat by lia.
      destruct r_stop0 as [H|H]; [left; lia|now right].
    + intros i Hi. destruct i as [|i]; [exact Hprefix0|]. cbn [firstn]. rewrite all_events_cons.
      destruct Hrun as [o1 H1]. destruct (r_prefix0 i) as (o2 & w' & H2 & H3); [lia|].
      exists (o1 ++ o2), w'. split; [now rewrite run_app, H1, H2|]. right.
      destruct H3 as [[-> ->]|H3].
      * now replace (q_body backup + 1)%nat with (q_body q') by lia.
      * now replace (q_body backup + S i)%nat with (q_body q' + i)%nat by lia.
    + cbn. rewrite r_requests0. lia.
    + cbn. rewrite r_successes0. cbn [rev]. destruct (rev (d_attempts d)) as [|b r]; cbn; [|reflexivity].
      rewrite Era. now destruct (at_outcome a).
    + cbn. intros H. destruct (r_limit0 H) as [H1 H2]. split; [lia|]. auto.
    + cbn. replace (k + S (length (d_attempts d)))%nat with (S k + length (d_attempts d))%nat by lia. auto.
    + cbn. exact r_one0.
Qed.

(** The first attempt is one for which the service is ready. *)
Definition started (env : nat -> turn) (k : nat) : turn :=
  match k with
  | O => Turn Ready (t_ops (env 0%nat)) (t_outcome (env 0%nat))
  | S _ => env k
  end.

Lemma retries_ext n : forall env1 env2 k w backup last, (forall j, (k <= j)%nat -> env1 j = env2 j) ->
  retries n env1 k w backup last = retries n env2 k w backup last.
Proof.
  induction n as [|n IH]; intros env1 env2 k w backup last H; [reflexivity|]. cbn [RetryModel.retries].
  rewrite (H k) by lia. destruct (t_ready (env2 k)); try reflexivity.
  destruct (mk_backup set_ext w backup) as [w1 q']. destruct (send_req w1 backup (env2 k)) as [w2 a].
  rewrite (IH env1 env2 (S k) w2 q' (at_outcome a)); [reflexivity|]. intros j Hj. apply H. lia.
Qed.

Lemma send_all_retries max env w q : exists m,
  retries (S max) (started env) 0 w q (t_outcome (env 0%nat)) =
  Done (d_outcome (send_all max env w q)) (d_attempts (send_all max env w q)) m (d_world (send_all max env w q)) /\
  m_requests m = m_requests (d_metrics (send_all max env w q)) + 1 /\
  m_limit_exceeded m = m_limit_exceeded (d_metrics (send_all max env w q)) /\
  m_overflow m = m_overflow (d_metrics (send_all max env w q)) /\
  m_successes (d_metrics (send_all max env w q)) =
    match d_attempts (send_all max env w q) with [_] => 0 | _ => m_successes m end.
Proof.
  cbn [RetryModel.retries]. unfold send_req_with_retries. change (t_ready (started env 0)) with Ready. cbv iota.
  destruct (mk_backup set_ext w q) as [w1 q'].
  change (send_req w1 q (started env 0)) with (send_req w1 q (env 0%nat)).
  destruct (send_req w1 q (env 0%nat)) as [w2 a].
  assert (E : retries max (started env) 1 w2 q' (at_outcome a) = retries max env 1 w2 q' (at_outcome a)).
  { apply retries_ext. intros [|j] Hj; [lia|reflexivity]. }
  rewrite E. destruct (retryable (at_outcome a)); cbn [negb].
  - destruct (not_replayable w2 q'); [eexists; repeat split|].
    set (d := retries max env 1 w2 q' (at_outcome a)).
    exists (inc_requests (d_metrics d)).
    split; [reflexivity|]. split; [reflexivity|]. split; [reflexivity|]. split; [reflexivity|].
    destruct d as [o l m w0] eqn:Ed. cbn. destruct l as [|b l]; [|reflexivity]. 
    assert (Hz : m_successes (d_metrics (retries max env 1 w2 q' (at_outcome a))) = 0).
    { fold d. rewrite Ed. cbn. clear -Ed. unfold d in Ed. destruct max as [|max]; cbn [RetryModel.retries] in Ed.
      - now injection Ed as _ <- _.
      - destruct (t_ready (env 1%nat)).
        + destruct (mk_backup set_ext w2 q') as [w3 q3]. destruct (send_req w3 q' (env 1%nat)) as [w4 a4]. discriminate.
        + now injection Ed as _ <- _.
        + now injection Ed as _ <- _. }
    fold d in Hz. rewrite Ed in Hz. exact Hz.
  - eexists. repeat split; destruct (at_outcome a); reflexivity.
Qed.

Section Whole.
Variables (max : nat) (env : nat -> turn) (b : body) (limit : N) (q : request).
Hypothesis Hq : q_body q = 0%nat.
Let d := send_all max env (init b limit) q.

Lemma whole : exists m, retried (S max) 0 (started env) (init b limit) q (t_outcome (env 0%nat))
    (Done (d_outcome d) (d_attempts d) m (d_world d)) /\
  m_requests m = m_requests (d_metrics d) + 1 /\
  m_limit_exceeded m = m_limit_exceeded (d_metrics d) /\
  m_overflow m = m_overflow (d_metrics d) /\
  m_successes (d_metrics d) = match d_attempts d with [_] => 0 | _ => m_successes m end.
Proof.
  destruct (send_all_retries max env (init b limit) q) as (m & Hm & H). exists m. split; [|exact H].
  unfold d. rewrite <- Hm. apply retries_spec. rewrite Hq. split; [reflexivity|]. eexists. reflexivity.
Qed.

Lemma attempts_nonempty : d_attempts d <> [].
Proof.
  unfold d, send_req_with_retries. destruct (mk_backup set_ext (init b limit) q) as [w1 q'].
  destruct (send_req w1 q (env 0%nat)) as [w2 a]. discriminate.
Qed.

Lemma answer_last o : last_answer (d_attempts d) = Some o <-> answer (t_outcome (env 0%nat)) (d_attempts d) = o.
Proof.
  unfold answer, last_answer. pose proof attempts_nonempty as H.
  destruct (rev (d_attempts d)) as [|x r] eqn:E.
  - exfalso. apply H. rewrite <- (rev_involutive (d_attempts d)), E. reflexivity.
  - cbn. split; congruence.
Qed.

Lemma ready_env : t_ready (started env (0 + length (d_attempts d))) = t_ready (env (length (d_attempts d))).
Proof. pose proof attempts_nonempty as Hn. destruct (d_attempts d); [easy|reflexivity]. Qed.

Theorem at_most : (1 <= length (d_attempts d) <= S max)%nat.
Proof.
  destruct whole as (m & [H _ _ _ _ _ _ _ _ _ _ _] & _). cbn [d_attempts] in H.
  assert (length (d_attempts d) <> 0)%nat by (pose proof attempts_nonempty as Hn; destruct (d_attempts d); easy). lia.
Qed.

Theorem only_retryable i a : nth_error (d_attempts d) i = Some a -> (S i < length (d_attempts d))%nat ->
  retryable (at_outcome a) = true.
Proof. destruct whole as (m & H & _). exact (r_again _ _ _ _ _ _ _ H i a). Qed.

Theorem outcomes i a : nth_error (d_attempts d) i = Some a -> at_outcome a = t_outcome (env i).
Proof.
  destruct whole as (m & H & _). intros Ha. destruct (r_att _ _ _ _ _ _ _ H i a Ha) as (H1 & _).
  rewrite H1. destruct i; reflexivity.
Qed.

Theorem answered :
  last_answer (d_attempts d) = Some (d_outcome d) \/
  exists e o, d_outcome d = Err e /\ t_ready (env (length (d_attempts d))) = ReadyErr e /\
    last_answer (d_attempts d) = Some o /\ retryable o = true /\ (length (d_attempts d) <= max)%nat.
Proof.
  destruct whole as (m & H & _).
  destruct (r_last _ _ _ _ _ _ _ H (or_introl attempts_nonempty)) as [Ho|(e & H1 & H2 & H3 & H4)].
  - left. apply answer_last. symmetry. exact Ho.
  - right. cbn [d_outcome d_attempts d_world d_metrics] in *. rewrite ready_env in H1. exists e. eexists. split; [exact H2|]. split.
    + exact H1.
    + split; [apply answer_last; reflexivity|]. split; [exact H3|]. lia.
Qed.

Theorem stops o : last_answer (d_attempts d) = Some o -> retryable o = true -> (length (d_attempts d) <= max)%nat ->
  t_ready (env (length (d_attempts d))) = Ready ->
  is_capped (d_world d) (length (d_attempts d)) <> Some false.
Proof.
  intros Ho Hr Hl Hrd. apply answer_last in Ho. destruct whole as (m & H & _).
  destruct (r_stop _ _ _ _ _ _ _ H) as [H1|[H1|[H1|H1]]]; cbn [d_outcome d_attempts d_world d_metrics] in H1.
  - lia.
  - congruence.
  - rewrite ready_env in H1. congruence.
  - now rewrite Hq in H1.
Qed.

Theorem same_request i a : nth_error (d_attempts d) i = Some a ->
  q_method (at_req a) = q_method q /\ q_uri (at_req a) = q_uri q /\ q_version (at_req a) = q_version q /\
  q_headers (at_req a) = q_headers q /\ q_body (at_req a) = i /\ q_ext (at_req a) = Nat.iter i set_ext (q_ext q).
Proof.
  destruct whole as (m & H & _). intros Ha.
  destruct (r_att _ _ _ _ _ _ _ H i a Ha) as (_ & _ & (H1 & H2 & H3 & H4) & H5 & H6).
  repeat split; auto. rewrite H5, Hq. reflexivity.
Qed.

Theorem world_run : exists ops, run (init b limit) ops = (d_world d, all_events (d_attempts d)).
Proof. destruct whole as (m & H & _). exact (r_run _ _ _ _ _ _ _ H). Qed.

Theorem same_body i : started_late b i (all_events (d_attempts d)) -> public b i (all_events (d_attempts d)).
Proof. destruct world_run as [ops H]. exact (replay_faithful b limit ops _ _ i H). Qed.

Theorem within_limit i j : (0 < i < length (d_attempts d))%nat ->
  started_late b j (all_events (firstn i (d_attempts d))) ->
  len (data_of j (all_events (firstn i (d_attempts d)))) <= limit.
Proof.
  intros Hi Hj. destruct whole as (m & H & _).
  destruct (r_prefix _ _ _ _ _ _ _ H i) as (ops & w' & H1 & [[H2 _]|H2]); [cbn [d_attempts]; lia|lia|]. cbn [d_outcome d_attempts d_world d_metrics] in H1.
  destruct (N.le_gt_cases (len (data_of j (all_events (firstn i (d_attempts d))))) limit) as [Hle|Hgt]; [exact Hle|].
  pose proof (over_limit_capped b limit ops _ _ j _ _ H1 Hj Hgt H2). discriminate.
Qed.

Theorem counts :
  m_requests (d_metrics d) + 1 = N.of_nat (length (d_attempts d)) /\
  m_successes (d_metrics d) =
    match rev (d_attempts d) with
    | a :: _ :: _ => match at_outcome a with Ok _ => if retryable (at_outcome a) then 0 else 1 | Err _ => 0 end
    | _ => 0
    end /\
  m_limit_exceeded (d_metrics d) + m_overflow (d_metrics d) <= 1 /\
  (m_limit_exceeded (d_metrics d) = 1 -> length (d_attempts d) = S max /\
     exists o, last_answer (d_attempts d) = Some o /\ retryable o = true) /\
  (m_overflow (d_metrics d) = 1 -> t_ready (env (length (d_attempts d))) = NotReady /\
     last_answer (d_attempts d) = Some (d_outcome d)).
Proof.
  destruct whole as (m & H & M1 & M2 & M3 & M4). pose proof attempts_nonempty as Hn.
  destruct H as [_ _ _ _ _ _ _ H1 H2 H3 H4 H5]. cbn [d_outcome d_attempts d_world d_metrics] in *. rewrite <- M2, <- M3. repeat split.
  - lia.
  - rewrite M4, H2. destruct (d_attempts d) as [|a [|a' l]] eqn:E; [easy|reflexivity|].
    destruct (rev (a :: a' :: l)) as [|x [|y r]] eqn:Er; [|exfalso|reflexivity].
    + apply (f_equal (@length _)) in Er. rewrite rev_length in Er. discriminate.
    + apply (f_equal (@length _)) in Er. rewrite rev_length in Er. discriminate.
  - exact H5.
  - now apply H3.
  - eexists. split; [apply answer_last; reflexivity|]. destruct (H3 H) as [_ H6]. apply H6. now left.
  - destruct (H4 H) as [H6 _]. now rewrite ready_env in H6.
  - destruct (H4 H) as [_ H6]. apply answer_last. now symmetry.
Qed.

(** *** No panics *)
Definition shape (k : nat) (w : world) : Prop :=
  length (w_handles w) = S (S k) /\
  (forall j, (j < k)%nat -> nth_error (w_handles w) j = Some None) /\
  nth_error (w_handles w) (S k) = Some (Some (Handle None true true)) /\
  ((nth_error (w_handles w) k = Some None /\ w_shared w <> None) \/
   exists h, nth_error (w_handles w) k = Some (Some h) /\ (h_state h <> None \/ w_shared w <> None)).

Lemma shape_step k w o w' t : shape k w -> by_service k o = true -> step w o = (w', t) ->
  shape k w' /\ (forall i, ~ In (i, PPanic) t) /\
  (nth_error (w_handles w) k = Some None \/ o = Drop k -> nth_error (w_handles w') k = Some None).
Proof.
  intros (Hl & Hj & Hk1 & Hk) Ho H.
  assert (Hlt : forall i, (i < k)%nat -> step w (Poll i) = (w, []) /\ step w (Drop i) = (w, [])).
  { intros i Hi. cbn [step]. now rewrite (Hj i Hi). }
  assert (Hsame : w' = w -> t = [] -> o <> Drop k \/ nth_error (w_handles w) k = Some None ->
     shape k w' /\ (forall i, ~ In (i, PPanic) t) /\
  (nth_error (w_handles w) k = Some None \/ o = Drop k -> nth_error (w_handles w') k = Some None)).
  { intros -> -> Hd. repeat split; auto. tauto. }
  destruct o as [i|i|i]; cbn [by_service] in Ho; try discriminate; apply Nat.leb_le in Ho;
    (destruct (Nat.eq_dec i k) as [->|Hi];
     [|destruct (Hlt i ltac:(lia)) as [E1 E2]; rewrite ?E1, ?E2 in H; injection H as <- <-; apply Hsame; auto; left; congruence]).
  - cbn [step] in H. destruct Hk as [[E Hs]|(h & E & Hs)]; rewrite E in *.
    { injection H as <- <-. apply Hsame; auto. }
    destruct (h_state h) as [s|] eqn:Eh.
    + destruct (poll_state s (h_rb h) (h_rt h)) as [[[s' rb] rt] p] eqn:Ep. injection H as <- <-.
      split; [|split].
      * split; [cbn; rewrite length_set; exact Hl|]. split; [|split]; cbn [w_handles w_shared].
        -- intros j Hjk. rewrite nth_set_other by lia. auto.
        -- rewrite nth_set_other by lia. exact Hk1.
        -- right. eexists. split; [eapply nth_set_same; exact E|]. left. discriminate.
      * intros i [Hp|[]]. injection Hp as <- ->. unfold poll_state in Ep.
        destruct (h_rb h && has_remaining (st_replay s)); [congruence|].
        destruct (h_rb h && st_capped s); [congruence|].
        unfold poll_rest in Ep. destruct (h_rt h), (st_completed s), (st_trailers s), (st_rest s) as [|[]]; congruence.
      * intros [?|?]; congruence.
    + destruct Hs as [Hs|Hs]; [easy|]. destruct (w_shared w) as [s|] eqn:Ew; [|easy].
      destruct (poll_state s (h_rb h) (h_rt h)) as [[[s' rb] rt] p] eqn:Ep. injection H as <- <-.
      split; [|split].
      * split; [cbn; rewrite length_set; exact Hl|]. split; [|split]; cbn [w_handles w_shared].
        -- intros j Hjk. rewrite nth_set_other by lia. auto.
        -- rewrite nth_set_other by lia. exact Hk1.
        -- right. eexists. split; [eapply nth_set_same; exact E|]. left. discriminate.
      * intros i [Hp|[]]. injection Hp as <- ->. unfold poll_state in Ep.
        destruct (h_rb h && has_remaining (st_replay s)); [congruence|].
        destruct (h_rb h && st_capped s); [congruence|].
        unfold poll_rest in Ep. destruct (h_rt h), (st_completed s), (st_trailers s), (st_rest s) as [|[]]; congruence.
      * intros [?|?]; congruence.
  - cbn [step] in H. destruct Hk as [[E Hs]|(h & E & Hs)]; rewrite E in *.
    { injection H as <- <-. apply Hsame; auto. }
    injection H as <- <-. split; [|split; [intros i []|]].
    + split; [cbn; rewrite length_set; exact Hl|]. split; [|split]; cbn [w_handles w_shared].
      * intros j Hjk. rewrite nth_set_other by lia. auto.
      * rewrite nth_set_other by lia. exact Hk1.
      * left. split; [eapply nth_set_same; exact E|]. destruct (h_state h); [discriminate|tauto].
    + intros _. cbn. eapply nth_set_same; exact E.
Qed.

Lemma shape_run k ops : forall w w' t, shape k w -> forallb (by_service k) ops = true -> run w ops = (w', t) ->
  shape k w' /\ (forall i, ~ In (i, PPanic) t) /\
  (nth_error (w_handles w) k = Some None \/ In (Drop k) ops -> nth_error (w_handles w') k = Some None).
Proof.
  induction ops as [|o ops IH]; intros w w' t Hs Hb H; cbn [run forallb] in *.
  - injection H as <- <-. split; [exact Hs|]. split; [intros i []|]. intros [?|[]]. assumption.
  - apply andb_true_iff in Hb as [Ho Hb].
    destruct (step w o) as [w1 t1] eqn:E1. destruct (run w1 ops) as [w2 t2] eqn:E2. injection H as <- <-.
    destruct (shape_step _ _ _ _ _ Hs Ho E1) as (S1 & P1 & D1).
    destruct (IH _ _ _ S1 Hb E2) as (S2 & P2 & D2).
    split; [exact S2|]. split.
    + intros i Hi. apply in_app_iff in Hi as [Hi|Hi]; [apply (P1 i Hi)|apply (P2 i Hi)].
    + intros [Hn|[->|Hn]]; apply D2; auto.
Qed.

(** The world when the request with number [k] is about to be sent. *)
Definition before (k : nat) (w : world) : Prop :=
  length (w_handles w) = S k /\
  (forall j, (j < k)%nat -> nth_error (w_handles w) j = Some None) /\
  exists h, nth_error (w_handles w) k = Some (Some h) /\ (h_state h <> None \/ w_shared w <> None).

Lemma before_shape k w w' q1 q2 : before k w -> q_body q1 = k -> mk_backup set_ext w q1 = (w', q2) -> shape k w' /\ q_body q2 = S k.
Proof.
  intros (Hl & Hj & h & Hh & Hs) Hb H.
  assert (Hf : fresh w (q_body q1)) by (rewrite Hb; split; [exact Hl|eauto]).
  destruct (mk_backup_fresh _ _ _ _ Hf H) as (_ & Hq2 & _ & _ & _ & _ & _ & _ & Ew & Esh).
  split; [|congruence]. split; [rewrite Ew, app_length, Hl; cbn; lia|]. split; [|split].
  - intros j Hjk. rewrite Ew, nth_error_app1 by lia. auto.
  - rewrite Ew, nth_error_app2 by lia. now rewrite Hl, Nat.sub_diag.
  - right. exists h. rewrite Ew, Esh, nth_error_app1 by lia. auto.
Qed.

Lemma shape_before k w : shape k w -> nth_error (w_handles w) k = Some None -> before (S k) w.
Proof.
  intros (Hl & Hj & Hk1 & Hk) Hn. split; [exact Hl|]. split.
  - intros j Hjk. destruct (Nat.eq_dec j k) as [->|]; [exact Hn|]. apply Hj. lia.
  - eexists. split; [exact Hk1|]. right. destruct Hk as [[_ H]|(h & H & _)]; [exact H|congruence].
Qed.

Lemma retries_no_panic : (forall k, retryable (t_outcome (env k)) = true -> In (Drop k) (t_ops (env k))) ->
  forall n k w backup last, before k w -> q_body backup = k ->
  forall i, ~ In (i, PPanic) (all_events (d_attempts (retries n env k w backup last))).
Proof.
  intros Hd. induction n as [|n IH]; intros k w backup last Hb Hk i; cbn [RetryModel.retries]; [intros []|].
  destruct (t_ready (env k)); [|intros []|intros []].
  destruct (mk_backup set_ext w backup) as [w1 q'] eqn:E1.
  destruct (before_shape _ _ _ _ _ Hb Hk E1) as [S1 Hq'].
  unfold send_req. rewrite Hk.
  destruct (run w1 (filter (by_service k) (t_ops (env k)))) as [w2 ev] eqn:E2.
  cbn [count add_attempt d_attempts at_outcome]. rewrite all_events_cons. cbn [at_events].
  destruct (shape_run _ _ _ _ _ S1 (service_all _ _) E2) as (S2 & P2 & D2).
  intros Hi. apply in_app_iff in Hi as [Hi|Hi]; [exact (P2 i Hi)|].
  destruct (retryable (t_outcome (env k))) eqn:Er; cbn [negb] in Hi; [|contradiction].
  destruct (not_replayable w2 q'); [contradiction|].
  revert Hi. apply IH; [|exact Hq']. apply shape_before; [exact S2|]. apply D2. right.
  apply filter_In. split; [now apply Hd|]. cbn. apply Nat.leb_refl.
Qed.

Theorem no_panic : (forall k, retryable (t_outcome (env k)) = true -> In (Drop k) (t_ops (env k))) ->
  forall i, ~ In (i, PPanic) (all_events (d_attempts d)).
Proof.
  intros Hd i. destruct (send_all_retries max env (init b limit) q) as (m & Hm & _).
  apply (f_equal d_attempts) in Hm. cbn [d_attempts] in Hm. fold d in Hm. rewrite <- Hm.
  cbn [RetryModel.retries]. change (t_ready (started env 0)) with Ready. cbv iota.
  assert (Hb : before 0 (init b limit)).
  { split; [reflexivity|]. split; [intros j Hj; lia|]. eexists. split; [reflexivity|]. left. discriminate. }
  destruct (mk_backup set_ext (init b limit) q) as [w1 q'] eqn:E1.
  destruct (before_shape _ _ _ _ _ Hb Hq E1) as [S1 Hq'].
  unfold send_req. rewrite Hq. cbn [t_ops t_outcome started].
  destruct (run w1 (filter (by_service 0) (t_ops (env 0%nat)))) as [w2 ev] eqn:E2.
  cbn [count add_attempt d_attempts at_outcome]. rewrite all_events_cons. cbn [at_events].
  destruct (shape_run _ _ _ _ _ S1 (service_all _ _) E2) as (S2 & P2 & D2).
  intros Hi. apply in_app_iff in Hi as [Hi|Hi]; [exact (P2 i Hi)|].
  destruct (retryable (t_outcome (env 0%nat))) eqn:Er; cbn [negb] in Hi; [|contradiction].
  destruct (not_replayable w2 q'); [contradiction|].
  rewrite (retries_ext max (started env) env) in Hi by (intros [|j] Hj; [lia|reflexivity]).
  revert Hi. apply (retries_no_panic Hd); [|exact Hq']. apply shape_before; [exact S2|]. apply D2. right.
  apply filter_In. split; [now apply Hd|]. reflexivity.
Qed.
End Whole.
End L.
