From Coq Require Import List Arith NArith Bool Lia.
From Verif Require Import Bytes BytesProofs RouteModel FilterModel TraceModel ReplayModel ReplaySpec PeekModel RetryModel
  RetrySpec RetryProofs RetryParseProofs RouteSpec RouteMatchProofs ClientPolicyModel OutboundModel FilterSpec OutboundSpec.
From Verif Require DistributeModel DistributeSpec DistributeProofs.
Import ListNotations.
Open Scope N_scope.

Lemma fails_iff i d : fails i d = true <-> happens i d.
Proof. unfold fails, happens. rewrite orb_true_iff, N.eqb_eq, N.leb_le. tauto. Qed.
Lemma fails_not i d : fails i d = false <-> ~ happens i d.
Proof. rewrite <- fails_iff. destruct (fails i d); split; congruence. Qed.

Section Http.
  Variable pq_valid : bytes -> bool.
  Variable u : uri.
  Variable rm : request_match.
  Variable draws : nat -> N.
  Lemma http_passes_sound fs : forall n hs, http_passes pq_valid u rm draws n fs hs (http_request pq_valid u rm draws n fs hs).
  Proof.
    induction fs as [|f fs IH]; intros n hs; cbn; [constructor|].
    destruct f as [i|rd|m|m|m].
    - destruct (fails i (draws n)) eqn:E; [apply hp_fail, fails_iff, E|apply hp_no_fail; [apply fails_not, E|apply IH]].
    - destruct (redirect_apply pq_valid rd u rm) as [[x|]|e|] eqn:E.
      + apply hp_redirect, E.
      + apply hp_no_redirect; [exact E|apply IH].
      + apply hp_bad_redirect, E.
      + apply hp_panic, E.
    - apply hp_request, IH.
    - apply hp_response, IH.
    - constructor.
  Qed.
  Lemma http_passes_complete n fs hs r : http_passes pq_valid u rm draws n fs hs r -> http_request pq_valid u rm draws n fs hs = r.
  Proof.
    induction 1; cbn; auto.
    - apply fails_iff in H. now rewrite H.
    - apply fails_not in H. now rewrite H.
    - now rewrite H.
    - now rewrite H.
    - now rewrite H.
    - now rewrite H.
  Qed.
  Lemma http_passes_iff n fs hs r : http_passes pq_valid u rm draws n fs hs r <-> http_request pq_valid u rm draws n fs hs = r.
  Proof. split; [apply http_passes_complete|intros <-; apply http_passes_sound]. Qed.
End Http.
Lemma grpc_passes_iff draws n fs hs r : grpc_passes draws n fs hs r <-> grpc_request draws n fs hs = r.
Proof.
  split.
  - induction 1; cbn; auto.
    + apply fails_iff in H. now rewrite H.
    + apply fails_not in H. now rewrite H.
  - intros <-. revert n hs. induction fs as [|f fs IH]; intros n hs; cbn; [constructor|].
    destruct f as [i|m|m].
    + destruct (fails i (draws n)) eqn:E; [apply gp_fail, fails_iff, E|apply gp_no_fail; [apply fails_not, E|apply IH]].
    + apply gp_headers, IH.
    + constructor.
Qed.
Lemma http_amends_iff fs : forall hs hs', http_amends fs hs hs' <-> http_response fs hs = hs'.
Proof.
  unfold http_amends. induction fs as [|f fs IH]; intros hs hs'; cbn; [split; congruence|].
  destruct f; cbn; apply IH.
Qed.
Lemma grpc_amends_iff fs hs hs' : grpc_amends fs hs hs' <-> grpc_response fs hs = hs'.
Proof. unfold grpc_amends, grpc_response. split; congruence. Qed.

Section Choice.
  Context {K : Type}.
  Variable d : DistributeModel.distribution K.
  Variable tr : trial.
  Lemma choose_picks : DistributeSpec.valid d -> picks d tr (choose d tr).
  Proof.
    intros V. unfold picks, choose. destruct d as [|keys|keys].
    - reflexivity.
    - cbn. pose proof (DistributeProofs.first_ok (map (fun _ => tt) keys) (ready_of tr)) as H.
      unfold ready_of in H. destruct (DistributeModel.poll_first _ _ _) as [l x]. cbn.
      rewrite map_length in H. exists l. exact H.
    - cbn [DistributeModel.new DistributeModel.forget DistributeModel.poll_ready DistributeModel.d_selection DistributeModel.d_ready].
      destruct V as [V1 V2]. rewrite map_map. cbn [snd].
      change (map (fun x : K * N => snd x) keys) with (map snd keys).
      assert (WI : DistributeModel.weighted_index (map snd keys) = inl (map snd keys)).
      { unfold DistributeModel.weighted_index. destruct (map snd keys) eqn:M; [cbn in V1; lia|]. rewrite <- M in *.
        replace (DistributeModel.u32_max <? DistributeModel.sum (map snd keys)) with false by (symmetry; apply N.ltb_ge; exact V2).
        replace (DistributeModel.sum (map snd keys) =? 0) with false by (symmetry; apply N.eqb_neq; lia). reflexivity. }
      rewrite WI.
      pose proof (DistributeProofs.random_ok (map snd keys) (ready_of tr) (tr_draws tr) V1) as H.
      unfold ready_of in H. destruct (DistributeModel.poll_random _ _ _ _ _) as [l x]. exists l. exact H.
  Qed.
  Lemma picks_backend i : picks d tr (Some i) -> available d tr i /\ exists k, backend_at d i k.
  Proof.
    unfold picks, available, backend_at, DistributeSpec.weight_of. destruct d as [|keys|keys]; [discriminate| |].
    - intros [l H]. inversion H as [j L _ R| |]; subst. split.
      + split; [exists 1; split; [|discriminate]; apply Nat.ltb_lt in L; now rewrite L|].
        unfold ready_of in R. destruct (tr_ready tr i); congruence.
      + destruct (nth_error keys i) eqn:E; [eauto|]. apply nth_error_None in E. lia.
    - intros [l H]. inversion H as [order j Fl _ R| |]; subst.
      destruct (DistributeProofs.falls_weight _ _ _ _ (Fl order i [] eq_refl)) as (_ & L & W).
      rewrite map_length in L. destruct (nth_error keys i) as [[k w]|] eqn:E; [|apply nth_error_None in E; lia].
      split; [|exists k, w; reflexivity]. split.
      + exists w. split; [reflexivity|]. intros ->. apply W. apply nth_error_nth with (d := (k, 0)) in E.
        change 0 with (snd (k, 0)). rewrite map_nth, E. reflexivity.
      + unfold ready_of in R. destruct (tr_ready tr i); congruence.
  Qed.
  Lemma picks_none i : picks d tr None -> ~ available d tr i.
  Proof.
    unfold picks, available, DistributeSpec.weight_of. destruct d as [|keys|keys].
    - intros _ [(w & W & _) _]. discriminate.
    - intros [l H] [(w & W & _) R]. destruct (i <? length keys)%nat eqn:L; [|discriminate]. apply Nat.ltb_lt in L.
      inversion H as [|j Lj _ Rj|A]; subst; [unfold ready_of in Rj; destruct (tr_ready tr j); discriminate|].
      specialize (A i L). unfold ready_of in A. rewrite R in A. discriminate.
    - intros [l H] [(w & W & Z) R]. destruct (nth_error keys i) as [[k w']|] eqn:E; [|discriminate]. injection W as ->.
      inversion H as [|order j _ _ Rj|order _ A C]; subst; [unfold ready_of in Rj; destruct (tr_ready tr j); discriminate|].
      assert (In i order).
      { apply C. unfold DistributeSpec.weight. destruct (in_dec Nat.eq_dec i []) as [[]|_].
        apply nth_error_nth with (d := (k, 0)) in E. change 0 with (snd (k, 0)) at 1. rewrite map_nth, E. exact Z. }
      specialize (A i H0). unfold ready_of in A. rewrite R in A. discriminate.
  Qed.
  Lemma picked_backend i k : nth_error (backends d) i = Some k <-> backend_at d i k.
  Proof.
    unfold backends, backend_at. destruct d as [|keys|keys]; [destruct i; split; [discriminate|contradiction|discriminate|contradiction]|tauto|].
    rewrite nth_error_map. destruct (nth_error keys i) as [[k' w]|]; cbn; split.
    - intros H. injection H as ->. eauto.
    - intros [w' H]. injection H as -> ->. reflexivity.
    - discriminate.
    - intros [w' H]. discriminate.
  Qed.
  Lemma choose_none : DistributeSpec.valid d -> (choose d tr = None <-> forall i, ~ available d tr i).
  Proof.
    intros V. pose proof (choose_picks V) as H. split.
    - intros E i. rewrite E in H. now apply picks_none.
    - intros A. destruct (choose d tr) as [i|]; [|reflexivity]. exfalso. exact (A i (proj1 (picks_backend i H))).
  Qed.
End Choice.

Section Attempt.
  Context {F P : Type}.
  Variable on_request : (nat -> N) -> nat -> list F -> headers -> headers + refusal.
  Variable on_response : list F -> headers -> headers.
  Variable passes : (nat -> N) -> nat -> list F -> headers -> headers + refusal -> Prop.
  Variable amends : list F -> headers -> headers -> Prop.
  Hypothesis passes_iff : forall ds n fs hs r, passes ds n fs hs r <-> on_request ds n fs hs = r.
  Hypothesis amends_iff : forall fs hs hs', amends fs hs hs' <-> on_response fs hs = hs'.

  Lemma amended_iff fs o o' : amended amends fs o o' <-> filtered on_response fs o = o'.
  Proof.
    split.
    - destruct 1 as [s hs hs' b H|e]; [|reflexivity]. cbn. apply amends_iff in H. now rewrite H.
    - intros <-. destruct o as [[s hs b]|e]; cbn; [|constructor]. constructor. apply amends_iff. reflexivity.
  Qed.
  Lemma traced_iff o o' : traced o o' <-> wrapped o = o'.
  Proof. split; [destruct 1; reflexivity|intros <-; destruct o; constructor]. Qed.

  Lemma attempt_tried (t : target F P) tr hs : DistributeSpec.valid (ta_distribution t) ->
    tried passes amends t tr hs (attempt on_request on_response t tr hs).
  Proof.
    intros V. unfold attempt. destruct (on_request (tr_route tr) 0 (ta_filters t) hs) as [hs1|e] eqn:E1;
      [|apply tr_refused, passes_iff, E1].
    pose proof (choose_picks (ta_distribution t) tr V) as C.
    destruct (choose (ta_distribution t) tr) as [i|]; [|eapply tr_shed; [apply passes_iff, E1|exact C]].
    destruct (picks_backend _ _ _ C) as [_ [k Hk]].
    pose proof (proj2 (picked_backend _ _ _) Hk) as Ek. rewrite Ek. destruct k as [fs c]. unfold backend_call.
    destruct (on_request (tr_backend tr) 0 fs hs1) as [hs2|e] eqn:E2.
    - eapply tr_reached.
      + apply passes_iff, E1.
      + exact C.
      + exact Hk.
      + apply passes_iff, E2.
      + apply amended_iff. reflexivity.
      + apply traced_iff. reflexivity.
      + apply amended_iff. reflexivity.
    - eapply tr_backend_refused; [apply passes_iff, E1|exact C|exact Hk|apply passes_iff, E2].
  Qed.
  Lemma attempt_shed (t : target F P) tr hs : DistributeSpec.valid (ta_distribution t) ->
    (attempt on_request on_response t tr hs = Shed <->
     (exists hs1, passes (tr_route tr) 0%nat (ta_filters t) hs (inl hs1)) /\ forall i, ~ available (ta_distribution t) tr i).
  Proof.
    intros V. rewrite <- choose_none by exact V. unfold attempt.
    destruct (on_request (tr_route tr) 0 (ta_filters t) hs) as [hs1|e] eqn:E1.
    - pose proof (choose_picks (ta_distribution t) tr V) as C.
      destruct (choose (ta_distribution t) tr) as [i|].
      + destruct (picks_backend _ _ _ C) as [_ [k Hk]].
        pose proof (proj2 (picked_backend _ _ _) Hk) as Ek. rewrite Ek. destruct k as [fs c]. unfold backend_call.
        destruct (on_request (tr_backend tr) 0 fs hs1); split; intros H; try discriminate; destruct H; discriminate.
      + split; [intros _; split; [exists hs1; apply passes_iff, E1|reflexivity]|reflexivity].
    - split; [discriminate|]. intros [[hs1 H] _]. apply passes_iff in H. congruence.
  Qed.

  Variable rp : P -> RetryModel.params.
  Variable t : target F P.
  Variable hs : headers.
  Variable b : body.
  Variable hint : N.
  Variable trials : nat -> trial.
  Let an := route_call on_request on_response rp t hs b hint trials.
  Let pol := fst (fst (set_request_extensions (rp (ta_params t)) hs)).
  Let hs0 := snd (set_request_extensions (rp (ta_params t)) hs).
  Let res k := attempt on_request on_response t (trials k) hs0.

  (** What a call comes to *)
  Lemma route_shape :
    (an_seen an = [res 0%nat] /\ an_given an = as_outcome (res 0%nat) /\ an_metrics an = no_metrics /\ an_again an = false) \/
    (exists p w q, pol = Some p /\ q_body q = 0%nat /\
      let d := send_req_with_retries (is_retryable p) (set_extensions p) (N.to_nat (p_max_retries p))
                 (turn_of on_request on_response t trials hs0) w q in
      w = init b (p_max_bytes p) /\
      an_seen an = map res (seq 0 (length (d_attempts d))) /\ an_given an = d_outcome d /\ an_metrics an = d_metrics d /\
      an_again an = match is_capped (d_world d) (length (d_attempts d)) with Some false => true | _ => false end).
  Proof.
    unfold an, pol, res, hs0, route_call.
    destruct (set_request_extensions (rp (ta_params t)) hs) as [[p x] hs1]. cbn [fst snd].
    destruct p as [p|]; cbn [option_map call]; [|left; auto].
    unfold try_new. destruct (_ <? _); [left; auto|]. right.
    eexists p, _, _. split; [reflexivity|]. split; [|split; [reflexivity|cbv zeta; cbn [an_seen an_given an_metrics an_again]; auto]]. reflexivity.
  Qed.

  Lemma seen_res k r : nth_error (an_seen an) k = Some r -> r = res k.
  Proof.
    destruct route_shape as [(E & _)|(p & w & q & _ & _ & H)]; [|cbv zeta in H; destruct H as (_ & E & _)]; rewrite E.
    - destruct k; cbn; [congruence|destruct k; discriminate].
    - rewrite nth_error_map. destruct (nth_error _ k) as [j|] eqn:N; [|discriminate]. cbn. intros H. injection H as <-.
      assert (k < length (seq 0 (length (d_attempts
        (send_req_with_retries (is_retryable p) (set_extensions p) (N.to_nat (p_max_retries p))
           (turn_of on_request on_response t trials hs0) w q)))))%nat as L by (apply nth_error_Some; congruence).
      rewrite seq_length in L. apply nth_error_nth with (d := 0%nat) in N. rewrite seq_nth in N by exact L. now rewrite <- N.
  Qed.
  Lemma as_outcome_sees r : client_sees r (as_outcome r).
  Proof.
    destruct r as [[c|] e| |c h o]; cbn; auto; eexists; split; try reflexivity; intros H;
      repeat (destruct H as [H|H]; [discriminate|]); exact H.
  Qed.
  Lemma last_seen : exists before r, an_seen an = before ++ [r] /\ an_given an = as_outcome r /\ r = res (length before).
  Proof.
    assert (exists before r, an_seen an = before ++ [r] /\ an_given an = as_outcome r) as (bf & r & E & G).
    { destruct route_shape as [(E & G & _)|(p & w & q & _ & Hq & H)].
      - exists [], (res 0%nat). auto.
      - cbv zeta in H. destruct H as (-> & E & G & _).
        set (env := turn_of on_request on_response t trials hs0) in *.
        set (d := send_req_with_retries _ _ _ env _ _) in *.
        pose proof (attempts_nonempty (is_retryable p) (set_extensions p) (N.to_nat (p_max_retries p)) env b (p_max_bytes p) q) as Ne.
        fold d in Ne.
        destruct (answered (is_retryable p) (set_extensions p) (N.to_nat (p_max_retries p)) env b (p_max_bytes p) q Hq)
          as [La|(e & o & _ & R & _)]; [|cbn in R; discriminate]. fold d in La.
        destruct (exists_last Ne) as (l & a & El). rewrite El in *.
        exists (map res (seq 0 (length l))), (res (length l)). split.
        + rewrite E, app_length. cbn [length]. rewrite Nat.add_1_r, seq_S, map_app. reflexivity.
        + rewrite G. unfold last_answer in La. rewrite rev_app_distr in La. cbn [rev app hd_error option_map] in La. injection La as La. rewrite <- La.
          assert (at_outcome a = t_outcome (env (length l))) as ->; [|reflexivity].
          apply (outcomes (is_retryable p) (set_extensions p) (N.to_nat (p_max_retries p)) env b (p_max_bytes p) q Hq).
          fold d. rewrite El. rewrite nth_error_app2, Nat.sub_diag; [reflexivity|lia]. }
    exists bf, r. repeat split; auto. apply seen_res. rewrite E, nth_error_app2, Nat.sub_diag; [reflexivity|lia].
  Qed.

  Lemma sent_on : goes_on (RetryModel.pa_allow (rp (ta_params t))) hs hs0.
  Proof.
    unfold goes_on, hs0. destruct (RetryModel.pa_allow (rp (ta_params t))) eqn:A.
    - pose proof (headers_removed _ hs A) as H.
      destruct (set_request_extensions (rp (ta_params t)) hs) as [[x y] z]. exact H.
    - rewrite (not_allowed _ hs A). reflexivity.
  Qed.

  Lemma call_is_ok : DistributeSpec.valid (ta_distribution t) ->
    call_ok passes amends (RetryModel.pa_allow (rp (ta_params t))) t hs trials an.
  Proof.
    intros V. exists hs0. split; [exact sent_on|]. split.
    - intros k r H. rewrite (seen_res k r H). apply attempt_tried, V.
    - destruct last_seen as (bf & r & E & -> & _). exists bf, r. split; [exact E|apply as_outcome_sees].
  Qed.

  Lemma retryable_calls p r : is_retryable p (as_outcome r) = true <-> calls_for_retry (Some p) r.
  Proof.
    split.
    - intros H. destruct r as [[c|] e| |c h o]; cbn in H; try discriminate.
      exists p, c, h, o. repeat split. destruct o; [apply retryable_response_iff|apply (retryable_error_iff p)]; exact H.
    - intros (p' & c & h & o & E & -> & H). injection E as <-. cbn [as_outcome].
      destruct o; [apply retryable_response_iff|apply retryable_error_iff]; exact H.
  Qed.

  Lemma nth_seen before r after : an_seen an = before ++ r :: after -> nth_error (an_seen an) (length before) = Some r.
  Proof. intros ->. rewrite nth_error_app2, Nat.sub_diag; [reflexivity|lia]. Qed.

  Lemma retries_are_ok : retries_ok pol an /\ m_overflow (an_metrics an) = 0.
  Proof.
    unfold retries_ok. destruct route_shape as [(E & G & M & A)|(p & w & q & Ep & Hq & H)].
    - rewrite E, M, A. cbn [length]. split; [|reflexivity]. split; [lia|]. split; [|split; [auto|reflexivity]].
      intros [|x bf] r af H Ne; [injection H as _ <-; contradiction|]. injection H as _ H. destruct bf; discriminate.
    - cbv zeta in H. destruct H as (-> & E & G & M & A). rewrite Ep. cbn [retry_limit].
      set (env := turn_of on_request on_response t trials hs0) in *.
      set (d := send_req_with_retries _ _ _ env _ _) in *.
      pose proof (at_most (is_retryable p) (set_extensions p) (N.to_nat (p_max_retries p)) env b (p_max_bytes p) q Hq) as L.
      fold d in L.
      destruct (counts (is_retryable p) (set_extensions p) (N.to_nat (p_max_retries p)) env b (p_max_bytes p) q Hq)
        as (C1 & _ & C3 & _ & C5). fold d in C1, C3, C5.
      assert (Ln : length (an_seen an) = length (d_attempts d)) by (rewrite E, map_length, seq_length; reflexivity).
      assert (At : forall i a, nth_error (d_attempts d) i = Some a -> at_outcome a = as_outcome (res i)).
      { intros i a Ha. apply (outcomes (is_retryable p) (set_extensions p) (N.to_nat (p_max_retries p)) env b (p_max_bytes p) q Hq i a Ha). }
      split; [split; [|split; [|split]]|].
      + rewrite Ln. lia.
      + intros bf r af H Ne. apply retryable_calls. pose proof (nth_seen bf r af H) as Nr.
        rewrite (seen_res _ _ Nr).
        assert (S (length bf) < length (d_attempts d))%nat as Lb.
        { rewrite <- Ln, H, app_length. destruct af; [contradiction|]. cbn. lia. }
        destruct (nth_error (d_attempts d) (length bf)) as [a|] eqn:Ea; [|apply nth_error_None in Ea; lia].
        rewrite <- (At _ _ Ea).
        exact (only_retryable (is_retryable p) (set_extensions p) (N.to_nat (p_max_retries p)) env b (p_max_bytes p) q Hq _ a Ea Lb).
      + intros bf r H Cr. rewrite A, Ln.
        destruct (Nat.eq_dec (length (d_attempts d)) (1 + N.to_nat (p_max_retries p))) as [Q|Q]; [right; exact Q|left].
        apply retryable_calls in Cr.
        assert (last_answer (d_attempts d) = Some (as_outcome r)) as La.
        { destruct last_seen as (bf' & r' & E' & G' & _). rewrite E' in H. apply app_inj_tail in H as [_ ->].
          rewrite <- G', G.
          destruct (answered (is_retryable p) (set_extensions p) (N.to_nat (p_max_retries p)) env b (p_max_bytes p) q Hq)
            as [La|(e & o & _ & R & _)]; [exact La|cbn in R; discriminate]. }
        pose proof (stops (is_retryable p) (set_extensions p) (N.to_nat (p_max_retries p)) env b (p_max_bytes p) q Hq
                     (as_outcome r) La Cr) as St.
        fold d in St. assert (length (d_attempts d) <= N.to_nat (p_max_retries p))%nat as Q' by lia.
        specialize (St Q' eq_refl). destruct (is_capped _ _) as [[|]|]; congruence.
      + rewrite M, Ln. exact C1.
      + rewrite M. assert (m_overflow (d_metrics d) = 0 \/ m_overflow (d_metrics d) = 1) as [Z|Z] by lia; [exact Z|].
        destruct (C5 Z) as [R _]. cbn in R. discriminate.
  Qed.
End Attempt.

Section Top.
  Variable pq_valid : bytes -> bool.
  Lemma tried_chosen {F P} passes amends (t : target F P) tr hs r : tried passes amends t tr hs r -> well_chosen t tr r.
  Proof.
    destruct 1 as [e|hs1 _ C|hs1 i fs c e _ C B|hs1 hs2 i fs c o1 o2 o _ C B]; cbn; auto.
    - intros i. exact (picks_none _ _ i C).
    - exists i, fs. split; [exact B|exact (proj1 (picks_backend _ _ _ C))].
    - exists i, fs. split; [exact B|exact (proj1 (picks_backend _ _ _ C))].
  Qed.
  Lemma found_valid {M F P} accepts rank default (routes : list (route M (target F P))) req t :
    all_valid routes -> first_best accepts rank default routes req t -> DistributeSpec.valid (ta_distribution t).
  Proof.
    intros V (bf & rt & af & rb & ru & ra & r & -> & E & <- & _). apply (V rt).
    - apply in_or_app. right. left. reflexivity.
    - rewrite E. apply in_or_app. right. left. reflexivity.
  Qed.

  Theorem http_none routes req u b hint trials : well_formed routes ->
    (http_call pq_valid routes req u b hint trials = No_route <->
     no_rule_applies http_accepts http_rank http_default_rank routes req).
  Proof.
    intros W. rewrite <- (http_find_none routes req W). unfold http_call.
    destruct (http_find routes req) as [[[h rm] t]|]; split; congruence.
  Qed.
  Theorem grpc_none routes req b hint trials : well_formed routes ->
    (grpc_call routes req b hint trials = No_route <->
     no_rule_applies grpc_accepts grpc_rank grpc_default_rank routes req).
  Proof.
    intros W. rewrite <- (grpc_find_none routes req W). unfold grpc_call.
    destruct (grpc_find routes req) as [[h t]|]; split; congruence.
  Qed.

  Theorem http_routed routes req u b hint trials m a : well_formed routes -> all_valid routes ->
    http_call pq_valid routes req u b hint trials = Routed m a ->
    exists h rm t, http_find routes req = Some ((h, rm), t) /\
      first_best http_accepts http_rank http_default_rank routes req t /\ m = ta_meta t /\
      call_ok (http_passes pq_valid u rm) http_amends (pa_allow_headers (ta_params t)) t (rq_headers req) trials a /\
      (forall k r, nth_error (an_seen a) k = Some r -> well_chosen t (trials k) r) /\
      (retries_ok (fst (fst (set_request_extensions (http_retry (ta_params t)) (rq_headers req)))) a /\
       m_overflow (an_metrics a) = 0).
  Proof.
    intros W V. unfold http_call. destruct (http_find routes req) as [[[h rm] t]|] eqn:E; [|discriminate].
    intros H. injection H as <- <-. pose proof (http_find_first_best routes req _ t W E) as Fb.
    exists h, rm, t. split; [reflexivity|]. split; [exact Fb|]. split; [reflexivity|].
    assert (call_ok (http_passes pq_valid u rm) http_amends (pa_allow_headers (ta_params t)) t (rq_headers req) trials
      (route_call (http_request pq_valid u rm) http_response http_retry t (rq_headers req) b hint trials)) as C.
    { apply (call_is_ok (http_request pq_valid u rm) http_response (http_passes pq_valid u rm) http_amends (http_passes_iff pq_valid u rm) http_amends_iff http_retry).
      exact (found_valid _ _ _ _ _ _ V Fb). }
    split; [exact C|]. split; [|apply (retries_are_ok (http_request pq_valid u rm) http_response http_amends http_amends_iff)].
    intros k r Hr. destruct C as (hs0 & _ & C & _). exact (tried_chosen _ _ _ _ _ _ (C k r Hr)).
  Qed.
  Theorem grpc_routed routes req b hint trials m a : well_formed routes -> all_valid routes ->
    grpc_call routes req b hint trials = Routed m a ->
    exists h t, grpc_find routes req = Some (h, t) /\
      first_best grpc_accepts grpc_rank grpc_default_rank routes req t /\ m = ta_meta t /\
      call_ok grpc_passes grpc_amends (pa_allow_headers (ta_params t)) t (rq_headers req) trials a /\
      (forall k r, nth_error (an_seen a) k = Some r -> well_chosen t (trials k) r) /\
      (retries_ok (fst (fst (set_request_extensions (grpc_retry (ta_params t)) (rq_headers req)))) a /\
       m_overflow (an_metrics a) = 0).
  Proof.
    intros W V. unfold grpc_call. destruct (grpc_find routes req) as [[h t]|] eqn:E; [|discriminate].
    intros H. injection H as <- <-. pose proof (grpc_find_first_best routes req _ t W E) as Fb.
    exists h, t. split; [reflexivity|]. split; [exact Fb|]. split; [reflexivity|].
    assert (call_ok grpc_passes grpc_amends (pa_allow_headers (ta_params t)) t (rq_headers req) trials
      (route_call grpc_request grpc_response grpc_retry t (rq_headers req) b hint trials)) as C.
    { apply (call_is_ok grpc_request grpc_response grpc_passes grpc_amends grpc_passes_iff grpc_amends_iff grpc_retry).
      exact (found_valid _ _ _ _ _ _ V Fb). }
    split; [exact C|]. split; [|apply (retries_are_ok grpc_request grpc_response grpc_amends grpc_amends_iff)].
    intros k r Hr. destruct C as (hs0 & _ & C & _). exact (tried_chosen _ _ _ _ _ _ (C k r Hr)).
  Qed.
End Top.

(** ** The routers that policies make *)
Lemma collect_in {A B} (f : A -> option B) : forall l r, collect f l = Some r -> forall y, In y r -> exists x, In x l /\ f x = Some y.
Proof.
  induction l as [|x l IH]; cbn; intros r H y Hy.
  - injection H as <-. destruct Hy.
  - destruct (f x) as [z|] eqn:E; [|discriminate]. fold (collect f l) in H.
    destruct (collect f l) as [r'|]; [|discriminate]. injection H as <-.
    destruct Hy as [<-|Hy]; [exists x; auto|]. destruct (IH _ eq_refl y Hy) as (x' & ? & ?). exists x'. auto.
Qed.
Theorem built {M F P} (rts : list (route M (route_policy F P))) backends r :
  mk_http_router rts backends = Some r -> all_valid (ro_routes r).
Proof.
  unfold mk_http_router. intros H.
  destruct (collect _ rts) as [rs|] eqn:E; [|discriminate].
  destruct (collect (mk_dispatch false) backends) as [bs|]; [|discriminate]. injection H as <-. cbn [ro_routes].
  intros rt ru Hrt Hru. destruct (collect_in _ _ _ E rt Hrt) as (rt0 & _ & Er).
  destruct (collect _ (rt_rules rt0)) as [rules|] eqn:E1; [|discriminate]. injection Er as <-. cbn [rt_rules] in Hru.
  destruct (collect_in _ _ _ E1 ru Hru) as (ru0 & _ & Eu).
  destruct (mk_policy false (ru_policy ru0)) as [t|] eqn:E2; [|discriminate]. injection Eu as <-. cbn [ru_policy].
  unfold mk_policy in E2. destruct (mk_distribution false (rp_distribution (ru_policy ru0))) as [d|] eqn:E3; [|discriminate].
  injection E2 as <-. cbn [ta_distribution].
  destruct (rp_distribution (ru_policy ru0)) as [|l|l]; cbn in E3.
  - injection E3 as <-. exact I.
  - destruct (collect _ l) as [keys|]; [|discriminate]. injection E3 as <-. unfold DistributeModel.first_available. destruct keys; exact I.
  - destruct (collect _ l) as [keys|]; [|discriminate]. unfold DistributeModel.random_route in E3.
    destruct (DistributeModel.random_available keys) as [d'|] eqn:E4; [|discriminate]. injection E3 as <-.
    exact (DistributeProofs.random_valid _ _ _ E4).
Qed.

Theorem injected_always i draw : if_numerator i = if_denominator i -> happens i draw.
Proof. intros H. left. exact H. Qed.
Theorem injected_never i draw : if_numerator i = 0 -> if_denominator i <> 0 -> ~ happens i draw.
Proof.
  intros H Z [E|L]; [congruence|]. rewrite H, N.mul_0_l in L. apply N.le_0_r, N.eq_mul_0 in L. lia.
Qed.

(** ** Settings *)
Lemma in_ms_ms t : in_ms t (option_map ms t).
Proof.
  destruct t as [t|]; [|exact I]. unfold in_ms, option_map, ms, millis.
  pose proof (N.div_mod t 1000000 ltac:(discriminate)) as D. pose proof (N.mod_lt t 1000000 ltac:(discriminate)) as L.
  set (q := t / 1000000) in *. set (r := t mod 1000000) in *. clearbody q r. subst t. rewrite N.mul_add_distr_r, (N.mul_comm q). split.
  - rewrite <- N.le_add_r. reflexivity || apply N.le_add_r.
  - apply N.add_lt_mono_l. exact L.
Qed.
Lemma no_header hs n : (forall m v, In (m, v) hs -> ~ In m own_headers) -> In n own_headers -> hm_get hs n = None.
Proof.
  intros H I. unfold hm_get in *. induction hs as [|[k v] hs IH]; [reflexivity|]. destruct (beq k n) eqn:E.
  - apply BytesProofs.beq_eq in E. subst k. exfalso. exact (H n v (or_introl eq_refl) I).
  - cbn. rewrite E. apply IH. intros m w J. apply (H m w). right. exact J.
Qed.
Lemma route_settings {C} http grpc (pa : ClientPolicyModel.params C) hs : unconfigured pa hs ->
  let '(p, x, hs') := set_request_extensions (retry_of http grpc pa) hs in
  settings http grpc pa p x /\ (pa_allow_headers pa = false -> hs' = hs).
Proof.
  intros U.
  assert (S : fst (set_request_extensions (retry_of http grpc pa) hs) =
    (RetryModel.pa_retry (retry_of http grpc pa), Ext (Some 1) (Some (RetryModel.Timeouts (bind (RetryModel.pa_retry (retry_of http grpc pa)) p_timeout)
       (pa_response (retry_of http grpc pa)) (pa_idle (retry_of http grpc pa)) (pa_request (retry_of http grpc pa))))) /\
    (pa_allow_headers pa = false -> snd (set_request_extensions (retry_of http grpc pa) hs) = hs)).
  { destruct (pa_allow_headers pa) eqn:A.
    - destruct U as [U|U]; [congruence|]. split; [|discriminate].
      pose proof (configured (retry_of http grpc pa) hs A) as K. cbv zeta in K.
      destruct (set_request_extensions (retry_of http grpc pa) hs) as [[p x] hs']. destruct K as (_ & -> & ->).
      cbn [fst]. rewrite !(no_header hs) by (exact U || (cbv; tauto)). cbn [bind option_map or].
      destruct (RetryModel.pa_retry (retry_of http grpc pa)) as [[a b c d e f]|]; reflexivity.
    - rewrite (not_allowed (retry_of http grpc pa) hs A). split; reflexivity. }
  destruct (set_request_extensions (retry_of http grpc pa) hs) as [[p x] hs']. cbn [fst snd] in S. destruct S as [[= -> ->] H].
  split; [|exact H]. unfold settings. destruct pa as [to re al ex]. cbn.
  split.
  - destruct re as [r|]; [|exact I]. cbn. repeat split. apply in_ms_ms.
  - split; [reflexivity|]. eexists. split; [reflexivity|]. cbn [to_headers to_limit to_end RetryModel.to_idle].
    split; [destruct re; reflexivity|]. repeat split; apply in_ms_ms.
Qed.
