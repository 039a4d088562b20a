From Coq Require Import String List Arith NArith ZArith Bool Reals Lra Lia Permutation.
From Verif Require Import Bytes BytesProofs FilterModel TraceModel RetrySpec RetryParseProofs HintModel HintSpec HintProofs EwmaModel EwmaSpec EwmaProofs BiaserModel BiaserSpec.
Import ListNotations.
Open Scope N_scope.

(** * Failures *)
Lemma is_grpc_iff : forall r, (status r =? 200) && is_grpc (hdrs r) = true <-> grpc_answer r.
Proof.
  intros r. rewrite andb_true_iff, N.eqb_eq. unfold is_grpc, grpc_answer. split.
  - intros [E H]. split; [exact E|]. destruct (hm_get (hdrs r) (bs "content-type")) as [ct|]; [|discriminate].
    destruct (to_str_cases ct) as [[T P]|[T P]]; rewrite T in H; [|discriminate]. apply starts_with_iff in H as [rest ->]. eauto 10.
  - intros [E (ct & rest & G & P & EC)]. split; [exact E|]. rewrite G. apply to_str_iff in P. rewrite P. apply starts_with_iff. eauto.
Qed.
Definition code_of (r : response) : option N :=
  if (status r =? 200) && is_grpc (hdrs r) then
    match hm_get (hdrs r) (bs "grpc-status") with
    | None => None
    | Some v => match to_str v with None => None | Some s => parse_uint u16_max s end
    end
  else None.
Lemma code_of_iff : forall r k, code_of r = Some k <-> grpc_status r k.
Proof.
  intros r k. unfold code_of, grpc_status. destruct ((status r =? 200) && is_grpc (hdrs r)) eqn:G.
  2:{ split; [discriminate|]. intros [H _]. apply is_grpc_iff in H. congruence. }
  apply is_grpc_iff in G. split.
  - intros H. split; [exact G|]. destruct (hm_get (hdrs r) (bs "grpc-status")) as [v|]; [|discriminate].
    destruct (to_str_cases v) as [[T P]|[T P]]; rewrite T in H; [|discriminate]. exists v. split; [reflexivity|]. split; [exact P|].
    assert (k <= u16_max) by (apply parse_uint_some in H as (? & ? & ? & ? & ? & ?); lia). split; [now apply (number_iff u16_max)|]. change (2 ^ 16) with (u16_max + 1). lia.
  - intros [_ (v & E & P & Nu & L)]. rewrite E. apply to_str_iff in P. rewrite P. apply number_iff; [change (2 ^ 16) with (u16_max + 1) in L; lia|exact Nu].
Qed.
Lemma failure_hint_code : forall r, failure_hint r =
  if status r =? 429 then Some Rate_limited else if status r =? 503 then Some Service_unavailable
  else if (500 <=? status r) && (status r <? 600) then Some Internal_error
  else match code_of r with
       | None => None
       | Some code => if code =? 0 then None else if code =? 8 then Some Rate_limited else if code =? 14 then Some Service_unavailable
                      else if (code =? 2) || (code =? 4) || (code =? 13) || (code =? 15) then Some Internal_error else None
       end.
Proof.
  intros r. unfold failure_hint, code_of. destruct (status r =? 429); [reflexivity|]. destruct (status r =? 503); [reflexivity|].
  destruct ((500 <=? status r) && (status r <? 600)); [reflexivity|]. destruct ((status r =? 200) && is_grpc (hdrs r)); [|reflexivity].
  destruct (hm_get (hdrs r) (bs "grpc-status")) as [v|]; [|reflexivity]. destruct (to_str v); reflexivity.
Qed.
Lemma grpc_status_200 : forall r k, grpc_status r k -> status r = 200.
Proof. intros r k [[H _] _]. exact H. Qed.
Lemma failure_overloaded : forall r, overloaded r <-> failure_hint r = Some Rate_limited \/ failure_hint r = Some Service_unavailable.
Proof.
  intros r. rewrite failure_hint_code. unfold overloaded. destruct (N.eqb_spec (status r) 429) as [E|E]; [tauto|]. destruct (N.eqb_spec (status r) 503) as [E'|E']; [tauto|].
  destruct ((500 <=? status r) && (status r <? 600)) eqn:E5.
  { apply andb_prop in E5 as [E5 _]. apply N.leb_le in E5. split; [|intros [D|D]; discriminate]. intros [H|[H|[H|H]]]; [contradiction|contradiction| |]; apply grpc_status_200 in H; lia. }
  destruct (code_of r) as [k|] eqn:C.
  - assert (U : forall k', grpc_status r k' <-> k' = k). { intros k'. rewrite <- code_of_iff, C. split; [congruence|intros ->; reflexivity]. }
    rewrite !U. destruct (N.eqb_spec k 0); [split; [lia|intros [D|D]; discriminate]|]. destruct (N.eqb_spec k 8); [split; auto|]. destruct (N.eqb_spec k 14); [split; auto|].
    split; [lia|]. destruct (_ || _); intros [D|D]; discriminate.
  - assert (U : forall k', ~ grpc_status r k'). { intros k' H. apply code_of_iff in H. congruence. }
    split; [|intros [D|D]; discriminate]. intros [H|[H|[H|H]]]; try contradiction; destruct (U _ H).
Qed.
Lemma failure_broken : forall r, broken r <-> failure_hint r = Some Internal_error.
Proof.
  intros r. rewrite failure_hint_code. unfold broken. destruct (N.eqb_spec (status r) 429) as [E|E].
  { split; [|discriminate]. intros [H|(k & H & _)]; [lia|]. apply grpc_status_200 in H. lia. }
  destruct (N.eqb_spec (status r) 503) as [E'|E'].
  { split; [|discriminate]. intros [H|(k & H & _)]; [lia|]. apply grpc_status_200 in H. lia. }
  destruct ((500 <=? status r) && (status r <? 600)) eqn:E5.
  { apply andb_prop in E5 as [E5 E6]. apply N.leb_le in E5. apply N.ltb_lt in E6. split; auto. }
  assert (N5 : ~ 500 <= status r < 600). { intros [A B]. apply N.leb_le in A. apply N.ltb_lt in B. rewrite A, B in E5. discriminate. }
  destruct (code_of r) as [k|] eqn:C.
  - assert (U : forall k', grpc_status r k' <-> k' = k). { intros k'. rewrite <- code_of_iff, C. split; [congruence|intros ->; reflexivity]. }
    assert (X : ((500 <= status r < 600 /\ status r <> 503) \/ (exists k', grpc_status r k' /\ In k' [2; 4; 13; 15])) <-> In k [2; 4; 13; 15]).
    { split; [intros [H|(k' & H & I)]; [tauto|apply U in H as ->; exact I]|]. intros I. right. exists k. split; [apply U; reflexivity|exact I]. }
    rewrite X. cbn [In]. destruct (N.eqb_spec k 0); [split; [lia|discriminate]|]. destruct (N.eqb_spec k 8); [split; [lia|discriminate]|]. destruct (N.eqb_spec k 14); [split; [lia|discriminate]|].
    destruct (N.eqb_spec k 2); [cbn [orb]; split; [reflexivity|lia]|]. destruct (N.eqb_spec k 4); [cbn [orb]; split; [reflexivity|lia]|]. destruct (N.eqb_spec k 13); [cbn [orb]; split; [reflexivity|lia]|]. destruct (N.eqb_spec k 15); [cbn [orb]; split; [reflexivity|lia]|]. cbn [orb]. split; [lia|discriminate].
  - split; [|discriminate]. intros [H|(k & H & _)]; [tauto|]. apply code_of_iff in H. congruence.
Qed.

(** * Advice *)
Section Advice.
  Variable date : bytes -> option N.
  Lemma delay_cap : forall wall m1 m2 v d, delay_text date wall m1 v d -> delay_text date wall (N.min m1 m2) v (N.min d m2).
  Proof.
    intros wall m1 m2 v d (t & T & H). exists t. split; [exact T|]. destruct H as [(s & Nu & L & ->)|(Nn & a & D & ->)]; [left|right].
    - exists s. repeat split; [exact Nu|exact L|lia].
    - split; [exact Nn|]. exists a. split; [exact D|lia].
  Qed.
  Lemma pushback_cap : forall m1 m2 v d, pushback_text m1 v d -> pushback_text (N.min m1 m2) v (N.min d m2).
  Proof. intros m1 m2 v d (t & ms & T & L & -> & H). exists t, ms. repeat split; [exact T|exact L|lia|exact H]. Qed.
  Lemma advice_iff : forall wall max r, max <= duration_max -> cached r = None -> forall d,
    rate_limit_hint date (attach date r wall) max wall = Some d <-> advice date wall max r d.
  Proof.
    intros wall max r M C. unfold attach. destruct (parse_retry_after date wall (status r) (hdrs r) duration_max) as [d0|] eqn:P.
    - unfold rate_limit_hint. cbn [cached]. apply retry_after_iff in P as (ST & v & E & Pv & D). intros d.
      assert (W : delay_text date wall max v (N.min d0 max)) by (replace max with (N.min duration_max max) at 1 by lia; apply delay_cap; exact D).
      assert (R : parse_retry_after date wall (status r) (hdrs r) max = Some (N.min d0 max)) by (apply retry_after_iff; eauto 10).
      split; [intros [= <-]; left; eauto 10|]. intros [(ST' & v' & H)|((S200 & _) & _)]; [|lia].
      assert (R' : parse_retry_after date wall (status r) (hdrs r) max = Some d) by (apply retry_after_iff; eauto). congruence.
    - assert (NP : parse_retry_after date wall (status r) (hdrs r) max = None).
      { destruct (parse_retry_after date wall (status r) (hdrs r) max) as [d|] eqn:Q; [|reflexivity]. exfalso. apply retry_after_iff in Q as (ST & v & E & Pv & (t & T & H)).
        assert (X : exists d', delay_text date wall duration_max v d').
        { destruct H as [(s & Nu & L & _)|(Nn & a & D & _)]; eexists; exists t; (split; [exact T|]); [left; eauto|right; split; [exact Nn|]; eauto]. }
        destruct X as [d' X]. assert (parse_retry_after date wall (status r) (hdrs r) duration_max = Some d') by (apply retry_after_iff; eauto 10). congruence. }
      intros d. assert (NOR : ~ ((status r = 429 \/ status r = 503) /\ exists v, hm_get (hdrs r) (bs "retry-after") = Some v /\ printable v /\ delay_text date wall max v d)).
      { intros H. apply retry_after_iff in H. congruence. }
      destruct ((status r =? 200) && is_grpc (hdrs r)) eqn:G.
      + assert (GA : grpc_answer r) by (apply is_grpc_iff; exact G). unfold advice. destruct (parse_grpc_retry_pushback (hdrs r) duration_max) as [d0|] eqn:Q.
        * unfold rate_limit_hint. cbn [cached]. apply pushback_iff in Q as (v & E & Pv & D).
          assert (W : pushback_text max v (N.min d0 max)) by (replace max with (N.min duration_max max) at 1 by lia; apply pushback_cap; exact D).
          assert (R : parse_grpc_retry_pushback (hdrs r) max = Some (N.min d0 max)) by (apply pushback_iff; eauto).
          split; [intros [= <-]; right; eauto 10|]. intros [H|(_ & H)]; [contradiction|]. apply pushback_iff in H. congruence.
        * unfold rate_limit_hint. rewrite C, NP, G. rewrite pushback_iff. split; [intros H; right; auto|intros [H|[_ H]]; [contradiction|exact H]].
      + unfold rate_limit_hint. rewrite C, NP, G. split; [discriminate|]. intros [H|[H _]]; [contradiction|]. apply is_grpc_iff in H. congruence.
  Qed.
End Advice.

(** * Histories *)
Open Scope nat_scope.
Section Runs.
  Variable date : bytes -> option N.
  Notation step := (step date).
  Notation run := (run date).
  Definition cnt (id : nat) (l : list handle) : nat := length (filter (fun h => Nat.eqb (h_id h) id) l).
  Lemma cnt_without : forall id l, length (without id l) + cnt id l = length l.
  Proof. intros id l. unfold without, cnt. induction l as [|h l IH]; [reflexivity|]. cbn. destruct (Nat.eqb (h_id h) id); cbn; lia. Qed.
  Lemma cnt_without_same : forall id l, cnt id (without id l) = 0.
  Proof. intros id l. unfold without, cnt. induction l as [|h l IH]; [reflexivity|]. cbn. destruct (Nat.eqb (h_id h) id) eqn:E; cbn; [exact IH|]. rewrite E. exact IH. Qed.
  Lemma cnt_without_other : forall id id' l, id <> id' -> cnt id (without id' l) = cnt id l.
  Proof.
    intros id id' l N. unfold without, cnt. induction l as [|h l IH]; [reflexivity|]. cbn. destruct (Nat.eqb_spec (h_id h) id'); cbn.
    - destruct (Nat.eqb_spec (h_id h) id); [congruence|exact IH].
    - destruct (Nat.eqb (h_id h) id); cbn; [f_equal|]; exact IH.
  Qed.
  Definition mark (id : nat) (l : list handle) := map (fun x => if Nat.eqb (h_id x) id then Handle id (h_sent x) true else x) l.
  Lemma cnt_mark : forall id id' l, cnt id (mark id' l) = cnt id l.
  Proof. intros id id' l. unfold mark, cnt. induction l as [|h l IH]; [reflexivity|]. cbn. destruct (Nat.eqb_spec (h_id h) id') as [E|E]; cbn [h_id]; [rewrite E; destruct (Nat.eqb id' id)|destruct (Nat.eqb (h_id h) id)]; cbn; lia. Qed.
  Lemma calls_app : forall a b, calls (a ++ b) = calls a + calls b.
  Proof. intros. unfold calls. rewrite filter_app, app_length. reflexivity. Qed.
  Lemma records_app : forall a b, records (a ++ b) = records a + records b.
  Proof. intros. unfold records. rewrite filter_app, app_length. reflexivity. Qed.
  Lemma records_of_app : forall id a b, records_of id (a ++ b) = records_of id a + records_of id b.
  Proof. intros. unfold records_of. rewrite filter_app, app_length. reflexivity. Qed.
  Lemma find_handle_some : forall b id h, find_handle b id = Some h -> In h (b_handles b) /\ h_id h = id /\ 1 <= cnt id (b_handles b).
  Proof.
    intros b id h H. unfold find_handle in H. pose proof (find_some _ _ H) as [I E]. apply Nat.eqb_eq in E. split; [exact I|]. split; [exact E|].
    unfold cnt. destruct (filter (fun h0 => Nat.eqb (h_id h0) id) (b_handles b)) as [|x f] eqn:F; [|cbn; lia]. exfalso.
    assert (J : In h (filter (fun h0 => Nat.eqb (h_id h0) id) (b_handles b))) by (apply filter_In; split; [exact I|apply Nat.eqb_eq; exact E]). rewrite F in J. destruct J.
  Qed.
  Lemma find_handle_none : forall b id, find_handle b id = None -> cnt id (b_handles b) = 0.
  Proof.
    intros b id H. unfold cnt. destruct (filter (fun h0 => Nat.eqb (h_id h0) id) (b_handles b)) as [|x f] eqn:F; [reflexivity|]. exfalso.
    assert (J : In x (filter (fun h0 => Nat.eqb (h_id h0) id) (b_handles b))) by (rewrite F; left; reflexivity). apply filter_In in J as [J1 J2].
    pose proof (find_none _ _ H x J1) as K. cbn in K. congruence.
  Qed.

  (** What a step does: it begins a request, ends one, or neither *)
  Inductive effect (b : biaser) : biaser -> list event -> Prop :=
  | Eff_call t : effect b (Biaser (b_config b) (b_rtt b) (Handle (b_next b) t false :: b_handles b) (S (b_next b))) [Called (b_next b) t]
  | Eff_drop h p t : find_handle b (h_id h) = Some h -> effect b (fst (drop_handle b h p t)) (snd (drop_handle b h p t))
  | Eff_mark id : effect b (Biaser (b_config b) (b_rtt b) (mark id (b_handles b)) (b_next b)) []
  | Eff_none l : (forall e, In e l -> exists v t, e = Loaded v t) -> effect b b l.
  Lemma step_effect : forall b o b' l, step b o = Some (b', l) -> effect b b' l.
  Proof.
    assert (K : forall b h p t b' l id, find_handle b id = Some h -> Some (drop_handle b h p t) = Some (b', l) -> effect b b' l).
    { intros b h p t b' l id F E. destruct (find_handle_some _ _ _ F) as (_ & <- & _). injection E as <- <-. exact (Eff_drop b h p t F). }
    intros b o b' l E. destruct o as [t|id r ended t wall|id t|id t|id t|t]; cbn in E.
    - injection E as <- <-. apply Eff_call.
    - destruct (find_handle b id) as [h|] eqn:F; [|discriminate]. destruct (in_body h); [discriminate|]. destruct (failure_hint r); [exact (K _ _ _ _ _ _ _ F E)|].
      destruct ended; [exact (K _ _ _ _ _ _ _ F E)|]. injection E as <- <-. apply (Eff_mark b id).
    - destruct (find_handle b id) as [h|] eqn:F; [|discriminate]. destruct (in_body h); [discriminate|]. exact (K _ _ _ _ _ _ _ F E).
    - destruct (find_handle b id) as [h|] eqn:F; [|injection E as <- <-; apply Eff_none; intros e []]. destruct (in_body h); [|discriminate]. exact (K _ _ _ _ _ _ _ F E).
    - destruct (find_handle b id) as [h|] eqn:F; [|injection E as <- <-; apply Eff_none; intros e []]. exact (K _ _ _ _ _ _ _ F E).
    - injection E as <- <-. apply Eff_none. intros e [<-|[]]. eauto.
  Qed.

  Record inv (c : config) (l : list event) (b : biaser) : Prop := Inv {
    i_config : b_config b = c;
    i_next : calls l = b_next b;
    i_total : records l + length (b_handles b) = b_next b;
    i_each : forall id, records_of id l + cnt id (b_handles b) = if id <? b_next b then 1 else 0;
    i_called : forall h, In h (b_handles b) -> In (Called (h_id h) (h_sent h)) l;
    i_ids : forall id t, In (Called id t) l -> id < b_next b;
    i_unique : forall id t t', In (Called id t) l -> In (Called id t') l -> t = t';
    i_decay : (0 < e_decay (b_rtt b))%R;
    i_value : exists v, e_value (b_rtt b) = Fin v /\ (0 <= v)%R }.
  Lemma secs_nonneg : forall z, (0 <= z)%Z -> (0 <= secs z)%R.
  Proof. intros z H. unfold secs. apply Rmult_le_pos; [apply IZR_le; exact H|lra]. Qed.
  Lemma estimate_exists : forall e t, (0 < e_decay e)%R -> (exists v, e_value e = Fin v /\ (0 <= v)%R) -> exists x, get_at e t = Fin x /\ (0 <= x)%R.
  Proof. intros e t D (v & V & P). destruct (projection e v t D V P) as (p & E & B & _). exists p. split; [exact E|apply B]. Qed.
  Definition dropped_value (b : biaser) (h : handle) (p : option N) (now : Z) : R :=
    match p with
    | None => secs (Z.max 0 (now - h_sent h))
    | Some p => match get_at (b_rtt b) now with Fin rtt => Rmax (secs (Z.of_N p)) rtt | Inf => secs (Z.of_N p) end
    end.
  Lemma dropped_nonneg : forall b h p t, (0 <= dropped_value b h p t)%R.
  Proof.
    intros b h [p|] t; cbn; [|apply secs_nonneg; lia]. assert (P : (0 <= secs (Z.of_N p))%R) by (apply secs_nonneg; lia).
    destruct (get_at (b_rtt b) t); [exact P|]. eapply Rle_trans; [exact P|apply Rmax_l].
  Qed.
  Lemma add_peak_decay : forall e v t, e_decay (add_peak e v t) = e_decay e.
  Proof. intros e v t. unfold add_peak, add. destruct (get_at e t); [reflexivity|]. destruct (Rlt_dec _ _); [reflexivity|]. destruct (_ <=? _)%Z; [reflexivity|]. destruct (e_value e); reflexivity. Qed.
  Lemma inv_run : forall c t0 l b, run c t0 l b -> inv c l b.
  Proof.
    intros c t0 l b H. induction H as [|l b o b' l' H IH E].
    { constructor; cbn; try reflexivity; try contradiction; try (intros; contradiction).
      - apply decay_pos.
      - eexists. split; [reflexivity|]. apply secs_nonneg. lia. }
    apply step_effect in E. destruct IH as [I1 I2 I3 I4 I5 I6 I7 I8 I9]. destruct E as [t|h p t F|id|l' Q].
    - constructor; cbn [b_config b_rtt b_handles b_next]; try assumption.
      + rewrite calls_app, I2. cbn. lia.
      + rewrite records_app. cbn. lia.
      + intros id. rewrite records_of_app. specialize (I4 id). unfold cnt in *. cbn. destruct (Nat.eqb_spec (b_next b) id) as [<-|N]; cbn.
        * rewrite Nat.ltb_irrefl in I4. rewrite Nat.leb_refl. lia.
        * destruct (Nat.ltb_spec id (b_next b)), (Nat.leb_spec id (b_next b)); lia.
      + intros h [<-|I]; rewrite in_app_iff; [right; left; reflexivity|left; auto].
      + intros id t' I. apply in_app_iff in I as [I|[[= <- _]|[]]]; [specialize (I6 id t' I)|]; lia.
      + intros id x y A B. apply in_app_iff in A as [A|[[= <- <-]|[]]]; apply in_app_iff in B as [B|[B|[]]].
        * eauto.
        * injection B as <- <-. apply I6 in A. lia.
        * apply I6 in B. lia.
        * congruence.
    - set (v := dropped_value b h p t). destruct (find_handle_some _ _ _ F) as (IH & _ & C1).
      change (fst (drop_handle b h p t)) with (Biaser (b_config b) (add_peak (b_rtt b) v t) (without (h_id h) (b_handles b)) (b_next b)).
      change (snd (drop_handle b h p t)) with [Recorded (h_id h) v t].
      assert (LT : (h_id h <? b_next b) = true) by (apply Nat.ltb_lt; apply (I6 _ _ (I5 _ IH))).
      assert (C2 : cnt (h_id h) (b_handles b) = 1 /\ records_of (h_id h) l = 0). { specialize (I4 (h_id h)). rewrite LT in I4. lia. }
      constructor; cbn [b_config b_rtt b_handles b_next]; try assumption.
      + rewrite calls_app, I2. cbn. lia.
      + rewrite records_app. cbn. pose proof (cnt_without (h_id h) (b_handles b)). lia.
      + intros id. rewrite records_of_app. unfold records_of at 2. cbn [filter]. destruct (Nat.eqb_spec (h_id h) id) as [<-|N]; cbn [length].
        * rewrite cnt_without_same, LT. lia.
        * rewrite cnt_without_other by congruence. specialize (I4 id). lia.
      + intros x I. apply filter_In in I as [I _]. apply in_app_iff. auto.
      + intros id t' I. apply in_app_iff in I as [I|[I|[]]]; [eauto|discriminate].
      + intros id x y A B. apply in_app_iff in A as [A|[A|[]]]; [|discriminate]. apply in_app_iff in B as [B|[B|[]]]; [|discriminate]. eauto.
      + rewrite add_peak_decay. exact I8.
      + destruct (peak_not_below (b_rtt b) v t I8 (dropped_nonneg b h p t)) as (r & _ & E & V & _). exists r. split; [exact E|]. pose proof (dropped_nonneg b h p t). fold v in H0. lra.
    - rewrite app_nil_r. constructor; cbn [b_config b_rtt b_handles b_next]; try assumption.
      + unfold mark. rewrite map_length. exact I3.
      + intros id'. rewrite cnt_mark. apply I4.
      + intros x I. unfold mark in I. apply in_map_iff in I as (y & <- & I). destruct (Nat.eqb_spec (h_id y) id) as [<-|]; cbn; apply I5; exact I.
    - assert (Z : forall f : event -> bool, (forall v t, f (Loaded v t) = false) -> filter f l' = []).
      { intros f Hf. clear -Q Hf. induction l' as [|e l' IH]; [reflexivity|]. cbn. destruct (Q e (or_introl eq_refl)) as (v & t & ->). rewrite Hf. apply IH. intros; apply Q; right; assumption. }
      constructor; try assumption.
      + rewrite calls_app. unfold calls at 2. rewrite Z by reflexivity. cbn. lia.
      + rewrite records_app. unfold records at 2. rewrite Z by reflexivity. cbn. lia.
      + intros id. rewrite records_of_app. unfold records_of at 2. rewrite Z by reflexivity. cbn [length]. rewrite Nat.add_0_r. apply I4.
      + intros h I. apply in_app_iff. auto.
      + intros id t I. apply in_app_iff in I as [I|I]; [eauto|]. destruct (Q _ I) as (? & ? & ?). discriminate.
      + intros id x y A B. apply in_app_iff in A as [A|A]; [|destruct (Q _ A) as (? & ? & ?); discriminate]. apply in_app_iff in B as [B|B]; [|destruct (Q _ B) as (? & ? & ?); discriminate]. eauto.
  Qed.
  Lemma estimates : forall c t0 l b t, run c t0 l b -> exists x, estimate b t x /\ (0 <= x)%R.
  Proof. intros c t0 l b t H. destruct (inv_run _ _ _ _ H). exact (estimate_exists _ t i_decay0 i_value0). Qed.

  Lemma once : forall c t0 l b, run c t0 l b -> forall id, records_of id l <= 1 /\ (records_of id l = 1 -> id < calls l).
  Proof.
    intros c t0 l b H id. destruct (inv_run _ _ _ _ H) as [_ I2 _ I4 _ _ _ _ _]. specialize (I4 id). rewrite I2. destruct (Nat.ltb_spec id (b_next b)); lia.
  Qed.
  Lemma failing_iff : forall r, overloaded r \/ broken r <-> exists h, failure_hint r = Some h.
  Proof. intros r. rewrite failure_overloaded, failure_broken. destruct (failure_hint r) as [[]|]; split; eauto; try (intros [[D|D]|D]; discriminate); intros [h D]; discriminate. Qed.
  Lemma records_of_drop : forall b h p t id, h_id h = id -> records_of id (snd (drop_handle b h p t)) = 1.
  Proof. intros b h p t id <-. unfold records_of. cbn. rewrite Nat.eqb_refl. reflexivity. Qed.
  Lemma once_ended : forall c t0 l b o b' l' id, run c t0 l b -> step b o = Some (b', l') -> ends o id -> id < calls l -> records_of id (l ++ l') = 1.
  Proof.
    intros c t0 l b o b' l' id H E EN L. rewrite records_of_app. destruct (inv_run _ _ _ _ H) as [_ I2 _ I4 _ _ _ _ _]. specialize (I4 id). rewrite I2 in L. apply Nat.ltb_lt in L. rewrite L in I4.
    assert (K : forall h p t, find_handle b id = Some h -> Some (drop_handle b h p t) = Some (b', l') -> records_of id l + records_of id l' = 1).
    { intros h p t F D. destruct (find_handle_some _ _ _ F) as (_ & EI & C). assert (DL : l' = snd (drop_handle b h p t)) by (apply (f_equal (fun x => match x with Some y => snd y | None => [] end)) in D; symmetry; exact D). rewrite DL, records_of_drop by exact EI. lia. }
    assert (Z : find_handle b id = None -> Some (b, []) = Some (b', l') -> records_of id l + records_of id l' = 1).
    { intros F [= <- <-]. apply find_handle_none in F. cbn. lia. }
    destruct o as [t|i r ended t wall|i t|i t|i t|t]; cbn in EN; try contradiction.
    - destruct EN as [-> EN]. cbn in E. destruct (find_handle b id) as [h|] eqn:F; [|discriminate]. destruct (in_body h); [discriminate|].
      destruct (failure_hint r) as [fh|] eqn:FH; [exact (K _ _ _ eq_refl E)|]. destruct ended; [exact (K _ _ _ eq_refl E)|]. destruct EN as [D|D]; [discriminate|]. apply failing_iff in D as [h' D]. congruence.
    - subst i. cbn in E. destruct (find_handle b id) as [h|] eqn:F; [|discriminate]. destruct (in_body h); [discriminate|]. exact (K _ _ _ eq_refl E).
    - subst i. cbn in E. destruct (find_handle b id) as [h|] eqn:F; [|exact (Z eq_refl E)]. destruct (in_body h); [|discriminate]. exact (K _ _ _ eq_refl E).
    - subst i. cbn in E. destruct (find_handle b id) as [h|] eqn:F; [|exact (Z eq_refl E)]. exact (K _ _ _ eq_refl E).
  Qed.
  Lemma only_ended : forall b o b' l' id v t, step b o = Some (b', l') -> In (Recorded id v t) l' -> ends o id.
  Proof.
    intros b o b' l' id v t E I.
    assert (K : forall h p t' i, find_handle b i = Some h -> Some (drop_handle b h p t') = Some (b', l') -> i = id).
    { intros h p t' i F D. destruct (find_handle_some _ _ _ F) as (_ & EI & _). assert (DL : l' = snd (drop_handle b h p t')) by (apply (f_equal (fun x => match x with Some y => snd y | None => [] end)) in D; symmetry; exact D). rewrite DL in I. cbn in I. destruct I as [[= <- _ _]|[]]. symmetry. exact EI. }
    destruct o as [t'|i r ended t' wall|i t'|i t'|i t'|t']; cbn in E |- *.
    - injection E as <- <-. destruct I as [D|[]]. discriminate.
    - destruct (find_handle b i) as [h|] eqn:F; [|discriminate]. destruct (in_body h); [discriminate|]. destruct (failure_hint r) as [fh|] eqn:FH.
      + split; [exact (K _ _ _ _ F E)|]. right. apply failing_iff. eauto.
      + destruct ended; [split; [exact (K _ _ _ _ F E)|auto]|]. injection E as <- <-. destruct I.
    - destruct (find_handle b i) as [h|] eqn:F; [|discriminate]. destruct (in_body h); [discriminate|]. exact (K _ _ _ _ F E).
    - destruct (find_handle b i) as [h|] eqn:F; [|injection E as <- <-; destruct I]. destruct (in_body h); [|discriminate]. exact (K _ _ _ _ F E).
    - destruct (find_handle b i) as [h|] eqn:F; [|injection E as <- <-; destruct I]. exact (K _ _ _ _ F E).
    - injection E as <- <-. destruct I as [D|[]]. discriminate.
  Qed.
  Lemma in_flight_is : forall c t0 l b, run c t0 l b -> in_flight l = length (filter (fun id => records_of id l =? 0) (seq 0 (calls l))).
  Proof.
    intros c t0 l b H. destruct (inv_run _ _ _ _ H) as [_ I2 I3 I4 _ _ _ _ _]. unfold in_flight. rewrite I2.
    replace (b_next b - records l) with (length (map h_id (b_handles b))) by (rewrite map_length; lia).
    apply Permutation_length, NoDup_Permutation.
    - assert (C : forall id, cnt id (b_handles b) <= 1) by (intros id; specialize (I4 id); destruct (id <? b_next b); lia).
      clear -C. induction (b_handles b) as [|h l IH]; cbn; constructor.
      + intros I. apply in_map_iff in I as (x & E & I). specialize (C (h_id h)). unfold cnt in C. cbn in C. rewrite Nat.eqb_refl in C. cbn in C.
        assert (J : In x (filter (fun h0 => Nat.eqb (h_id h0) (h_id h)) l)) by (apply filter_In; split; [exact I|apply Nat.eqb_eq; exact E]).
        destruct (filter (fun h0 => Nat.eqb (h_id h0) (h_id h)) l); [destruct J|cbn in C; lia].
      + apply IH. intros id. specialize (C id). unfold cnt in *. cbn in C. destruct (Nat.eqb (h_id h) id); cbn in C; lia.
    - apply NoDup_filter, seq_NoDup.
    - intros id. rewrite filter_In, in_seq, Nat.eqb_eq. specialize (I4 id). split.
      + intros I. apply in_map_iff in I as (h & E & I). assert (J : In h (filter (fun h0 => Nat.eqb (h_id h0) id) (b_handles b))) by (apply filter_In; split; [exact I|apply Nat.eqb_eq; exact E]).
        assert (1 <= cnt id (b_handles b)) by (unfold cnt; destruct (filter _ (b_handles b)); [destruct J|cbn; lia]). destruct (Nat.ltb_spec id (b_next b)); lia.
      + intros [L Z]. destruct (Nat.ltb_spec id (b_next b)); [|lia]. assert (C : 1 <= cnt id (b_handles b)) by lia. unfold cnt in C.
        destruct (filter (fun h0 => Nat.eqb (h_id h0) id) (b_handles b)) as [|x f] eqn:F; [cbn in C; lia|].
        assert (J : In x (filter (fun h0 => Nat.eqb (h_id h0) id) (b_handles b))) by (rewrite F; left; reflexivity). apply filter_In in J as [J1 J2]. apply Nat.eqb_eq in J2. apply in_map_iff. eauto.
  Qed.
  Lemma loads : forall c t0 l b t b' l' x, run c t0 l b -> step b (Load t) = Some (b', l') -> estimate b t x -> (N.of_nat (in_flight l) + 2 <= 2 ^ 32)%N ->
    l' = [Loaded (x * (1 + INR (in_flight l)))%R t].
  Proof.
    intros c t0 l b t b' l' x H E X L. destruct (inv_run _ _ _ _ H) as [_ I2 I3 _ _ _ _ _ _]. cbn in E. injection E as <- <-. f_equal. f_equal. unfold load. rewrite X.
    assert (FL : in_flight l = length (b_handles b)) by (unfold in_flight; lia). rewrite FL in *. unfold pending. change (u32_max + 1)%N with (2 ^ 32)%N.
    rewrite N.mod_small by lia. replace (N.min (N.of_nat (S (length (b_handles b))) - 1 + 1) u32_max) with (N.of_nat (S (length (b_handles b)))) by (change (2 ^ 32)%N with (u32_max + 1)%N in L; lia).
    rewrite nat_N_Z, <- INR_IZR_INZ, S_INR. lra.
  Qed.
  (** ** Values *)
  Definition worth (c : config) (h : failure) (r : response) (wall : N) : N := effective_rtt date c h (attach date r wall) wall.
  Lemma respond_failure : forall c t0 l b id r ended t wall b' l' h, run c t0 l b -> step b (Respond id r ended t wall) = Some (b', l') -> failure_hint r = Some h ->
    exists x v, estimate b t x /\ v = Rmax (secs (Z.of_N (worth c h r wall))) x /\ l' = [Recorded id v t] /\ exists y, estimate b' t y /\ (v <= y)%R.
  Proof.
    intros c t0 l b id r ended t wall b' l' h H E F. destruct (estimates _ _ _ _ t H) as (x & X & PX). destruct (inv_run _ _ _ _ H) as [I1 _ _ _ _ _ _ I8 I9]. cbn in E.
    destruct (find_handle b id) as [hd|] eqn:FI; [|discriminate]. destruct (in_body hd); [discriminate|]. rewrite F in E. destruct (find_handle_some _ _ _ FI) as (_ & EI & _).
    rewrite I1 in E. fold (worth c h r wall) in E. unfold drop_handle in E. unfold estimate in X. rewrite X in E. cbv beta iota zeta in E. injection E as <- <-.
    set (v := Rmax (secs (Z.of_N (worth c h r wall))) x). exists x, v. split; [exact X|]. split; [reflexivity|]. split; [rewrite EI; reflexivity|].
    assert (PV : (0 <= v)%R) by (eapply Rle_trans; [exact PX|apply Rmax_r]). destruct (peak_not_below (b_rtt b) v t I8 PV) as (_ & y & _ & _ & Y & LY). exists y. split; [exact Y|exact LY].
  Qed.
  Lemma worth_overloaded : forall c h r wall, (c_max_duration c <= duration_max)%N -> cached r = None -> overloaded r -> failure_hint r = Some h ->
    (forall d, advice date wall (c_max_duration c) r d -> worth c h r wall = N.max d (base_penalty c)) /\
    ((forall d, ~ advice date wall (c_max_duration c) r d) -> worth c h r wall = base_penalty c).
  Proof.
    intros c h r wall M C O F. pose proof (advice_iff date wall (c_max_duration c) r M C) as A.
    assert (W : worth c h r wall = match rate_limit_hint date (attach date r wall) (c_max_duration c) wall with Some d => N.max d (base_penalty c) | None => base_penalty c end).
    { unfold worth, effective_rtt. apply failure_overloaded in O. rewrite F in O. destruct O as [[= ->]|[= ->]]; reflexivity. }
    rewrite W. split.
    - intros d D. apply A in D. rewrite D. reflexivity.
    - intros N. destruct (rate_limit_hint date (attach date r wall) (c_max_duration c) wall) as [d|] eqn:E; [|reflexivity]. destruct (N d). apply A. reflexivity.
  Qed.
  Lemma advice_cap : forall wall max r d, advice date wall max r d -> (d <= max)%N.
  Proof. intros wall max r d [(_ & v & _ & _ & H)|(_ & v & _ & _ & H)]; [exact (delay_text_cap _ _ _ _ _ H)|exact (pushback_text_cap _ _ _ H)]. Qed.
  Lemma secs_mono : forall a b, (a <= b)%Z -> (secs a <= secs b)%R.
  Proof. intros a b H. unfold secs. apply Rmult_le_compat_r; [lra|apply IZR_le; exact H]. Qed.
  Lemma overloaded_value : forall c t0 l b id r ended t wall b' l', run c t0 l b -> step b (Respond id r ended t wall) = Some (b', l') ->
    (c_max_duration c <= duration_max)%N -> cached r = None -> overloaded r ->
    exists x v, estimate b t x /\ l' = [Recorded id v t] /\
      (forall d, advice date wall (c_max_duration c) r d -> v = Rmax (secs (Z.of_N (N.max d (base_penalty c)))) x) /\
      ((forall d, ~ advice date wall (c_max_duration c) r d) -> v = Rmax (secs (Z.of_N (base_penalty c))) x).
  Proof.
    intros c t0 l b id r ended t wall b' l' H E M C O. destruct (proj1 (failing_iff r) (or_introl O)) as [h F].
    destruct (respond_failure _ _ _ _ _ _ _ _ _ _ _ h H E F) as (x & v & X & V & L & _). destruct (worth_overloaded c h r wall M C O F) as [W1 W2].
    exists x, v. split; [exact X|]. split; [exact L|]. split; [intros d D; rewrite <- (W1 d D); exact V|intros N; rewrite <- (W2 N); exact V].
  Qed.
  Lemma broken_value : forall c t0 l b id r ended t wall b' l', run c t0 l b -> step b (Respond id r ended t wall) = Some (b', l') -> broken r ->
    exists x, estimate b t x /\ l' = [Recorded id (Rmax (secs (Z.of_N (base_penalty c))) x) t].
  Proof.
    intros c t0 l b id r ended t wall b' l' H E B. apply failure_broken in B. destruct (respond_failure _ _ _ _ _ _ _ _ _ _ _ _ H E B) as (x & v & X & V & L & _).
    exists x. split; [exact X|]. rewrite L, V. reflexivity.
  Qed.
  Lemma rate_limit_hint_cap : forall r max wall d, rate_limit_hint date r max wall = Some d -> (d <= max)%N.
  Proof.
    intros r max wall d H. unfold rate_limit_hint in H. destruct (cached r); [injection H as <-; lia|]. destruct (parse_retry_after date wall (status r) (hdrs r) max) as [d'|] eqn:P.
    - injection H as <-. apply retry_after_iff in P as (_ & v & _ & _ & D). exact (delay_text_cap _ _ _ _ _ D).
    - destruct (_ && _); [|discriminate]. apply pushback_iff in H as (v & _ & _ & D). exact (pushback_text_cap _ _ _ D).
  Qed.
  Lemma failure_bounds : forall c t0 l b id r ended t wall b' l', run c t0 l b -> step b (Respond id r ended t wall) = Some (b', l') -> overloaded r \/ broken r ->
    exists x y v, estimate b t x /\ estimate b' t y /\ l' = [Recorded id v t] /\
      (secs (Z.of_N (base_penalty c)) <= v)%R /\ (x <= v)%R /\ (v <= y)%R /\ (v <= Rmax x (secs (Z.of_N (N.max (base_penalty c) (c_max_duration c)))))%R.
  Proof.
    intros c t0 l b id r ended t wall b' l' H E FL. apply failing_iff in FL as [h F]. destruct (respond_failure _ _ _ _ _ _ _ _ _ _ _ h H E F) as (x & v & X & V & L & y & Y & LY).
    exists x, y, v. split; [exact X|]. split; [exact Y|]. split; [exact L|].
    assert (W : (base_penalty c <= worth c h r wall <= N.max (base_penalty c) (c_max_duration c))%N).
    { unfold worth, effective_rtt. change (from_millis (c_penalty_ms c)) with (base_penalty c).
      assert (B : forall o, (forall d, o = Some d -> d <= c_max_duration c)%N -> (base_penalty c <= match o with Some h => N.max h (base_penalty c) | None => base_penalty c end <= N.max (base_penalty c) (c_max_duration c))%N).
      { intros [d|] Hd; [specialize (Hd d eq_refl)|]; lia. }
      destruct h; [apply B; intros d; apply rate_limit_hint_cap|apply B; intros d; apply rate_limit_hint_cap|apply (B None); discriminate]. }
    assert (S1 : (secs (Z.of_N (base_penalty c)) <= secs (Z.of_N (worth c h r wall)))%R) by (apply secs_mono; lia).
    assert (S2 : (secs (Z.of_N (worth c h r wall)) <= secs (Z.of_N (N.max (base_penalty c) (c_max_duration c))))%R) by (apply secs_mono; lia).
    split; [rewrite V; eapply Rle_trans; [exact S1|apply Rmax_l]|]. split; [rewrite V; apply Rmax_r|]. split; [exact LY|]. rewrite V, Rmax_comm. apply Rle_max_compat_l. exact S2.
  Qed.
  Lemma elapsed_value : forall c t0 l b o b' l' id sent v t, run c t0 l b -> step b o = Some (b', l') -> In (Called id sent) l -> In (Recorded id v t) l' ->
    (forall i r ended t' wall, o = Respond i r ended t' wall -> ~ overloaded r /\ ~ broken r) -> v = secs (Z.max 0 (t - sent)).
  Proof.
    intros c t0 l b o b' l' id sent v t H E S I NF. destruct (inv_run _ _ _ _ H) as [_ _ _ _ I5 _ I7 _ _].
    assert (K : forall h t' i, find_handle b i = Some h -> Some (drop_handle b h None t') = Some (b', l') -> v = secs (Z.max 0 (t - sent))).
    { intros h t' i F D. destruct (find_handle_some _ _ _ F) as (IH & _ & _). assert (DL : l' = snd (drop_handle b h None t')) by (apply (f_equal (fun x => match x with Some y => snd y | None => [] end)) in D; symmetry; exact D). rewrite DL in I. cbn in I. destruct I as [[= <- <- <-]|[]].
      rewrite (I7 _ _ _ S (I5 _ IH)). reflexivity. }
    destruct o as [t'|i r ended t' wall|i t'|i t'|i t'|t']; cbn in E.
    - injection E as <- <-. destruct I as [D|[]]. discriminate.
    - destruct (find_handle b i) as [h|] eqn:F; [|discriminate]. destruct (in_body h); [discriminate|]. destruct (failure_hint r) as [fh|] eqn:FH.
      + exfalso. destruct (NF _ _ _ _ _ eq_refl) as [N1 N2]. destruct (proj2 (failing_iff r) (ex_intro _ fh FH)); contradiction.
      + destruct ended; [exact (K _ _ _ F E)|]. injection E as <- <-. destruct I.
    - destruct (find_handle b i) as [h|] eqn:F; [|discriminate]. destruct (in_body h); [discriminate|]. exact (K _ _ _ F E).
    - destruct (find_handle b i) as [h|] eqn:F; [|injection E as <- <-; destruct I]. destruct (in_body h); [|discriminate]. exact (K _ _ _ F E).
    - destruct (find_handle b i) as [h|] eqn:F; [|injection E as <- <-; destruct I]. exact (K _ _ _ F E).
    - injection E as <- <-. destruct I as [D|[]]. discriminate.
  Qed.
End Runs.
