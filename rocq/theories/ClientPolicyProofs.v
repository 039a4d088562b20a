(** Proofs about the outbound policies (properties C95 - C100). *)
From Coq Require Import String List NArith ZArith QArith Bool Lia.
From Flocq Require Import IEEE754.BinarySingleNaN.
From Verif Require Import Bytes BytesProofs NameModel RouteModel RouteSpec RouteProofs.
From Verif Require Import EndpointModel ClientPolicyModel ClientPolicySpec.
From Verif Require ProfileModel EnvModel WindowModel DistributeModel FilterModel TlsRouteModel.
From Verif Require ProfileProofs EnvProofs DistributeProofs.
Import ListNotations.
Open Scope N_scope.

(** ** Conversions *)

Lemma bind_iff {A B} (m : option A) (k : A -> option B) y :
  (x <- m ;; k x) = Some y <-> exists x, m = Some x /\ k x = Some y.
Proof.
  destruct m as [a|]; split.
  - intros H. exists a. auto.
  - intros (x & E & H). injection E as ->. exact H.
  - discriminate.
  - intros (x & E & _). discriminate.
Qed.
Lemma some_iff {A} (x y : A) : Some x = Some y <-> y = x.
Proof. split; [injection 1|]; congruence. Qed.
Lemma collect_says {A B} (f : A -> option B) (R : A -> B -> Prop) :
  (forall x y, f x = Some y <-> R x y) -> forall l l', collect f l = Some l' <-> Forall2 R l l'.
Proof.
  intros H. induction l as [|x l J]; intros l'; cbn [collect].
  - split; [injection 1 as <-; constructor|]. inversion 1. reflexivity.
  - rewrite bind_iff. split.
    + intros (y & E & K). apply bind_iff in K as (ys & E2 & K). injection K as <-.
      constructor; [apply H; exact E|]. apply J. exact E2.
    + inversion 1; subst. exists y. split; [apply H; assumption|]. apply bind_iff. exists l'0. split; [apply J; assumption|reflexivity].
Qed.
Lemma transpose_says {A B} (f : A -> option B) (R : A -> B -> Prop) :
  (forall x y, f x = Some y <-> R x y) -> forall o o', transpose f o = Some o' <-> optionally R o o'.
Proof.
  intros H [x|] [y|]; unfold transpose, optionally.
  - rewrite bind_iff. split; [intros (z & E & K)|intros K]; [injection K as <-; apply H; exact E|exists y; split; [apply H; exact K|reflexivity]].
  - rewrite bind_iff. split; [intros (z & E & K); discriminate|tauto].
  - split; [discriminate|tauto].
  - tauto.
Qed.
Lemma required_iff {A B} (f : A -> option B) (R : A -> B -> Prop) :
  (forall x y, f x = Some y <-> R x y) -> forall o y, (x <- o ;; f x) = Some y <-> required R o y.
Proof.
  intros H o y. rewrite bind_iff. unfold required. split; intros (x & E & K); exists x; (split; [exact E|]); apply H; exact K.
Qed.
(** A field that may be missing is converted, and then must be there. *)
Lemma transposed_required {A B} (f : A -> option B) (R : A -> B -> Prop) :
  (forall x y, f x = Some y <-> R x y) ->
  forall o y, (exists o', transpose f o = Some o' /\ o' = Some y) <-> required R o y.
Proof.
  intros H o y. split.
  - intros (o' & T & ->). apply (transpose_says f R H) in T. destruct o as [x|]; [|contradiction]. exists x. split; [reflexivity|exact T].
  - intros (x & -> & K). exists (Some y). split; [|reflexivity]. apply (transpose_says f R H). exact K.
Qed.

Lemma duration_says_iff d t : duration d = Some t <-> duration_says d t.
Proof. exact (ProfileProofs.duration_iff d t). Qed.
Lemma to_u16_iff n m : to_u16 n = Some m <-> m = n /\ n < 65536.
Proof.
  unfold to_u16. destruct (n <? 65536) eqn:E.
  - apply N.ltb_lt in E. rewrite some_iff. tauto.
  - apply N.ltb_ge in E. split; [discriminate|lia].
Qed.
Lemma non_zero_iff n m : non_zero n = Some m <-> m = n /\ n <> 0.
Proof.
  unfold non_zero. destruct (n =? 0) eqn:E.
  - apply N.eqb_eq in E. split; [discriminate|tauto].
  - apply N.eqb_neq in E. rewrite some_iff. tauto.
Qed.
Lemma meta_says_iff pb m : try_meta pb = Some m <-> meta_says pb m.
Proof.
  destruct pb as [[n|g k n ns s p]|]; cbn [try_meta meta_says].
  - apply some_iff.
  - assert (X : g <> [] /\ k <> [] /\ n <> [] /\ ns <> [] ->
      try_meta (Some (Pb_resource g k n ns s p)) =
      Some (Resource g k n ns (match s with [] => None | _ => Some s end) (p <- to_u16 p ;; non_zero p))).
    { intros (A & B & C & D). cbn [try_meta]. destruct g; [congruence|]. destruct k; [congruence|]. destruct n; [congruence|]. destruct ns; [congruence|]. reflexivity. }
    assert (Y : ~ (g <> [] /\ k <> [] /\ n <> [] /\ ns <> []) -> try_meta (Some (Pb_resource g k n ns s p)) = None).
    { intros Z. cbn [try_meta]. destruct g; [reflexivity|]. destruct k; [reflexivity|]. destruct n; [reflexivity|]. destruct ns; [reflexivity|].
      elim Z. repeat split; discriminate. }
    cbn [try_meta] in X, Y.
    assert (D : (g <> [] /\ k <> [] /\ n <> [] /\ ns <> []) \/ ~ (g <> [] /\ k <> [] /\ n <> [] /\ ns <> [])).
    { destruct g; [right; tauto|]. destruct k; [right; tauto|]. destruct n; [right; tauto|]. destruct ns; [right; tauto|].
      left. repeat split; discriminate. }
    destruct D as [D|D].
    + rewrite (X D), some_iff. split.
      * intros ->. destruct D as (D1 & D2 & D3 & D4). split; [exact D1|]. split; [exact D2|]. split; [exact D3|]. split; [exact D4|].
        eexists _, _. split; [reflexivity|]. split.
        -- destruct s; [left; auto|right; split; [reflexivity|discriminate]].
        -- unfold to_u16. destruct (p <? 65536) eqn:E; [apply N.ltb_lt in E|apply N.ltb_ge in E; right; auto].
           unfold non_zero. destruct (p =? 0) eqn:E'; [apply N.eqb_eq in E'; right; auto|apply N.eqb_neq in E'; left; split; [reflexivity|lia]].
      * intros (_ & _ & _ & _ & s' & p' & -> & S' & P'). f_equal.
        -- destruct S' as [[-> ->]|[-> Q]]; [reflexivity|]. destruct s; [congruence|reflexivity].
        -- destruct P' as [[-> Q]|[-> Q]]; symmetry.
           ++ apply bind_iff. exists p. split; [apply to_u16_iff; split; [reflexivity|lia]|apply non_zero_iff; split; [reflexivity|lia]].
           ++ unfold to_u16. destruct (p <? 65536) eqn:E; [|reflexivity]. apply N.ltb_lt in E. unfold non_zero. destruct Q as [->|Q]; [reflexivity|lia].
    + rewrite (Y D). split; [discriminate|]. intros (A1 & A2 & A3 & A4 & _). elim D. auto.
  - split; [discriminate|contradiction].
Qed.
Lemma need_meta_iff pb m : need_meta pb = Some m <-> required meta_says pb m.
Proof. apply (required_iff _ _ meta_says_iff). Qed.
Lemma need_duration_iff d t : need_duration d = Some t <-> required duration_says d t.
Proof. apply (required_iff _ _ duration_says_iff). Qed.
Lemma duration_or_iff d x t : duration_or d x = Some t <-> defaulting duration_says x d t.
Proof. unfold duration_or, defaulting. destruct d; [apply duration_says_iff|apply some_iff]. Qed.
Lemma backoff_says_iff pb b : try_backoff pb = Some b <-> backoff_says pb b.
Proof.
  unfold try_backoff, backoff_says. split.
  - intros H. apply bind_iff in H as (o1 & T1 & H). apply bind_iff in H as (mn & -> & H).
    apply bind_iff in H as (o2 & T2 & H). apply bind_iff in H as (mx & -> & H).
    apply EnvProofs.try_new_iff in H as (-> & S1 & S2 & q & S3 & S4).
    cbn [EnvModel.bo_min EnvModel.bo_max EnvModel.bo_jitter] in *.
    split; [apply (transposed_required _ _ duration_says_iff); eexists; split; [exact T1|reflexivity]|].
    split; [apply (transposed_required _ _ duration_says_iff); eexists; split; [exact T2|reflexivity]|].
    repeat split; try assumption. exists q. split; [exact S3|]. exact S4.
  - intros (A & B & C & D & E & q & F & G).
    apply (transposed_required _ _ duration_says_iff) in A as (o1 & T1 & ->).
    apply (transposed_required _ _ duration_says_iff) in B as (o2 & T2 & ->).
    apply bind_iff. eexists. split; [exact T1|]. cbn beta iota.
    apply bind_iff. eexists. split; [exact T2|]. cbn beta iota.
    apply EnvProofs.try_new_iff. split; [destruct b; cbn in *; congruence|].
    split; [exact C|]. split; [exact D|]. exists q. split; [congruence|]. exact G.
Qed.

Lemma accrual_says_iff pb a : try_accrual pb = Some a <-> accrual_says pb a.
Proof.
  destruct pb as [[n b|x decay mr n b]|]; cbn [try_accrual accrual_says].
  - split.
    + intros H. apply bind_iff in H as (o & T & H). apply bind_iff in H as (b' & -> & H). injection H as <-.
      split; [reflexivity|]. apply (transposed_required _ _ backoff_says_iff). eexists; split; [exact T|reflexivity].
    + destruct a as [n' b'|]; [|contradiction]. intros [-> R]. apply (transposed_required _ _ backoff_says_iff) in R as (o & T & ->).
      apply bind_iff. eexists. split; [exact T|]. reflexivity.
  - destruct (Bleb (WindowModel.f64_of_N 0) x) eqn:X1.
    2: { split; [discriminate|]. destruct a; [contradiction|]. intros (X & _). discriminate. }
    destruct (Bleb x (WindowModel.f64_of_N 1)) eqn:X2.
    2: { split; [discriminate|]. destruct a; [contradiction|]. intros (_ & X & _). discriminate. }
    cbn [andb negb]. set (t := from_fraction x).
    split.
    + intros H. apply bind_iff in H as (o & T & H). cbv zeta in H. set (w := match o with Some w => w | None => 10 * secs end) in *.
      destruct (negb (t =? 0) && (w <? MIN_SUCCESS_RATE_WINDOW)) eqn:W; [discriminate|].
      destruct (MAX_SUCCESS_RATE_MIN_REQUESTS <? mr) eqn:R; [discriminate|]. apply N.ltb_ge in R.
      apply bind_iff in H as (ob & TB & H). apply bind_iff in H as (b' & -> & H). injection H as <-.
      split; [reflexivity|]. split; [reflexivity|]. split; [reflexivity|].
      split. { apply (transpose_says _ _ duration_says_iff) in T. destruct decay as [d|], o as [w'|]; try contradiction; [exact T|reflexivity]. }
      split. { apply andb_false_iff in W as [W|W]; [left; apply negb_false_iff, N.eqb_eq in W; exact W|right; apply N.ltb_ge in W; exact W]. }
      split; [reflexivity|]. split; [exact R|]. split; [reflexivity|].
      apply (transposed_required _ _ backoff_says_iff). eexists; split; [exact TB|reflexivity].
    + destruct a as [|t' w mr' n' b']; [contradiction|]. intros (_ & _ & -> & D & W & <- & R & <- & B). fold t in W |- *.
      assert (T : exists o, transpose duration decay = Some o /\ w = match o with Some w => w | None => 10 * secs end).
      { destruct decay as [d|]; cbn [defaulting] in D.
        - exists (Some w). split; [|reflexivity]. apply (transpose_says _ _ duration_says_iff). exact D.
        - exists None. split; [reflexivity|exact D]. }
      destruct T as (o & T & Ew). apply bind_iff. exists o. split; [exact T|]. cbv zeta. rewrite <- Ew.
      assert (negb (t =? 0) && (w <? MIN_SUCCESS_RATE_WINDOW) = false) as ->.
      { apply andb_false_iff. destruct W as [W|W]; [left; rewrite W; reflexivity|right; apply N.ltb_ge; exact W]. }
      assert (MAX_SUCCESS_RATE_MIN_REQUESTS <? mr = false) as -> by (apply N.ltb_ge; exact R).
      apply (transposed_required _ _ backoff_says_iff) in B as (ob & TB & ->).
      apply bind_iff. eexists. split; [exact TB|]. reflexivity.
  - split; [discriminate|contradiction].
Qed.

Lemma try_range_iff r r' : try_range r = Some r' <-> r' = r /\ 1 <= fst r <= snd r /\ snd r <= 599.
Proof.
  unfold try_range. destruct r as [a b]. cbn [fst snd]. rewrite bind_iff. split.
  - intros (x & A & H). apply to_u16_iff in A as [-> A]. apply bind_iff in H as (y & B & H). apply to_u16_iff in B as [-> B].
    destruct ((a =? 0) || (b =? 0) || (599 <? b) || (b <? a)) eqn:E; [discriminate|]. injection H as <-.
    apply orb_false_iff in E as [E E4]. apply orb_false_iff in E as [E E3]. apply orb_false_iff in E as [E1 E2].
    apply N.eqb_neq in E1, E2. apply N.ltb_ge in E3, E4. split; [reflexivity|lia].
  - intros (-> & A & B). exists a. split; [apply to_u16_iff; split; [reflexivity|lia]|].
    apply bind_iff. exists b. split; [apply to_u16_iff; split; [reflexivity|lia]|].
    assert ((a =? 0) || (b =? 0) || (599 <? b) || (b <? a) = false) as ->; [|reflexivity].
    rewrite !orb_false_iff. repeat split; try (apply N.eqb_neq; lia); try (apply N.ltb_ge; lia).
Qed.
Lemma forall2_same {A} (P : A -> Prop) l l' : Forall2 (fun x y => y = x /\ P x) l l' <-> l' = l /\ Forall P l.
Proof.
  split.
  - induction 1 as [|x y l l' [-> H] _ [-> J]]; [split; [reflexivity|constructor]|]. split; [reflexivity|]. constructor; assumption.
  - intros [-> H]. induction H; constructor; auto.
Qed.
Lemma http_retry_iff pb r : try_http_retry pb = Some r <-> http_retry_says pb r.
Proof.
  unfold try_http_retry, http_retry_says. split.
  - intros H. apply bind_iff in H as (cond & C & H). apply bind_iff in H as (ranges & RS & H).
    apply (collect_says _ _ try_range_iff) in RS. apply forall2_same in RS as [-> RS]. rewrite Forall_forall in RS.
    apply bind_iff in H as (n & NN & H). apply to_u16_iff in NN as [-> NN].
    apply bind_iff in H as (bo & B & H). apply (transpose_says _ _ backoff_says_iff) in B.
    apply bind_iff in H as (t & T & H). apply (transpose_says _ _ duration_says_iff) in T.
    injection H as <-. cbn [rt_max_retries rt_max_request_bytes rt_conditions rt_timeout rt_backoff].
    repeat split; try assumption; intros; apply (RS (a, b)); assumption.
  - intros (A & B & C & D & E & F & G). destruct r as [n by_ cs t bo]. cbn in *. subst.
    apply bind_iff. eexists. split; [exact D|]. apply bind_iff. exists cs. split.
    { apply (collect_says _ _ try_range_iff). apply forall2_same. split; [reflexivity|]. apply Forall_forall. intros [a b] J. apply E. exact J. }
    apply bind_iff. eexists. split; [apply to_u16_iff; split; [reflexivity|assumption]|].
    apply bind_iff. eexists. split; [apply (transpose_says _ _ backoff_says_iff); exact G|].
    apply bind_iff. eexists. split; [apply (transpose_says _ _ duration_says_iff); exact F|]. reflexivity.
Qed.
Lemma codes_of_eq c :
  (if pbc_cancelled c then [1] else []) ++ (if pbc_deadline c then [4] else [])
  ++ (if pbc_exhausted c then [8] else []) ++ (if pbc_internal c then [13] else [])
  ++ (if pbc_unavailable c then [14] else []) = codes_of c.
Proof. destruct c as [[] [] [] [] []]; reflexivity. Qed.
Lemma grpc_retry_iff pb r : try_grpc_retry pb = Some r <-> grpc_retry_says pb r.
Proof.
  unfold try_grpc_retry, grpc_retry_says. split.
  - intros H. apply bind_iff in H as (cond & C & H). rewrite codes_of_eq in H. cbv zeta in H.
    apply bind_iff in H as (bo & B & H). apply (transpose_says _ _ backoff_says_iff) in B.
    apply bind_iff in H as (t & T & H). apply (transpose_says _ _ duration_says_iff) in T.
    injection H as <-. cbn [rt_max_retries rt_max_request_bytes rt_conditions rt_timeout rt_backoff].
    repeat split; try assumption. exists cond. auto.
  - intros (A & B & (c & C & D) & F & G). destruct r as [n by_ cs t bo]. cbn in *. subst.
    apply bind_iff. eexists. split; [exact C|]. rewrite codes_of_eq. cbv zeta.
    apply bind_iff. eexists. split; [apply (transpose_says _ _ backoff_says_iff); exact G|].
    apply bind_iff. eexists. split; [apply (transpose_says _ _ duration_says_iff); exact F|]. reflexivity.
Qed.
Lemma timeouts_iff pb t :
  try_timeouts pb = Some t <->
  optionally duration_says (pbt_response pb) (to_response t) /\ optionally duration_says (pbt_idle pb) (to_idle t) /\
  optionally duration_says (pbt_request pb) (to_request t).
Proof.
  unfold try_timeouts. split.
  - intros H. apply bind_iff in H as (a & A & H). apply bind_iff in H as (b & B & H). apply bind_iff in H as (c & C & H).
    injection H as <-. cbn. repeat split; apply (transpose_says _ _ duration_says_iff); assumption.
  - intros (A & B & C). destruct t as [a b c]. cbn in *. apply (transpose_says _ _ duration_says_iff) in A, B, C.
    rewrite A, B, C. reflexivity.
Qed.
Lemma params_iff {C D} (f : pb_retry C -> option (retry D)) (R : pb_retry C -> retry D -> Prop)
    (H : forall x y, f x = Some y <-> R x y) pb_t pb_r allow export old p :
  try_params f pb_t pb_r allow export old = Some p <->
  timeouts_say pb_t old (pa_timeouts p) /\ optionally R pb_r (pa_retry p) /\
  pa_allow_headers p = allow /\ pa_export_labels p = export.
Proof.
  unfold try_params. split.
  - intros K. apply bind_iff in K as (r & A & K). apply (transpose_says _ _ H) in A.
    apply bind_iff in K as (o & B & K). cbv zeta in K. apply bind_iff in K as (old' & E & K). apply (transpose_says _ _ duration_says_iff) in E.
    injection K as <-. cbn [pa_timeouts pa_retry pa_allow_headers pa_export_labels].
    split; [|auto]. unfold timeouts_say. cbv zeta. cbn [to_response to_idle to_request].
    assert (O : forall d, old = Some d -> exists n, duration_says d n).
    { intros d ->. destruct old' as [n|]; [|contradiction]. exists n. exact E. }
    destruct pb_t as [p|].
    + apply (transpose_says _ _ timeouts_iff) in B. destruct o as [t|]; [|contradiction]. destruct B as (B1 & B2 & B3).
      split; [exact B1|]. split; [exact B2|]. split; [exact O|].
      destruct (pbt_request p) as [d|]; destruct (to_request t) as [n|] eqn:T; try contradiction; cbn [or].
      * exists n. split; [exact B3|reflexivity].
      * exact E.
    + injection B as <-. cbn. auto.
  - intros (T & A & B & E). destruct p as [[tr ti tq] r al ex]. cbn [pa_timeouts pa_retry pa_allow_headers pa_export_labels] in *. subst.
    apply bind_iff. exists r. split; [apply (transpose_says _ _ H); exact A|].
    unfold timeouts_say in T. cbv zeta in T. cbn [to_response to_idle to_request] in T. destruct T as (T1 & T2 & T3 & T4).
    assert (O : exists old', transpose duration old = Some old' /\ optionally duration_says old old').
    { destruct old as [d|].
      - destruct (T3 d eq_refl) as [n Hn]. exists (Some n). split; [|exact Hn]. apply (transpose_says _ _ duration_says_iff). exact Hn.
      - exists None. split; [reflexivity|exact I]. }
    destruct O as (old' & O & O').
    destruct pb_t as [p|].
    + destruct (pbt_request p) as [d|] eqn:Q.
      * destruct T4 as (n & N1 & ->). apply bind_iff. exists (Some (Timeouts tr ti (Some n))). split.
        { apply (transpose_says _ _ timeouts_iff). cbn [optionally to_response to_idle to_request]. rewrite Q. auto. }
        cbv zeta. apply bind_iff. exists old'. split; [exact O|]. reflexivity.
      * apply bind_iff. exists (Some (Timeouts tr ti None)). split.
        { apply (transpose_says _ _ timeouts_iff). cbn [optionally to_response to_idle to_request]. rewrite Q. cbn. auto. }
        cbv zeta. apply bind_iff. exists tq. split; [apply (transpose_says _ _ duration_says_iff); exact T4|]. cbn [to_response to_idle to_request or]. reflexivity.
    + cbn [optionally] in T1, T2. destruct tr; [contradiction|]. destruct ti; [contradiction|].
      apply bind_iff. exists None. split; [reflexivity|]. cbv zeta.
      apply bind_iff. exists tq. split; [apply (transpose_says _ _ duration_says_iff); exact T4|]. reflexivity.
Qed.

Lemma host_valid_iff pb h : try_host pb = Some h <-> host_valid pb h.
Proof.
  destruct pb as [[x|x]|], h as [y|y]; cbn; (split; [intros K|intros K]); try discriminate; try contradiction; congruence.
Qed.
Lemma sni_valid_iff pb h : try_sni pb = Some h <-> sni_valid pb h.
Proof.
  destruct pb as [[x|x]|], h as [y|y]; cbn; (split; [intros K|intros K]); try discriminate; try contradiction; congruence.
Qed.
Lemma tcp_filter_iff pb f : try_tcp_filter pb = Some f <-> tcp_filter_says pb f.
Proof.
  destruct pb as [[x|]|], f as [|y|y]; cbn; (split; [intros K|intros K]); try discriminate; try contradiction; try reflexivity; try exact I; congruence.
Qed.
Lemma load_iff pb l : try_load pb = Some l <-> load_says pb l.
Proof.
  destruct pb as [a b|a b c d e]; cbn [try_load load_says]; split.
  - intros H. apply bind_iff in H as (r & A & H). apply bind_iff in H as (t & B & H). injection H as <-.
    split; apply need_duration_iff; assumption.
  - destruct l as [x y|]; [|contradiction]. intros [A B]. apply need_duration_iff in A, B. rewrite A, B. reflexivity.
  - intros H. apply bind_iff in H as (r & A & H). apply bind_iff in H as (t & B & H). apply bind_iff in H as (p & P & H).
    apply bind_iff in H as (q & Q & H). apply bind_iff in H as (m & M & H). injection H as <-.
    repeat split; apply duration_or_iff; assumption.
  - destruct l as [|x y p q m]; [contradiction|]. intros (A & B & P & Q & M). apply duration_or_iff in A, B, P, Q, M.
    change (30 * millis) with 30000000. change (10 * secs) with 10000000000. change (5 * secs) with 5000000000. change (300 * secs) with 300000000000.
    rewrite A, B, P, Q, M. reflexivity.
Qed.

Section Lib.
Variable L : lib.

Lemma path_valid_iff pb p : try_path L pb = Some p <-> path_valid L pb p.
Proof.
  destruct pb as [[x|x|re]|]; cbn [try_path path_valid].
  1,2: destruct p; split; intros K; try discriminate; try contradiction; congruence.
  - rewrite bind_iff. split.
    + intros (r & A & K). injection K as <-. exact A.
    + destruct p as [| |r]; try contradiction. intros A. exists r. auto.
  - split; [discriminate|contradiction].
Qed.
Lemma header_valid_iff pb h : try_header L pb = Some h <-> header_valid L pb h.
Proof.
  unfold try_header, header_valid. rewrite bind_iff. destruct (pbn_value pb) as [[v|re]|]; cbn [bind_iff]; split.
  - intros (n & A & K). cbn beta iota in K. apply bind_iff in K as (w & B & K). injection K as <-. auto.
  - destruct h as [n w|]; [|contradiction]. intros [A B]. exists n. split; [exact A|]. cbn beta iota. rewrite B. reflexivity.
  - intros (n & A & K). cbn beta iota in K. apply bind_iff in K as (w & B & K). injection K as <-. auto.
  - destruct h as [|n w]; [contradiction|]. intros [A B]. exists n. split; [exact A|]. cbn beta iota. rewrite B. reflexivity.
  - intros (n & A & K). discriminate.
  - contradiction.
Qed.
Lemma query_valid_iff pb q : try_query L pb = Some q <-> query_valid L pb q.
Proof.
  unfold try_query, query_valid. destruct (pbn_name pb) as [|c n0] eqn:E.
  { split; [discriminate|tauto]. }
  rewrite <- E. destruct (pbn_value pb) as [[v|re]|].
  - split.
    + intros K. injection K as <-. split; [congruence|]. auto.
    + intros [_ K]. destruct q as [n w|]; [|contradiction]. destruct K as [-> ->]. reflexivity.
  - rewrite bind_iff. split.
    + intros (r & A & K). injection K as <-. split; [congruence|]. auto.
    + intros [_ K]. destruct q as [|n w]; [contradiction|]. destruct K as [-> K]. exists w. auto.
  - split; [discriminate|]. intros [_ K]. contradiction.
Qed.
Lemma http_match_valid_iff pb m : try_http_match L pb = Some m <-> http_match_valid L pb m.
Proof.
  unfold try_http_match, http_match_valid. split.
  - intros H. apply bind_iff in H as (p & A & H). apply bind_iff in H as (hs & B & H). apply bind_iff in H as (qs & C & H).
    apply bind_iff in H as (me & D & H). injection H as <-. cbn.
    split; [apply (transpose_says _ _ path_valid_iff); exact A|]. split; [apply (collect_says _ _ header_valid_iff); exact B|].
    split; [apply (collect_says _ _ query_valid_iff); exact C|]. apply (transpose_says (l_method L) _ (fun x y => iff_refl _)). exact D.
  - intros (A & B & C & D). destruct m as [p hs qs me]. cbn in *.
    apply (transpose_says _ _ path_valid_iff) in A. apply (collect_says _ _ header_valid_iff) in B. apply (collect_says _ _ query_valid_iff) in C.
    apply (transpose_says (l_method L) _ (fun x y => iff_refl _)) in D. rewrite A, B, C, D. reflexivity.
Qed.
Lemma grpc_match_valid_iff pb m : try_grpc_match L pb = Some m <-> grpc_match_valid L pb m.
Proof.
  unfold try_grpc_match, grpc_match_valid. split.
  - intros H. apply bind_iff in H as ([s t] & A & H). apply bind_iff in H as (hs & B & H). cbv zeta in H. injection H as <-.
    cbn [mg_rpc mg_headers fst snd rpc_service rpc_method].
    split; [|apply (collect_says _ _ header_valid_iff); exact B]. exists (s, t). split; [exact A|]. cbn [fst snd rpc_service rpc_method].
    split; [destruct s|destruct t]; try (left; split; reflexivity); right; split; [discriminate|reflexivity|discriminate|reflexivity].
  - intros (([s t] & A & S' & T) & B). apply (collect_says _ _ header_valid_iff) in B. rewrite A, B. cbv zeta. destruct m as [[s' t'] hs].
    cbn [mg_rpc mg_headers fst snd rpc_service rpc_method] in *. f_equal. f_equal. f_equal.
    + destruct S' as [[-> ->]|[S1 ->]]; [reflexivity|]. destruct s; [congruence|reflexivity].
    + destruct T as [[-> ->]|[S1 ->]]; [reflexivity|]. destruct t; [congruence|reflexivity].
Qed.
Lemma ratio_iff pb i : (exists r, try_ratio L pb = Some r /\ if_numerator i = fst r /\ if_denominator i = snd r) <-> ratio_says L pb i.
Proof.
  unfold try_ratio, ratio_says. destruct pb as [[n d]|].
  - destruct (l_ratio L n d); split.
    + intros (r & E & A & B). injection E as <-. auto.
    + intros (A & B & _). exists (n, d). auto.
    + intros (r & E & _). discriminate.
    + intros (_ & _ & X). discriminate.
  - split; [intros (r & E & A & B); injection E as <-; auto|]. intros [A B]. exists (1, 1). auto.
Qed.
Lemma http_failure_iff pb i :
  try_http_failure L pb = Some i <->
  if_status i = pbf_status pb /\ 100 <= if_status i < 1000 /\ if_message i = pbf_message pb /\ ratio_says L (pbf_ratio pb) i.
Proof.
  unfold try_http_failure. split.
  - intros H. apply bind_iff in H as (u & A & H). apply to_u16_iff in A as [-> A]. apply bind_iff in H as (s & B & H).
    apply ProfileProofs.status_iff in B as [-> B]. apply bind_iff in H as (r & C & H). injection H as <-. cbn [if_status if_message].
    split; [reflexivity|]. split; [exact B|]. split; [reflexivity|]. apply ratio_iff. exists r. auto.
  - intros (A & B & C & D). apply ratio_iff in D as (r & D & E & F). destruct i as [s m n d]. cbn in *. subst.
    apply bind_iff. eexists. split; [apply to_u16_iff; split; [reflexivity|lia]|].
    apply bind_iff. eexists. split; [apply ProfileProofs.status_iff; split; [reflexivity|exact B]|]. rewrite D. reflexivity.
Qed.
Lemma grpc_failure_iff pb i :
  try_grpc_failure L pb = Some i <->
  if_status i = pbf_status pb /\ if_status i < 65536 /\ if_message i = pbf_message pb /\ ratio_says L (pbf_ratio pb) i.
Proof.
  unfold try_grpc_failure. split.
  - intros H. apply bind_iff in H as (u & A & H). apply to_u16_iff in A as [-> A].
    apply bind_iff in H as (r & C & H). injection H as <-. cbn [if_status if_message].
    split; [reflexivity|]. split; [exact A|]. split; [reflexivity|]. apply ratio_iff. exists r. auto.
  - intros (A & B & C & D). apply ratio_iff in D as (r & D & E & F). destruct i as [s m n d]. cbn in *. subst.
    apply bind_iff. eexists. split; [apply to_u16_iff; split; [reflexivity|lia]|]. rewrite D. reflexivity.
Qed.
Lemma pairs_iff hs l : to_pairs L hs = Some l <-> pairs_say L hs l.
Proof.
  assert (X : forall h nv, (n <- l_header_name L (fst h) ;; v <- l_header_value L (snd h) ;; Some (n, v)) = Some nv <-> pair_says L h nv).
  { intros h [n v]. unfold pair_says. cbn [fst snd]. rewrite bind_iff. split.
    - intros (n' & A & K). apply bind_iff in K as (v' & B & K). injection K as <- <-. auto.
    - intros [A B]. exists n. split; [exact A|]. rewrite B. reflexivity. }
  unfold to_pairs, pairs_say. rewrite (collect_says _ _ X). destruct hs; [reflexivity|]. split; [inversion 1; reflexivity|intros ->; constructor].
Qed.
Lemma modifier_iff pb m : try_modifier L pb = Some m <-> modifier_says L pb m.
Proof.
  unfold try_modifier, modifier_says. split.
  - intros H. apply bind_iff in H as (a & A & H). apply bind_iff in H as (b & B & H). apply bind_iff in H as (c & C & H). injection H as <-.
    split; [apply pairs_iff; exact A|]. split; [apply pairs_iff; exact B|]. apply (collect_says (l_header_name L) _ (fun x y => iff_refl _)). exact C.
  - intros (A & B & C). apply pairs_iff in A, B. apply (collect_says (l_header_name L) _ (fun x y => iff_refl _)) in C. destruct m. cbn in *.
    rewrite A, B, C. reflexivity.
Qed.
Lemma starts_slash p : starts_with [47] p = true <-> exists t, p = 47 :: t.
Proof.
  rewrite starts_with_iff. split; intros (t & E); exists t; exact E.
Qed.
Lemma redirect_iff pb r : try_redirect L pb = Some r <-> redirect_says L pb r.
Proof.
  unfold try_redirect, redirect_says. split.
  - intros H. apply bind_iff in H as (sc & A & H). apply (transpose_says (l_scheme L) _ (fun x y => iff_refl _)) in A.
    apply bind_iff in H as (port & B & H). apply to_u16_iff in B as [-> B].
    apply bind_iff in H as (au & C & H). apply bind_iff in H as (pa & D & H). apply bind_iff in H as (u & E & H).
    apply to_u16_iff in E as [-> E]. apply bind_iff in H as (st & F & H). injection H as <-.
    cbn [FilterModel.rd_scheme FilterModel.rd_authority FilterModel.rd_path FilterModel.rd_status].
    split; [exact A|]. split; [exact B|]. split; [|split].
    + unfold non_zero in C. destruct (pbd_host pb) as [|h hs] eqn:HE.
      * injection C as <-. destruct (pbd_port pb =? 0) eqn:P; cbn [option_map].
        -- apply N.eqb_eq in P. auto.
        -- apply N.eqb_neq in P. auto.
      * rewrite <- HE in *. destruct (pbd_port pb =? 0) eqn:P.
        -- apply N.eqb_eq in P. apply bind_iff in C as (a & C & K). injection K as <-. split; [congruence|]. auto.
        -- apply N.eqb_neq in P. apply bind_iff in C as (a & C & K). injection K as <-. split; [congruence|]. auto.
    + destruct (pbd_path pb) as [[[p|p]|]|].
      * destruct (starts_with [47] p) eqn:S1; [|discriminate]. injection D as <-. split; [reflexivity|]. apply starts_slash. exact S1.
      * destruct (starts_with [47] p) eqn:S1; [|discriminate]. injection D as <-. split; [reflexivity|]. apply starts_slash. exact S1.
      * injection D as <-. auto.
      * injection D as <-. auto.
    + destruct (pbd_status pb =? 0) eqn:Z.
      * apply N.eqb_eq in Z. injection F as <-. exact Z.
      * apply bind_iff in F as (s & F & K). injection K as <-. apply ProfileProofs.status_iff in F as [-> F]. auto.
  - intros (A & B & C & D & E). destruct r as [sc au pa st].
    cbn [FilterModel.rd_scheme FilterModel.rd_authority FilterModel.rd_path FilterModel.rd_status] in *.
    apply bind_iff. exists sc. split; [apply (transpose_says (l_scheme L) _ (fun x y => iff_refl _)); exact A|].
    apply bind_iff. exists (pbd_port pb). split; [apply to_u16_iff; auto|].
    apply bind_iff. exists au. split.
    { unfold non_zero. destruct au as [[a|a|a]|].
      - destruct C as (C1 & C2 & C3). destruct (pbd_port pb =? 0) eqn:P; [apply N.eqb_eq in P; congruence|].
        destruct (pbd_host pb) as [|h hs]; [congruence|]. rewrite C3. reflexivity.
      - destruct C as (C1 & C2 & C3). rewrite C2. change (0 =? 0) with true. cbn iota. destruct (pbd_host pb) as [|h hs]; [congruence|]. rewrite C3. reflexivity.
      - destruct C as (C1 & C2 & C3). rewrite C1, C2. destruct (a =? 0) eqn:P; [apply N.eqb_eq in P; congruence|reflexivity].
      - destruct C as (C1 & C2). rewrite C1, C2. reflexivity. }
    apply bind_iff. exists pa. split.
    { destruct pa as [[p|p]|].
      - destruct D as [-> D]. apply starts_slash in D. rewrite D. reflexivity.
      - destruct D as [-> D]. apply starts_slash in D. rewrite D. reflexivity.
      - destruct D as [-> | ->]; reflexivity. }
    apply bind_iff. exists (pbd_status pb). split.
    { apply to_u16_iff. split; [reflexivity|]. destruct st as [s|]; [destruct E as [-> E]; lia|rewrite E; reflexivity]. }
    apply bind_iff. exists st. split; [|reflexivity].
    destruct st as [s|].
    + destruct E as [-> E]. destruct (s =? 0) eqn:Z; [apply N.eqb_eq in Z; lia|]. apply bind_iff. exists s. split; [|reflexivity].
      apply ProfileProofs.status_iff. auto.
    + rewrite E. reflexivity.
Qed.
Lemma http_filter_iff pb f : try_http_filter L pb = Some f <-> http_filter_says L pb f.
Proof.
  destruct pb as [[x|x|x|x]|]; cbn [try_http_filter http_filter_says]; try (rewrite bind_iff; split).
  - intros (i & A & K). injection K as <-. apply http_failure_iff. exact A.
  - destruct f; try contradiction. intros H. exists i. split; [apply http_failure_iff; exact H|reflexivity].
  - intros (i & A & K). injection K as <-. apply modifier_iff. exact A.
  - destruct f; try contradiction. intros H. exists m. split; [apply modifier_iff; exact H|reflexivity].
  - intros (i & A & K). injection K as <-. apply modifier_iff. exact A.
  - destruct f; try contradiction. intros H. exists m. split; [apply modifier_iff; exact H|reflexivity].
  - intros (i & A & K). injection K as <-. apply redirect_iff. exact A.
  - destruct f; try contradiction. intros H. exists r. split; [apply redirect_iff; exact H|reflexivity].
  - split; [discriminate|contradiction].
Qed.
Lemma grpc_filter_iff pb f : try_grpc_filter L pb = Some f <-> grpc_filter_says L pb f.
Proof.
  destruct pb as [[x|x]|]; cbn [try_grpc_filter grpc_filter_says]; try (rewrite bind_iff; split).
  - intros (i & A & K). injection K as <-. apply grpc_failure_iff. exact A.
  - destruct f; try contradiction. intros H. exists i. split; [apply grpc_failure_iff; exact H|reflexivity].
  - intros (i & A & K). injection K as <-. apply modifier_iff. exact A.
  - destruct f; try contradiction. intros H. exists m. split; [apply modifier_iff; exact H|reflexivity].
  - split; [discriminate|contradiction].
Qed.
Lemma no_dispatcher_eq m : no_dispatcher m =
  bs "backend for " ++ kind m ++ bs " " ++ namespace m ++
  (match namespace m with [] => [] | _ => bs "/" end) ++ name m ++ bs " has no dispatcher".
Proof. unfold no_dispatcher. reflexivity. Qed.
Lemma dispatcher_iff m pb d : try_dispatcher L m pb = Some d <-> dispatcher_says L m pb d.
Proof.
  destruct pb as [[disc l|ep]|]; cbn [try_dispatcher dispatcher_says].
  - split.
    + intros H. apply bind_iff in H as (k & -> & H). apply bind_iff in H as (p & -> & H). apply bind_iff in H as (l1 & -> & H).
      apply bind_iff in H as (l' & A & H). injection H as <-. split; [reflexivity|]. exists l1. split; [reflexivity|]. apply load_iff. exact A.
    + destruct d as [|l' p|]; try contradiction. intros [-> (l1 & -> & A)]. cbn beta iota. apply load_iff in A. rewrite A. reflexivity.
  - rewrite bind_iff. split.
    + intros ([a md] & A & K). injection K as <-. exact A.
    + destruct d as [a md| |]; try contradiction. intros A. exists (a, md). auto.
  - rewrite no_dispatcher_eq. destruct d as [| |x]; split; intros K; try discriminate; try contradiction.
    + injection K as <-. reflexivity.
    + rewrite K. reflexivity.
Qed.
Lemma backend_iff pb b : try_backend L pb = Some b <-> backend_says L pb b.
Proof.
  unfold try_backend, backend_says. split.
  - intros H. apply bind_iff in H as (m & A & H). apply need_meta_iff in A. apply bind_iff in H as (d & B & H). apply dispatcher_iff in B.
    apply bind_iff in H as (q & C & H). apply bind_iff in H as (ff & D & H). apply need_duration_iff in D. injection H as <-.
    cbn [b_meta b_queue b_dispatcher]. split; [exact A|]. split; [exact B|]. exists q. auto.
  - intros (A & B & q & C & D & E). destruct b as [m [cap ff] d]. cbn in *. subst. apply need_meta_iff in A. apply dispatcher_iff in B. apply need_duration_iff in E.
    rewrite A, B, C, E. reflexivity.
Qed.

Section Distributions.
Context {F G : Type}.
Variable try_filter : F -> option G.
Variable filter_says : F -> G -> Prop.
Hypothesis filter_iff : forall x y, try_filter x = Some y <-> filter_says x y.
Lemma route_backend_iff pb b : try_route_backend L try_filter pb = Some b <-> route_backend_says L filter_says pb b.
Proof.
  unfold try_route_backend, route_backend_says. split.
  - intros H. apply bind_iff in H as (x & A & H). apply bind_iff in H as (y & B & H). apply bind_iff in H as (fs & C & H). injection H as <-.
    split; [exists x; split; [exact A|apply backend_iff; exact B]|]. apply (collect_says _ _ filter_iff). exact C.
  - intros [(x & A & B) C]. destruct b as [fs y]. cbn in *. apply backend_iff in B. apply (collect_says _ _ filter_iff) in C. rewrite A, B, C. reflexivity.
Qed.
Lemma distribution_iff pb d : try_distribution L try_filter pb = Some d <-> distribution_says L filter_says pb d.
Proof.
  destruct pb as [[|l|l]|]; cbn [try_distribution distribution_says].
  - destruct d; split; intros K; try discriminate; try contradiction; [exact I|reflexivity].
  - assert (X : forall (wb : N * option (pb_route_backend F)) (bw : route_backend G * N), (b <- snd wb ;; b <- try_route_backend L try_filter b ;; Some (b, fst wb)) = Some bw <->
                 fst wb = snd bw /\ required (route_backend_says L filter_says) (snd wb) (fst bw)).
    { intros [w o] [b w']. cbn [fst snd]. rewrite bind_iff. split.
      - intros (x & A & K). apply bind_iff in K as (y & B & K). injection K as <- <-. split; [reflexivity|]. exists x. split; [exact A|]. apply route_backend_iff. exact B.
      - intros (-> & x & A & B). exists x. split; [exact A|]. apply route_backend_iff in B. rewrite B. reflexivity. }
    rewrite bind_iff. split.
    + intros (l' & A & K). apply (collect_says _ _ X) in A. destruct l' as [|y l']; [discriminate|]. injection K as <-.
      split; [|exact A]. inversion A; discriminate.
    + destruct d as [| |l']; try contradiction. intros [A B]. exists l'. split; [apply (collect_says _ _ X); exact B|]. destruct B; [congruence|reflexivity].
  - rewrite bind_iff. split.
    + intros (l' & A & K). apply (collect_says _ _ route_backend_iff) in A. destruct l' as [|y l']; [discriminate|]. injection K as <-.
      split; [|exact A]. inversion A; discriminate.
    + destruct d as [|l'|]; try contradiction. intros [A B]. exists l'. split; [apply (collect_says _ _ route_backend_iff); exact B|]. destruct B; [congruence|reflexivity].
  - split; [discriminate|contradiction].
Qed.
End Distributions.

Section Rules.
Context {M M' F F' C C' : Type}.
Variable try_match : M -> option M'.
Variable match_valid : M -> M' -> Prop.
Hypothesis match_iff : forall x y, try_match x = Some y <-> match_valid x y.
Variable try_filter : option F -> option F'.
Variable filter_says : option F -> F' -> Prop.
Hypothesis filter_iff : forall x y, try_filter x = Some y <-> filter_says x y.
Variable try_retry : pb_retry C -> option (retry C').
Variable retry_says : pb_retry C -> retry C' -> Prop.
Hypothesis retry_iff : forall x y, try_retry x = Some y <-> retry_says x y.
Variable export : bool.
Lemma rule_iff md m pb r : required meta_says md m ->
  try_rule L try_match try_filter try_retry export m pb = Some r <->
  rule_says L match_valid filter_says retry_says export md pb r /\ rp_meta (ru_policy r) = m.
Proof.
  intros MD. unfold try_rule, rule_says, policy_says. split.
  - intros H. apply bind_iff in H as (ms & A & H). apply bind_iff in H as (fs & B & H). apply bind_iff in H as (x & D & H).
    apply bind_iff in H as (d & E & H). apply bind_iff in H as (ps & G & H). injection H as <-.
    cbn [ru_matches ru_policy rp_meta rp_filters rp_distribution rp_params]. split; [|reflexivity].
    split; [apply (collect_says _ _ match_iff); exact A|]. split; [exact MD|].
    split; [apply (collect_says _ _ filter_iff); exact B|]. split; [exists x; split; [exact D|apply (distribution_iff _ _ filter_iff); exact E]|].
    apply (params_iff _ _ retry_iff) in G. exact G.
  - intros [(A & B & D & (x & E & E') & G) K]. destruct r as [ms [m' fs d ps]]. cbn [ru_matches ru_policy rp_meta rp_filters rp_distribution rp_params] in *. subst m'.
    apply (collect_says _ _ match_iff) in A. apply (collect_says _ _ filter_iff) in D. apply (distribution_iff _ _ filter_iff) in E'.
    apply (params_iff _ _ retry_iff) in G. rewrite A, D, E, E', G. reflexivity.
Qed.
Lemma meta_says_unique pb m m' : required meta_says pb m -> required meta_says pb m' -> m = m'.
Proof. intros A B. apply need_meta_iff in A, B. congruence. Qed.
Lemma route_iff pb rt :
  try_route L try_match try_filter try_retry export pb = Some rt <->
  route_says L match_valid filter_says retry_says export pb rt.
Proof.
  unfold try_route, route_says. split.
  - intros H. apply bind_iff in H as (m & A & H). apply need_meta_iff in A. apply bind_iff in H as (hs & B & H). apply bind_iff in H as (rs & E & H).
    injection H as <-. cbn [rt_hosts rt_rules]. split; [exists m; exact A|]. split; [apply (collect_says _ _ host_valid_iff); exact B|].
    apply (collect_says _ _ (fun x y => rule_iff _ _ x y A)) in E. clear - E. induction E as [|x y l l' [X _] _ J]; constructor; assumption.
  - intros ((m & A) & B & E). destruct rt as [hs rs]. cbn in *. apply bind_iff. exists m. split; [apply need_meta_iff; exact A|].
    apply (collect_says _ _ host_valid_iff) in B. rewrite B. apply bind_iff. exists rs. split; [|reflexivity].
    apply (collect_says _ _ (fun x y => rule_iff _ _ x y A)). clear - E A. induction E as [|x y l l' X _ J]; constructor; [|exact J].
    split; [exact X|]. destruct X as (_ & X & _). exact (meta_says_unique _ _ _ X A).
Qed.
Lemma routes_iff pb r :
  try_routes L try_match try_filter try_retry export pb = Some r <->
  routes_say (route_says L match_valid filter_says retry_says export) pb r.
Proof.
  unfold try_routes, routes_say. split.
  - intros H. apply bind_iff in H as (rs & A & H). apply bind_iff in H as (a & B & H). injection H as <-. cbn.
    split; [apply (collect_says _ _ route_iff); exact A|apply (transpose_says _ _ accrual_says_iff); exact B].
  - intros [A B]. destruct r as [rs a]. cbn in *. apply (collect_says _ _ route_iff) in A. apply (transpose_says _ _ accrual_says_iff) in B. rewrite A, B. reflexivity.
Qed.
End Rules.

Lemma http_iff export pb r : try_http L export pb = Some r <-> routes_say (http_route_says L export) pb r.
Proof. apply routes_iff; [apply http_match_valid_iff|apply http_filter_iff|apply http_retry_iff]. Qed.
Lemma grpc_iff export pb r : try_grpc L export pb = Some r <-> routes_say (grpc_route_says L export) pb r.
Proof. apply routes_iff; [apply grpc_match_valid_iff|apply grpc_filter_iff|apply grpc_retry_iff]. Qed.
Lemma tcp_rule_iff {P} m (ps : P) pb p :
  try_tcp_rule L m ps pb = Some p <->
  rp_meta p = m /\ required (distribution_says L tcp_filter_says) (pbx_backends pb) (rp_distribution p) /\
  Forall2 tcp_filter_says (pbx_filters pb) (rp_filters p) /\ rp_params p = ps.
Proof.
  unfold try_tcp_rule. split.
  - intros H. apply bind_iff in H as (x & A & H). apply bind_iff in H as (d & B & H). apply bind_iff in H as (fs & C & H). injection H as <-. cbn.
    split; [reflexivity|]. split; [exists x; split; [exact A|apply (distribution_iff _ _ tcp_filter_iff); exact B]|].
    split; [apply (collect_says _ _ tcp_filter_iff); exact C|reflexivity].
  - intros (A & (x & B & B') & C & D). destruct p as [m' fs d ps']. cbn in *. subst. apply (distribution_iff _ _ tcp_filter_iff) in B'.
    apply (collect_says _ _ tcp_filter_iff) in C. rewrite B, B', C. reflexivity.
Qed.
Lemma opaq_route_iff pb p : try_opaq_route L pb = Some p <-> tcp_route_says L tt pb p.
Proof.
  unfold try_opaq_route, tcp_route_says. rewrite bind_iff. split.
  - intros (m & A & H). apply need_meta_iff in A. destruct (pbx_rules pb) as [|r [|]]; try discriminate.
    apply tcp_rule_iff in H as (<- & H). split; [exact A|]. exists r. split; [reflexivity|exact H].
  - intros (A & r & E & H). exists (rp_meta p). split; [apply need_meta_iff; exact A|]. rewrite E. apply tcp_rule_iff. auto.
Qed.
Lemma opaq_iff pb o : try_opaq L pb = Some o <-> opaq_says L pb o.
Proof.
  destruct pb as [|r [|r2 l]]; cbn [try_opaq].
  - destruct o as [p|]; cbn [opaq_says]; split; intros K; try discriminate; try reflexivity. destruct K as (r & E & _). discriminate.
  - rewrite bind_iff. split.
    + intros (p & A & K). injection K as <-. exists r. split; [reflexivity|]. apply opaq_route_iff. exact A.
    + destruct o as [p|]; cbn [opaq_says]; [|discriminate]. intros (r' & E & H). injection E as <-. exists p. split; [apply opaq_route_iff; exact H|reflexivity].
  - split; [discriminate|]. destruct o as [p|]; cbn [opaq_says]; [|discriminate]. intros (r' & E & _). discriminate.
Qed.
Lemma tls_route_iff export pb rt : try_tls_route L export pb = Some rt <-> tls_route_says L export pb rt.
Proof.
  unfold try_tls_route, tls_route_says, tcp_route_says. split.
  - intros H. apply bind_iff in H as (m & A & H). apply need_meta_iff in A. apply bind_iff in H as (sn & B & H).
    destruct (pbx_rules pb) as [|r [|]]; try discriminate. apply bind_iff in H as (p & C & H). injection H as <-.
    cbn [TlsRouteModel.tr_snis TlsRouteModel.tr_policy]. split; [apply (collect_says _ _ sni_valid_iff); exact B|].
    apply tcp_rule_iff in C as (<- & C). split; [exact A|]. exists r. auto.
  - intros (A & B & r & E & H). destruct rt as [sn p]. cbn [TlsRouteModel.tr_snis TlsRouteModel.tr_policy] in *.
    apply bind_iff. exists (rp_meta p). split; [apply need_meta_iff; exact B|]. apply (collect_says _ _ sni_valid_iff) in A. rewrite A, E.
    apply bind_iff. exists p. split; [apply tcp_rule_iff; auto|reflexivity].
Qed.
Lemma protocol_iff export pb p : try_protocol L export pb = Some p <-> protocol_says L export pb p.
Proof.
  destruct pb as [t h1 h2 o|h|h|g|o|t]; cbn [try_protocol protocol_says].
  - split.
    + intros H. apply bind_iff in H as (t' & A & H). apply bind_iff in H as (x1 & B & H). apply bind_iff in H as (y1 & B' & H).
      apply bind_iff in H as (x2 & C & H). apply bind_iff in H as (y2 & C' & H). apply bind_iff in H as (x3 & D & H). apply bind_iff in H as (y3 & D' & H).
      injection H as <-. split; [apply need_duration_iff; exact A|]. split; [exists x1; split; [exact B|apply http_iff; exact B']|].
      split; [exists x2; split; [exact C|apply http_iff; exact C']|]. exists x3. split; [exact D|apply opaq_iff; exact D'].
    + destruct p; try contradiction. intros (A & (x1 & B & B') & (x2 & C & C') & (x3 & D & D')).
      apply need_duration_iff in A. apply http_iff in B', C'. apply opaq_iff in D'. rewrite A, B, B', C, C', D, D'. reflexivity.
  - rewrite bind_iff. split; [intros (y & A & K); injection K as <-; apply http_iff; exact A|].
    destruct p; try contradiction. intros A. eexists. split; [apply http_iff; exact A|reflexivity].
  - rewrite bind_iff. split; [intros (y & A & K); injection K as <-; apply http_iff; exact A|].
    destruct p; try contradiction. intros A. eexists. split; [apply http_iff; exact A|reflexivity].
  - rewrite bind_iff. split; [intros (y & A & K); injection K as <-; apply grpc_iff; exact A|].
    destruct p; try contradiction. intros A. eexists. split; [apply grpc_iff; exact A|reflexivity].
  - rewrite bind_iff. split; [intros (y & A & K); injection K as <-; apply opaq_iff; exact A|].
    destruct p; try contradiction. intros A. eexists. split; [apply opaq_iff; exact A|reflexivity].
  - rewrite bind_iff. split; [intros (y & A & K); injection K as <-; apply (collect_says _ _ (tls_route_iff export)); exact A|].
    destruct p; try contradiction. intros A. eexists. split; [apply (collect_says _ _ (tls_route_iff export)); exact A|reflexivity].
Qed.
(** C96 *)
Theorem policy_iff export pb m p :
  (exists bs, try_from L export pb = Some (ClientPolicy m p bs)) <-> client_policy_says L export pb m p.
Proof.
  unfold try_from, client_policy_says. split.
  - intros (b & H). apply bind_iff in H as (m' & A & H). apply bind_iff in H as (k & B & H). apply bind_iff in H as (k' & -> & H).
    apply bind_iff in H as (p' & C & H). injection H as -> -> _. split; [apply need_meta_iff; exact A|]. exists k'. split; [exact B|]. apply protocol_iff. exact C.
  - intros (A & k & B & C). exists (fill_protocol p). apply need_meta_iff in A. apply protocol_iff in C. rewrite A, B, C. reflexivity.
Qed.
End Lib.

(** What is retried *)
Theorem retry_statuses pb r s : try_http_retry pb = Some r ->
  (status_ranges_contain (rt_conditions r) s = true <->
   exists ranges a b, pby_conditions pb = Some ranges /\ In (a, b) ranges /\ a <= s <= b).
Proof.
  intros H. apply http_retry_iff in H as (_ & _ & _ & C & _). unfold status_ranges_contain. rewrite existsb_exists. split.
  - intros ([a b] & J & K). apply andb_true_iff in K as [K1 K2]. apply N.leb_le in K1, K2. cbn [fst snd] in *. exists (rt_conditions r), a, b. auto.
  - intros (ranges & a & b & E & J & K1 & K2). rewrite C in E. injection E as <-. exists (a, b). split; [exact J|]. apply andb_true_iff. split; apply N.leb_le; assumption.
Qed.
Theorem retry_codes pb r code : try_grpc_retry pb = Some r ->
  (codes_contain (rt_conditions r) code = true <->
   exists c, pby_conditions pb = Some c /\
     (code = 1 /\ pbc_cancelled c = true \/ code = 4 /\ pbc_deadline c = true \/ code = 8 /\ pbc_exhausted c = true \/
      code = 13 /\ pbc_internal c = true \/ code = 14 /\ pbc_unavailable c = true)).
Proof.
  intros H. apply grpc_retry_iff in H as (_ & _ & (c & C & E) & _). rewrite E, C. unfold codes_contain. rewrite existsb_exists. split.
  - intros (x & J & K). apply N.eqb_eq in K. subst x. exists c. split; [reflexivity|]. unfold codes_of in J. apply filter_In in J as [J K].
    cbn [In] in J. destruct J as [<-|[<-|[<-|[<-|[<-|[]]]]]]; tauto.
  - intros (c' & C' & K). injection C' as <-. exists code. split; [|apply N.eqb_refl]. unfold codes_of. apply filter_In.
    destruct K as [[-> K]|[[-> K]|[[-> K]|[[-> K]|[-> K]]]]]; (split; [cbn; tauto|exact K]).
Qed.
