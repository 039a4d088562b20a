(** Proofs about the routes of TLS connections. *)
From Coq Require Import List NArith Bool Lia.
From Verif Require Import Bytes BytesProofs NameModel RouteModel RouteSpec RouteProofs TlsRouteModel TlsRouteSpec.
Import ListNotations.
Open Scope N_scope.

(** ** A name *)

Lemma strip_dot_undotted s t : undotted s t <-> strip_dot s = t.
Proof.
  unfold strip_dot. destruct (strip_suffix [46] s) as [r|] eqn:E.
  - apply strip_suffix_some in E. subst s. split.
    + intros H. inversion H as [h Q|h Q]; subst.
      * now apply app_inj_tail in Q as [-> _].
      * now elim (Q r).
    + intros <-. constructor.
  - apply strip_suffix_none in E. split.
    + intros H. inversion H as [h Q|h Q]; subst; [elim E; eauto|easy].
    + intros <-. constructor. intros h Q. apply E. eauto.
Qed.

Lemma compared_iff (A : Prop) (b : bool) sni s : (b = true <-> A) ->
  (compared A sni s <-> (if b then sni else strip_dot sni) = s).
Proof.
  intros B. unfold compared. rewrite strip_dot_undotted. destruct b.
  - assert (A) by tauto. intuition congruence.
  - assert (~ A) by (intros a; apply B in a; discriminate). intuition congruence.
Qed.

Lemma suffix_text_cons l labels : suffix_text (l :: labels) = suffix_text labels ++ 46 :: l.
Proof. unfold suffix_text. cbn [rev]. rewrite map_app, concat_app. cbn. now rewrite app_nil_r. Qed.

Lemma len_app (a b : bytes) : len (a ++ b) = len a + len b.
Proof. unfold len. rewrite app_length. lia. Qed.

Lemma strip_sni_some labels : forall sni k n,
  strip_sni sni labels k = Some n <->
  n = k + len (suffix_text labels) /\ exists pre, sni = pre ++ suffix_text labels.
Proof.
  induction labels as [|l labels IH]; intros sni k n; cbn [strip_sni].
  - cbn. rewrite N.add_0_r. split.
    + intros [= <-]. split; [easy|]. exists sni. now rewrite app_nil_r.
    + now intros [-> _].
  - rewrite suffix_text_cons, len_app.
    replace (len (46 :: l)) with (len l + 1) by (unfold len; cbn [length]; lia).
    destruct (strip_suffix l sni) as [s|] eqn:E.
    + apply strip_suffix_some in E. subst sni. destruct (strip_suffix [46] s) as [t|] eqn:F.
      * apply strip_suffix_some in F. subst s. rewrite IH. split.
        -- intros (-> & pre & ->). split; [lia|]. exists pre. now rewrite <- !app_assoc.
        -- intros (-> & pre & Q). split; [lia|]. exists pre. rewrite <- app_assoc in Q. cbn [app] in Q.
           rewrite app_assoc in Q. apply app_inv_tail in Q. exact Q.
      * apply strip_suffix_none in F. split; [discriminate|]. intros (_ & pre & Q). elim F.
        change (46 :: l) with ([46] ++ l) in Q. rewrite !app_assoc in Q. apply app_inv_tail in Q. eauto.
    + apply strip_suffix_none in E. split; [discriminate|]. intros (_ & pre & Q). elim E.
      change (46 :: l) with ([46] ++ l) in Q. rewrite !app_assoc in Q. eauto.
Qed.

Definition sni_key (m : sni_match) : list N := match m with SMExact n => [2; n] | SMSuffix n => [1; n] end.
Definition sni_opt_key (m : option sni_match) : list N := match m with None => [0; 0] | Some m => sni_key m end.

Lemma absolute_iff (labels : list bytes) :
  match labels with [] :: _ => true | _ => false end = true <-> exists l, labels = [] :: l.
Proof.
  destruct labels as [|[|c l] labels]; split; try discriminate; try (intros [? ?]; discriminate); eauto.
Qed.

Lemma summarize_some m sni s : summarize_sni m sni = Some s <-> sni_accepts m sni /\ sni_key s = sni_rank m.
Proof.
  destruct m as [h|labels]; cbn [summarize_sni sni_accepts sni_rank].
  - rewrite (compared_iff _ (ends_with [46] h)) by apply ends_with_iff.
    destruct (beq h _) eqn:E.
    + apply beq_eq in E. split.
      * intros [= <-]. auto.
      * intros [_ Q]. destruct s; [|discriminate]. cbn in Q. congruence.
    + apply beq_neq in E. split; [discriminate|]. intros [Q _]. congruence.
  - set (b := match labels with [] :: _ => true | _ => false end).
    assert (B : forall s, compared (exists l, labels = [] :: l) sni s <-> (if b then sni else strip_dot sni) = s)
      by (intros t; apply compared_iff, absolute_iff).
    destruct (strip_sni _ labels 0) as [n|] eqn:E.
    + apply strip_sni_some in E as (-> & pre & Q). split.
      * intros [= <-]. split; [|now cbn]. exists pre. apply B. exact Q.
      * intros [_ R]. destruct s; [discriminate|]. cbn in R. injection R as ->. reflexivity.
    + split; [discriminate|]. intros ((pre & Q) & _). apply B in Q.
      assert (F : strip_sni (if b then sni else strip_dot sni) labels 0 = Some (0 + len (suffix_text labels)))
        by (apply strip_sni_some; eauto).
      congruence.
Qed.
Lemma sni_key_of m : exists s, sni_key s = sni_rank m.
Proof. destruct m; [exists (SMExact (len h))|exists (SMSuffix (len (suffix_text reverse_labels)))]; reflexivity. Qed.
Lemma sni_key_inj a b : sni_key a = sni_key b -> a = b.
Proof. destruct a, b; cbn; congruence. Qed.

Theorem sni_iff m sni : (exists s, summarize_sni m sni = Some s) <-> sni_accepts m sni.
Proof.
  split.
  - intros [s H]. now apply summarize_some in H.
  - intros H. destruct (sni_key_of m) as [s Q]. exists s. now apply summarize_some.
Qed.

Lemma split_rev_text name : suffix_text (rev (split 46 name)) = 46 :: name.
Proof.
  unfold suffix_text. rewrite rev_involutive.
  pose proof (split_join 46 name) as J. pose proof (split_nonempty 46 name) as E.
  destruct (split 46 name) as [|l ls]; [now elim E|]. cbn [map concat app]. f_equal.
  rewrite <- J. clear. revert l. induction ls as [|m ls IH]; intros l; cbn [map concat join].
  - now rewrite app_nil_r.
  - specialize (IH m). cbn [app] in *. rewrite IH. reflexivity.
Qed.

(** ** The order *)

Lemma sni_cmp_key a b : sni_cmp a b = lexcmp (sni_key a) (sni_key b).
Proof. destruct a as [x|x], b as [y|y]; cbn; try easy; now destruct (x ?= y). Qed.
Lemma sni_key_len a : length (sni_key a) = 2%nat.
Proof. now destruct a. Qed.
Lemma sni_opt_cmp_key a b : opt_cmp sni_cmp a b = lexcmp (sni_opt_key a) (sni_opt_key b).
Proof.
  destruct a as [a|], b as [b|]; cbn [opt_cmp sni_opt_key]; try easy.
  - apply sni_cmp_key.
  - now destruct a.
  - now destruct b.
Qed.
Lemma sni_opt_key_len a : length (sni_opt_key a) = 2%nat.
Proof. destruct a as [a|]; [apply sni_key_len|easy]. Qed.

(** ** A route *)

Section Routes.
  Context {P : Type}.

  Lemma tls_summary_some sni (rt : tls_route P) k p : tls_summary sni rt = Some (k, p) ->
    p = tr_policy rt /\ tls_applies rt sni (sni_opt_key k).
  Proof.
    unfold tls_summary, tls_applies. intros H. destruct (tr_snis rt) as [|m ms] eqn:E.
    - injection H as <- <-. split; auto.
    - rewrite <- E in *. destruct (max_by _ _) as [b|] eqn:M; [|discriminate]. injection H as <- <-.
      split; [easy|]. right. apply (max_by_some _ sni_key 2 sni_key_len sni_cmp_key) in M as [M1 M2]. split.
      + apply filter_map_in in M1 as (x & X & S). apply summarize_some in S as [S1 S2]. exists x. auto.
      + intros x X A. destruct (sni_key_of x) as [s Q]. rewrite <- Q. apply M2, filter_map_in. exists x.
        split; [easy|]. now apply summarize_some.
  Qed.

  Lemma tls_summary_none sni (rt : tls_route P) r : tls_summary sni rt = None -> ~ tls_applies rt sni r.
  Proof.
    unfold tls_summary, tls_applies. intros H. destruct (tr_snis rt) as [|m ms] eqn:E; [discriminate|].
    rewrite <- E in *. destruct (max_by _ _) as [b|] eqn:M; [discriminate|].
    apply max_by_none in M. rewrite filter_map_nil in M. intros [[Q _]|[(x & X & A & _) _]]; [congruence|].
    apply sni_iff in A as [s A]. specialize (M x X). cbv beta in M. congruence.
  Qed.

  Lemma tls_applies_fun sni (rt : tls_route P) r r' : tls_applies rt sni r -> tls_applies rt sni r' -> r = r'.
  Proof.
    intros [[E ->]|[(m & M & A & ->) U]] [[E' ->]|[(m' & M' & A' & ->) U']]; try easy;
      try (rewrite E in *; contradiction); try (rewrite E' in *; contradiction).
    specialize (U _ M' A'). specialize (U' _ M A). destruct U as [U|U]; [easy|].
    destruct U' as [U'|U']; [easy|]. elim (lex_lt_irrefl _ (lex_lt_trans _ _ _ U U')).
  Qed.

  Theorem tls_find_first_best (routes : list (tls_route P)) sni k p :
    tls_find routes sni = Some (k, p) -> tls_first_best routes sni p.
  Proof.
    unfold tls_find. intros H.
    apply (best_some _ sni_opt_key 2 sni_opt_key_len sni_opt_cmp_key) in H as (l1 & l2 & S & L & R).
    apply filter_map_split in S as (before & rt & after & -> & F & <- & <-).
    pose proof (tls_summary_some _ _ _ _ F) as [-> A].
    exists before, rt, after, (sni_opt_key k). repeat split; auto.
    - intros rt' r' I' A'. destruct (tls_summary sni rt') as [[k' p']|] eqn:F'.
      + pose proof (tls_summary_some _ _ _ _ F') as [_ A2]. rewrite (tls_applies_fun _ _ _ _ A' A2).
        apply (L (k', p')), filter_map_in. eauto.
      + now apply (tls_summary_none _ _ r') in F'.
    - intros rt' r' I' A'. destruct (tls_summary sni rt') as [[k' p']|] eqn:F'.
      + pose proof (tls_summary_some _ _ _ _ F') as [_ A2]. rewrite (tls_applies_fun _ _ _ _ A' A2).
        apply (R (k', p')), filter_map_in. eauto.
      + now apply (tls_summary_none _ _ r') in F'.
  Qed.

  Theorem tls_find_none (routes : list (tls_route P)) sni :
    tls_find routes sni = None <-> forall rt r, In rt routes -> ~ tls_applies rt sni r.
  Proof.
    unfold tls_find. rewrite best_none, filter_map_nil. split.
    - intros H rt r I'. apply tls_summary_none. auto.
    - intros H rt I'. destruct (tls_summary sni rt) as [[k p]|] eqn:F; [|easy].
      pose proof (tls_summary_some _ _ _ _ F) as [_ A]. elim (H rt (sni_opt_key k) I' A).
  Qed.
  Theorem tls_select_some (routes : list (tls_route P)) sni p :
    tls_select routes sni = Some p -> tls_first_best routes sni p.
  Proof.
    unfold tls_select. destruct (tls_find routes sni) as [[k q]|] eqn:E; [|discriminate].
    intros [= <-]. eapply tls_find_first_best, E.
  Qed.
  Theorem tls_select_none (routes : list (tls_route P)) sni :
    tls_select routes sni = None <-> forall rt r, In rt routes -> ~ tls_applies rt sni r.
  Proof.
    rewrite <- tls_find_none. unfold tls_select. destruct (tls_find routes sni) as [[k q]|]; split; easy.
  Qed.
End Routes.

(** ** Case *)

Lemma lowers_suffix labels : (forall l, In l labels -> lower_case l) -> lowers (suffix_text labels) = suffix_text labels.
Proof.
  induction labels as [|l labels IH]; intros H; [easy|]. rewrite suffix_text_cons, lowers_app. f_equal.
  - apply IH. intros x X. apply H. now right.
  - change (lowers (46 :: l)) with (46 :: lowers l). f_equal. apply H. now left.
Qed.
Lemma lower_46 c : lower c = 46 -> c = 46.
Proof. unfold lower. destruct ((65 <=? c) && (c <=? 90)) eqn:E; [|easy]. intros. lia. Qed.
Lemma undotted_lower s t : undotted s t -> undotted (lowers s) (lowers t).
Proof.
  intros [h|h H].
  - rewrite lowers_app. apply (undotted_dot (lowers h)).
  - constructor. intros h' Q. destruct (exists_last (l := h)) as (a & c & E).
    { intros ->. now destruct h'. }
    subst h. rewrite lowers_app in Q. apply app_inj_tail in Q as [_ Q]. apply lower_46 in Q. subst c. now elim (H a).
Qed.
Lemma compared_lower A s t : compared A s t -> compared A (lowers s) (lowers t).
Proof. intros [[a ->]|[a U]]; [left; auto|right; split; [easy|now apply undotted_lower]]. Qed.
Lemma sni_accepts_lower m s : lower_match m -> sni_accepts m s -> sni_accepts m (lowers s).
Proof.
  destruct m as [h|labels]; cbn [lower_match sni_accepts].
  - intros L A. apply compared_lower in A. now rewrite L in A.
  - intros L (pre & A). exists (lowers pre). apply compared_lower in A. now rewrite lowers_app, lowers_suffix in A.
Qed.

Theorem sni_any_case m asked sni : lower_match m -> name_from_str asked = Some sni ->
  ((exists s, summarize_sni m sni = Some s) <-> sni_accepts_any_case m asked).
Proof.
  intros L H. unfold name_from_str in H. destruct (is_valid_dns_id asked); [|discriminate]. injection H as <-.
  rewrite sni_iff. split.
  - intros A. exists (lowers asked). split; [|easy]. unfold same_ignoring_case. now rewrite lowers_idem.
  - intros (s & S & A). apply sni_accepts_lower in A; [|easy]. unfold same_ignoring_case in S. now rewrite <- S in A.
Qed.
