From Coq Require Import List NArith ZArith Bool Lia ZifyBool ZifyNat ZifyN.
From Verif Require Import Bytes BytesProofs NameModel NameSpec.
Import ListNotations.
Open Scope N_scope.

(** ** C41 *)
Definition all_digits (l : bytes) : bool := forallb is_digit l.

Lemma all_digits_iff l : all_digits l = true <-> Forall digit l.
Proof.
  unfold all_digits. rewrite forallb_forall, Forall_forall.
  split; intros H x Hx; specialize (H x Hx); unfold is_digit, digit in *; lia.
Qed.

Definition ends_hyphen (l : bytes) : bool := match rev l with c :: _ => c =? 45 | [] => false end.
Lemma ends_hyphen_iff l : ends_hyphen l = true <-> exists r, l = r ++ [hyphen].
Proof.
  unfold ends_hyphen. destruct (rev l) as [|c r] eqn:E.
  - split; [discriminate|]. intros [r ->]. rewrite rev_app_distr in E. discriminate.
  - apply (f_equal (@rev N)) in E. rewrite rev_involutive in E. cbn in E. subst l. split.
    + intros H. apply N.eqb_eq in H as ->. now exists (rev r).
    + intros [r' H]. apply app_inj_tail in H as [_ ->]. reflexivity.
Qed.
Lemma ends_hyphen_snoc l c : ends_hyphen (l ++ [c]) = (c =? 45).
Proof. unfold ends_hyphen. now rewrite rev_app_distr. Qed.
Lemma all_digits_snoc l c : all_digits (l ++ [c]) = all_digits l && is_digit c.
Proof. unfold all_digits. rewrite forallb_app. cbn [forallb]. now rewrite andb_true_r. Qed.

Definition okc (c : N) : Prop := letter c \/ digit c \/ c = hyphen \/ c = underscore.

(** A possibly unfinished label. *)
Definition partial (cur : bytes) : Prop :=
  len cur <= 63 /\ (forall c, In c cur -> okc c) /\ (forall r, cur <> hyphen :: r).

Lemma okc_not_dot c : okc c -> c <> dot.
Proof. unfold okc, letter, digit, hyphen, underscore, dot. lia. Qed.

Definition accepted (s : bytes) : Prop :=
  exists labels last_label,
    Forall label labels /\ label last_label /\ ~ Forall digit last_label /\
    (s = dotted (labels ++ [last_label]) \/ s = dotted (labels ++ [last_label]) ++ [dot]).

(** The part of an accepted string before its first dot. *)
Lemma accepted_first s : accepted s ->
  exists l, label l /\
    ((s = l /\ ~ Forall digit l) \/ (s = l ++ [dot] /\ ~ Forall digit l) \/
     (exists s', s = l ++ dot :: s' /\ accepted s')).
Proof.
  intros (labels & ll & HF & Hl & Hd & Hs). destruct labels as [|l labels].
  - exists ll. split; [easy|]. cbn [app dotted join] in Hs. unfold dotted in Hs. cbn in Hs.
    destruct Hs as [->| ->]; auto.
  - exists l. inversion HF; subst. split; [easy|]. right. right.
    assert (E : dotted ((l :: labels) ++ [ll]) = l ++ dot :: dotted (labels ++ [ll])).
    { unfold dotted. cbn [app]. destruct (labels ++ [ll]) eqn:E; [destruct labels; discriminate|]. reflexivity. }
    rewrite E in Hs. destruct Hs as [->| ->].
    + exists (dotted (labels ++ [ll])). split; [easy|]. exists labels, ll. auto.
    + exists (dotted (labels ++ [ll]) ++ [dot]). split; [now rewrite <- app_assoc|].
      exists labels, ll. auto.
Qed.
Lemma accepted_one l : label l -> ~ Forall digit l -> accepted l.
Proof. intros. exists [], l. cbn. auto. Qed.
Lemma accepted_one_dot l : label l -> ~ Forall digit l -> accepted (l ++ [dot]).
Proof. intros. exists [], l. cbn. auto. Qed.
Lemma accepted_cons l s : label l -> accepted s -> accepted (l ++ dot :: s).
Proof.
  intros Hl (labels & ll & HF & Hll & Hd & Hs). exists (l :: labels), ll.
  split; [now constructor|]. split; [easy|]. split; [easy|].
  assert (E : dotted ((l :: labels) ++ [ll]) = l ++ dot :: dotted (labels ++ [ll])).
  { unfold dotted. cbn [app]. destruct (labels ++ [ll]) eqn:E; [destruct labels; discriminate|]. reflexivity. }
  rewrite E. destruct Hs as [->| ->]; [now left|right]. now rewrite <- app_assoc.
Qed.
Lemma label_no_dot l : label l -> ~ In dot l.
Proof. intros (_ & _ & H & _) Hin. apply H in Hin. now apply okc_not_dot in Hin. Qed.
Lemma accepted_nonempty s : accepted s -> s <> [].
Proof.
  intros H. apply accepted_first in H as (l & (Hl & _) & [[-> _]|[[-> _]|(s' & -> & _)]]); destruct l; easy.
Qed.

Lemma no_dot_split (a b c d : bytes) : ~ In dot a -> ~ In dot b ->
  a ++ dot :: c = b ++ dot :: d -> a = b /\ c = d.
Proof.
  revert b; induction a as [|x a IH]; intros [|y b] Ha Hb H; cbn in *.
  - now injection H.
  - injection H as <- _. exfalso. apply Hb. now left.
  - injection H as -> _. exfalso. apply Ha. now left.
  - injection H as <- H. apply IH in H as [-> ->]; auto.
Qed.

Lemma partial_label cur : partial cur -> cur <> [] -> ends_hyphen cur = false -> label cur.
Proof.
  intros (H1 & H2 & H3) Hne He. unfold label. repeat split; auto. intros r ->.
  apply not_true_iff_false in He. apply He. apply ends_hyphen_iff. eauto.
Qed.

Lemma extends_first cur c s l s' : ~ In dot cur -> c <> dot ->
  cur ++ c :: s = l ++ dot :: s' -> ~ In dot l -> exists r, l = cur ++ c :: r.
Proof.
  revert l; induction cur as [|x cur IH]; intros [|y l] Hcur Hc E Hl; cbn in *.
  - injection E as -> _. contradiction.
  - injection E as <- E. eauto.
  - injection E as -> _. exfalso. apply Hcur. now left.
  - injection E as <- E. destruct (IH l) as (r & ->); auto. eauto.
Qed.

Lemma accepted_extends cur c s : ~ In dot cur -> c <> dot -> accepted (cur ++ c :: s) ->
  exists l r, label l /\ l = cur ++ c :: r.
Proof.
  intros Hcur Hc H. apply accepted_first in H as (l & Hl & H). exists l.
  apply label_no_dot in Hl as Hld.
  destruct H as [[<- _]|[[H _]|(s' & H & _)]].
  - eauto.
  - apply extends_first in H as [r ->]; eauto.
  - apply extends_first in H as [r ->]; eauto.
Qed.

Lemma partial_no_dot cur : partial cur -> ~ In dot cur.
Proof. intros (_ & H & _) Hi. apply H in Hi. now apply okc_not_dot in Hi. Qed.

Lemma partial_snoc cur c : partial cur -> okc c -> len cur + 1 <= 63 -> (cur <> [] \/ c <> hyphen) ->
  partial (cur ++ [c]).
Proof.
  intros (H1 & H2 & H3) Hc Hl Hh. repeat split.
  - unfold len in *. rewrite app_length. cbn. lia.
  - intros x Hx. apply in_app_or in Hx as [Hx|[<-|[]]]; auto.
  - intros r E. destruct cur as [|y cur]; cbn in E; injection E as -> E; [now destruct Hh|].
    now apply (H3 cur).
Qed.

(** The scanner state for an unfinished label [cur]; [pn] is the numeric flag
    left by the label before. *)
Lemma dns_scan_spec s : forall cur pn, partial cur ->
  (dns_scan (len cur) (if len cur =? 0 then pn else all_digits cur) (ends_hyphen cur) s = true <->
   (cur ++ s = [] /\ pn = false) \/ accepted (cur ++ s)).
Proof.
  induction s as [|c s IH]; intros cur pn Hp; cbn [dns_scan].
  - rewrite app_nil_r. destruct cur as [|x cur].
    + cbn. destruct pn; cbn; split; auto; try discriminate.
      * intros [[_ H]|H]; [discriminate|]. now apply accepted_nonempty in H.
    + replace (len (x :: cur) =? 0) with false by (unfold len; cbn [length]; lia).
      rewrite andb_true_iff, !negb_true_iff. split.
      * intros [H1 H2]. right. apply accepted_one; [now apply partial_label|].
        rewrite <- all_digits_iff. congruence.
      * intros [[H _]|H]; [discriminate|]. apply accepted_first in H as (l & Hl & H).
        assert (El : x :: cur = l /\ ~ Forall digit l).
        { destruct H as [H|[[H _]|(s' & H & _)]]; [easy| |]; exfalso;
            apply (partial_no_dot _ Hp); rewrite H; apply in_or_app; right; now left. }
        destruct El as [El Hd]. subst l. destruct Hl as (_ & _ & _ & _ & Hh). split.
        -- apply not_true_iff_false. rewrite ends_hyphen_iff. intros [r Hr]. now apply (Hh r).
        -- apply not_true_iff_false. now rewrite all_digits_iff.
  - (* a label character *)
    assert (Hext : forall b n, okc c -> (cur <> [] \/ c <> hyphen) -> 
      b = (c =? 45) -> n = all_digits (cur ++ [c]) ->
      ((if 63 <? len cur + 1 then false else dns_scan (len cur + 1) n b s) = true <->
       (cur ++ c :: s = [] /\ pn = false) \/ accepted (cur ++ c :: s))).
    { intros b n Hc Hh -> ->. destruct (63 <? len cur + 1) eqn:El.
      - split; [discriminate|]. intros [[H _]|H]; [destruct cur; discriminate|].
        apply accepted_extends in H as (l & r & Hl & ->); [|now apply partial_no_dot|now apply okc_not_dot].
        destruct Hl as (_ & Hl & _). unfold len in *. rewrite app_length in Hl. cbn [length] in Hl. lia.
      - assert (Hp' : partial (cur ++ [c])) by (apply partial_snoc; auto; lia).
        specialize (IH (cur ++ [c]) pn Hp'). rewrite ends_hyphen_snoc in IH.
        replace (len (cur ++ [c])) with (len cur + 1) in IH by (unfold len; rewrite app_length; cbn [length]; lia).
        replace (len cur + 1 =? 0) with false in IH by lia.
        rewrite IH, <- app_assoc. reflexivity. }
    destruct (c =? 45) eqn:E45.
    + apply N.eqb_eq in E45 as ->. destruct cur as [|x cur].
      * cbn [len length N.of_nat]. replace (len [] =? 0) with true by reflexivity. split; [discriminate|].
        intros [[H _]|H]; [discriminate|]. cbn [app] in H.
        apply (accepted_extends [] 45 s) in H as (l & r & (_ & _ & _ & Hl & _) & ->); [|easy|easy].
        exfalso. now apply (Hl r).
      * replace (len (x :: cur) =? 0) with false by (unfold len; cbn [length]; lia).
        apply Hext; auto.
        -- unfold okc, hyphen; auto.
        -- left. discriminate.
        -- rewrite all_digits_snoc. cbn. now rewrite andb_false_r.
    + destruct (is_digit c) eqn:Ed.
      * cbv zeta. apply Hext.
        -- unfold okc, digit, is_digit in *. lia.
        -- right. unfold hyphen. lia.
        -- reflexivity.
        -- rewrite all_digits_snoc, Ed, andb_true_r. destruct cur as [|x cur]; [reflexivity|].
           replace (len (x :: cur) =? 0) with false by (unfold len; cbn [length]; lia). reflexivity.
      * destruct (is_alpha_or_underscore c) eqn:Ea.
        -- apply Hext.
           ++ unfold okc, letter, underscore, is_alpha_or_underscore in *. lia.
           ++ right. unfold hyphen. lia.
           ++ reflexivity.
           ++ rewrite all_digits_snoc, Ed. now rewrite andb_false_r.
        -- destruct (c =? 46) eqn:E46.
           ++ apply N.eqb_eq in E46 as ->. destruct (ends_hyphen cur) eqn:Eh.
              ** split; [discriminate|]. intros [[H _]|H]; [destruct cur; discriminate|].
                 exfalso. apply accepted_first in H as (l & Hl & H).
                 assert (El : cur = l).
                 { apply label_no_dot in Hl. apply partial_no_dot in Hp.
                   destruct H as [[H _]|[[H _]|(s' & H & _)]].
                   - exfalso. apply Hl. rewrite <- H. apply in_or_app. right. now left.
                   - apply no_dot_split in H as [-> _]; auto.
                   - apply no_dot_split in H as [-> _]; auto. }
                 subst l. apply ends_hyphen_iff in Eh as [r Hr]. destruct Hl as (_ & _ & _ & _ & Hl). now apply (Hl r).
              ** destruct cur as [|x cur].
                 --- replace (len [] =? 0) with true by reflexivity. split; [discriminate|].
                     intros [[H _]|H]; [discriminate|]. cbn [app] in H.
                     apply accepted_first in H as (l & Hl & H). exfalso.
                     apply label_no_dot in Hl as Hld. destruct Hl as (Hne & _).
                     destruct l as [|y l]; [easy|]. apply Hld. left.
                     destruct H as [[H _]|[[H _]|(s' & H & _)]]; now injection H.
                 --- replace (len (x :: cur) =? 0) with false by (unfold len; cbn [length]; lia).
                     assert (Hl : label (x :: cur)) by (apply partial_label; auto; discriminate).
                     assert (Hp0 : partial []).
                     { repeat split; [unfold len; cbn; lia|easy|easy]. }
                     specialize (IH [] (all_digits (x :: cur)) Hp0). cbn [app] in IH.
                     replace (len [] =? 0) with true in IH by reflexivity.
                     change (len []) with 0 in IH. change (ends_hyphen []) with false in IH.
                     rewrite IH. split.
                     +++ intros [[-> H]|H]; right.
                         *** apply accepted_one_dot; auto. rewrite <- all_digits_iff. congruence.
                         *** now apply accepted_cons.
                     +++ intros [[H _]|H]; [discriminate|].
                         apply accepted_first in H as (l & Hl' & H).
                         apply label_no_dot in Hl' as Hd'. apply label_no_dot in Hl as Hd.
                         destruct H as [[H _]|[[H Hn]|(s' & H & Hs')]].
                         *** exfalso. apply Hd'. rewrite <- H. apply in_or_app. right. now left.
                         *** apply no_dot_split in H as [<- ->]; auto. left. split; [easy|].
                             apply not_true_iff_false. now rewrite all_digits_iff.
                         *** apply no_dot_split in H as [<- ->]; auto.
           ++ split; [discriminate|]. intros [[H _]|H]; [destruct cur; discriminate|].
              exfalso. apply N.eqb_neq in E46.
              apply accepted_extends in H as (l & r & (_ & _ & Hl & _) & ->); [|now apply partial_no_dot|easy].
              assert (Hc : In c (cur ++ c :: r)) by (apply in_or_app; right; now left).
              apply Hl in Hc. unfold okc, letter, digit, hyphen, underscore, is_digit, is_alpha_or_underscore in *. lia.
Qed.

Theorem valid_dns_iff s : is_valid_dns_id s = true <-> dns_name s.
Proof.
  unfold is_valid_dns_id, dns_name. destruct (253 <? len s) eqn:E.
  - split; [discriminate|]. intros [H _]. lia.
  - assert (Hp0 : partial []) by (repeat split; [unfold len; cbn; lia|easy|easy]).
    pose proof (dns_scan_spec s [] false Hp0) as H. cbn [app] in H.
    change (len [] =? 0) with true in H. change (len []) with 0 in H. change (ends_hyphen []) with false in H.
    fold (accepted s). destruct s as [|c s].
    + split; [discriminate|]. intros [_ Ha]. now apply accepted_nonempty in Ha.
    + cbv iota in H. rewrite H. split.
      * intros [[Hn _]|Ha]; [discriminate|]. split; [lia|easy].
      * intros [_ Ha]. now right.
Qed.

(** ** Lower-casing keeps names valid *)
Lemma lower_okc c : okc c -> okc (lower c).
Proof. unfold okc, letter, digit, hyphen, underscore, lower. intros. destruct (_ && _) eqn:E; lia. Qed.
Lemma lower_hyphen c : lower c = hyphen -> c = hyphen.
Proof. unfold lower, hyphen. destruct (_ && _) eqn:E; lia. Qed.
Lemma lower_digit c : digit (lower c) -> digit c.
Proof. unfold digit, lower. destruct (_ && _) eqn:E; lia. Qed.

Lemma label_lower l : label l -> label (lowers l).
Proof.
  intros (H1 & H2 & H3 & H4 & H5). unfold label. repeat split.
  - now destruct l.
  - unfold len in *. now rewrite lowers_length.
  - intros c Hc. unfold lowers in Hc. apply in_map_iff in Hc as (x & <- & Hx). now apply lower_okc, H3.
  - intros r Hr. destruct l as [|x l]; [discriminate|]. cbn in Hr. injection Hr as Hx _.
    apply lower_hyphen in Hx. subst. now apply (H4 l).
  - intros r Hr. destruct l as [|x l _] using rev_ind; [easy|].
    rewrite lowers_app in Hr. cbn in Hr. apply app_inj_tail in Hr as [_ Hx].
    apply lower_hyphen in Hx. subst. now apply (H5 l).
Qed.

Lemma lowers_dotted ls : lowers (dotted ls) = dotted (map lowers ls).
Proof.
  unfold dotted. induction ls as [|l ls IH]; [easy|]. cbn [join map].
  destruct ls as [|l' ls]; [easy|]. cbn [map] in *. rewrite !lowers_app, IH. reflexivity.
Qed.

Lemma dns_name_lower s : dns_name s -> dns_name (lowers s).
Proof.
  intros (Hl & labels & ll & HF & Hll & Hd & Hs). split.
  - unfold len in *. now rewrite lowers_length.
  - exists (map lowers labels), (lowers ll). repeat split.
    + apply Forall_map. eapply Forall_impl; [|exact HF]. intros. now apply label_lower.
    + now apply label_lower.
    + now apply label_lower.
    + now apply label_lower.
    + now apply label_lower.
    + now apply label_lower.
    + intros H. apply Hd. rewrite Forall_forall in *. intros c Hc.
      apply lower_digit, H. unfold lowers. now apply in_map.
    + assert (E : dotted (map lowers labels ++ [lowers ll]) = lowers (dotted (labels ++ [ll]))).
      { now rewrite lowers_dotted, map_app. }
      rewrite E. destruct Hs as [->| ->]; [now left|right]. now rewrite lowers_app.
Qed.

Theorem name_from_str_spec s n :
  name_from_str s = Some n <-> dns_name s /\ n = lowers s.
Proof.
  unfold name_from_str. destruct (is_valid_dns_id s) eqn:E.
  - apply valid_dns_iff in E. split; [intros H; injection H as <-; auto|intros [_ ->]; easy].
  - split; [discriminate|]. intros [H _]. apply valid_dns_iff in H. congruence.
Qed.

Theorem name_case_insensitive a b n m :
  name_from_str a = Some n -> name_from_str b = Some m ->
  (n = m <-> lowers a = lowers b) /\ (name_ref_eq a b = true <-> n = m).
Proof.
  intros Ha Hb. apply name_from_str_spec in Ha as [_ ->]. apply name_from_str_spec in Hb as [_ ->].
  split; [reflexivity|]. unfold name_ref_eq. apply eq_ignore_case_iff.
Qed.

(** Parsing is idempotent. *)
Theorem name_reparse s n : name_from_str s = Some n -> name_from_str n = Some n.
Proof.
  intros H. apply name_from_str_spec in H as [H ->]. apply name_from_str_spec.
  split; [now apply dns_name_lower|]. now rewrite lowers_idem.
Qed.

(** ** C42 *)
Lemma undotted_unique n t : undotted n t -> without_trailing_dot n = t.
Proof.
  intros [Hn Ht]. unfold without_trailing_dot. destruct Hn as [->| ->].
  - apply (trim_end_unique 46 t t 0); [now rewrite app_nil_r|]. intros r x -> ->. now apply (Ht r).
  - apply (trim_end_unique 46 (t ++ [dot]) t 1); [easy|]. intros r x -> ->. now apply (Ht r).
Qed.

Lemma label_last_not_dot ll pre : label ll -> forall r, pre ++ ll <> r ++ [dot].
Proof.
  intros (Hne & _ & Hc & _) r H. destruct ll as [|c ll _] using rev_ind; [easy|].
  rewrite app_assoc in H. apply app_inj_tail in H as [_ ->].
  assert (Hi : In dot (ll ++ [dot])) by (apply in_or_app; right; now left).
  apply Hc in Hi. now apply okc_not_dot in Hi.
Qed.

Lemma dotted_snoc labels ll : exists pre, dotted (labels ++ [ll]) = pre ++ ll.
Proof.
  unfold dotted. induction labels as [|l labels [pre IH]]; cbn [app join].
  - now exists [].
  - destruct (labels ++ [ll]) eqn:E; [destruct labels; discriminate|].
    rewrite IH. exists (l ++ [dot] ++ pre). now rewrite <- !app_assoc.
Qed.

Lemma dns_name_undotted n : dns_name n -> undotted n (without_trailing_dot n).
Proof.
  intros (_ & labels & ll & _ & Hll & _ & Hs).
  assert (H : undotted n (dotted (labels ++ [ll]))).
  { split; [easy|]. destruct (dotted_snoc labels ll) as [pre ->]. now apply label_last_not_dot. }
  now rewrite (undotted_unique _ _ H).
Qed.

Theorem suffix_contains_iff s name :
  dns_name name -> (forall n, s = SName n -> dns_name n) ->
  (suffix_contains s name = true <-> contained s name).
Proof.
  intros Hn Hs. destruct s as [|sfx]; [cbn; tauto|]. specialize (Hs sfx eq_refl).
  apply dns_name_undotted in Hn. apply dns_name_undotted in Hs.
  cbn [suffix_contains contained]. cbv zeta.
  set (n := without_trailing_dot name) in *. set (x := without_trailing_dot sfx) in *.
  rewrite andb_true_iff, ends_with_iff. unfold under. split.
  - intros [[r E] H]. exists x, n. split; [easy|]. split; [easy|].
    apply orb_true_iff in H as [H|H].
    + left. assert (length r = 0%nat).
      { apply N.eqb_eq in H. unfold len in H. rewrite E, app_length in H. lia. }
      destruct r; [easy|discriminate].
    + right. apply ends_with_iff in H as [r' H]. exists r'.
      rewrite E in H. rewrite app_length in H.
      replace (length r + length x - length x)%nat with (length r) in H by lia.
      rewrite firstn_app, firstn_all, Nat.sub_diag in H. cbn in H. rewrite app_nil_r in H.
      rewrite E, H. now rewrite <- app_assoc.
  - intros (s' & n' & Hs' & Hn' & H).
    apply undotted_unique in Hs'. apply undotted_unique in Hn'. fold x in Hs'. fold n in Hn'. subst s' n'.
    destruct H as [->|[sub E]].
    + split; [now exists []|]. now rewrite N.eqb_refl.
    + split; [exists (sub ++ [dot]); rewrite E, <- app_assoc; easy|]. apply orb_true_iff. right.
      apply ends_with_iff. exists sub. rewrite E, app_length. cbn [length].
      replace (length sub + S (length x) - length x)%nat with (length (sub ++ [dot])) by (rewrite app_length; cbn; lia).
      change (dot :: x) with ([dot] ++ x). rewrite app_assoc.
      rewrite firstn_app, firstn_all, Nat.sub_diag. cbn. now rewrite app_nil_r.
Qed.

Theorem name_match_iff l name :
  dns_name name -> (forall n, In (SName n) l -> dns_name n) ->
  (name_match l name = true <-> exists s, In s l /\ contained s name).
Proof.
  intros Hn Hl. unfold name_match. rewrite existsb_exists. split; intros (s & Hs & H); exists s; split; auto.
  - apply suffix_contains_iff in H; auto. intros n ->. auto.
  - apply suffix_contains_iff; auto. intros n ->. auto.
Qed.

(** ** C43 *)
Lemma dns_name_strip n : dns_name n -> dns_name (without_trailing_dot n).
Proof.
  intros Hn. pose proof (dns_name_undotted n Hn) as [Hu _].
  destruct Hn as (Hl & labels & ll & HF & Hll & Hd & Hs). 
  assert (H : undotted n (dotted (labels ++ [ll]))).
  { split; [easy|]. destruct (dotted_snoc labels ll) as [pre ->]. now apply label_last_not_dot. }
  apply undotted_unique in H. rewrite H in *. split.
  - unfold len in *. destruct Hu as [E|E]; rewrite E in Hl; [easy|]. rewrite app_length in Hl. lia.
  - exists labels, ll. auto.
Qed.

Lemma to_dec_no_colon n : ~ In 58 (to_dec n).
Proof.
  intros H. pose proof (to_dec_digits n) as Hd. rewrite forallb_forall in Hd. apply Hd in H.
  unfold is_digit in H. lia.
Qed.

Lemma lower_prefix s t k : lowers s = t ++ repeat 46 k -> lowers t = t.
Proof.
  intros Hk. pose proof (f_equal lowers Hk) as Hk'. rewrite lowers_idem, lowers_app, Hk in Hk'.
  assert (Hr : lowers (repeat 46 k) = repeat 46 k).
  { clear. unfold lowers. induction k as [|k IH]; [easy|]. cbn [repeat map]. now rewrite IH. }
  rewrite Hr in Hk'. now apply app_inv_tail in Hk'.
Qed.

Theorem name_addr_round_trip s n p :
  name_from_str s = Some n -> p <= u16_max ->
  name_addr_from_str (name_addr_to_string (NameAddr n p)) = inl (NameAddr (without_trailing_dot n) p).
Proof.
  intros Hn Hp. apply name_from_str_spec in Hn as [Hn ->]. apply dns_name_lower in Hn.
  unfold name_addr_from_str, name_addr_to_string. cbn [na_name na_port].
  assert (E : rsplit_once 58 (without_trailing_dot (lowers s) ++ [58] ++ to_dec p) =
              Some (without_trailing_dot (lowers s), to_dec p)).
  { apply rsplit_once_some. split; [easy|]. apply to_dec_no_colon. }
  rewrite E, parse_uint_to_dec by easy. unfold from_str_and_port.
  apply dns_name_strip in Hn as Hd.
  destruct (without_trailing_dot (lowers s)) as [|c r] eqn:Ew.
  - destruct Hd as (_ & Hd). fold (accepted []) in Hd. now apply accepted_nonempty in Hd.
  - rewrite <- Ew in *. assert (H : name_from_str (without_trailing_dot (lowers s)) = Some (without_trailing_dot (lowers s))).
    { apply name_from_str_spec. split; [easy|].
      destruct (trim_end_spec 46 (lowers s)) as [k Hk]. symmetry. exact (lower_prefix _ _ _ Hk). }
    now rewrite H.
Qed.

(** Exactly which texts parse. *)
Theorem name_addr_from_str_iff t a :
  name_addr_from_str t = inl a <->
  exists host port, t = host ++ 58 :: port /\ ~ In 58 port /\
    parse_uint u16_max port = Some (na_port a) /\ dns_name host /\ na_name a = lowers host.
Proof.
  unfold name_addr_from_str. destruct (rsplit_once 58 t) as [[h p]|] eqn:E.
  - apply rsplit_once_some in E as [-> Hp]. split.
    + destruct (parse_uint u16_max p) as [n|] eqn:En; [|discriminate]. unfold from_str_and_port.
      destruct h as [|c h]; [discriminate|]. destruct (name_from_str (c :: h)) as [x|] eqn:Ex; [|discriminate].
      intros H; injection H as <-. apply name_from_str_spec in Ex as [Hx ->].
      exists (c :: h), p. cbn [na_name na_port]. auto.
    + intros (host & port & E & Hport & Hpar & Hd & Hn).
      assert (Heq : host = h /\ port = p).
      { assert (H1 : rsplit_once 58 (h ++ 58 :: p) = Some (host, port)) by now apply rsplit_once_some.
        assert (H2 : rsplit_once 58 (h ++ 58 :: p) = Some (h, p)) by now apply rsplit_once_some.
        rewrite H2 in H1. now injection H1. }
      destruct Heq as [-> ->]. rewrite Hpar. unfold from_str_and_port.
      destruct h as [|c h].
      * destruct Hd as (_ & Hd). fold (accepted []) in Hd. now apply accepted_nonempty in Hd.
      * assert (Hx : name_from_str (c :: h) = Some (na_name a)) by now apply name_from_str_spec.
        rewrite Hx. now destruct a.
  - split.
    + destruct (parse_uint u16_max t); discriminate.
    + intros (host & port & -> & Hport & _).
      assert (H1 : rsplit_once 58 (host ++ 58 :: port) = Some (host, port)) by now apply rsplit_once_some.
      congruence.
Qed.
