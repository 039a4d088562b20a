(** Lemmas about byte strings. *)
From Coq Require Import List NArith ZArith Bool Lia Ascii String ZifyBool ZifyNat ZifyN.
From Verif Require Import Bytes.
Import ListNotations.
Open Scope N_scope.
Ltac Zify.zify_post_hook ::= Z.div_mod_to_equations.

Lemma beq_eq a b : beq a b = true <-> a = b.
Proof.
  revert b; induction a as [|x a IH]; intros [|y b]; cbn; split; intros H; try easy.
  - apply andb_true_iff in H as [H1 H2].
    apply N.eqb_eq in H1. apply IH in H2. congruence.
  - injection H as -> ->. rewrite N.eqb_refl. cbn. now apply IH.
Qed.

Lemma beq_refl a : beq a a = true.
Proof. now apply beq_eq. Qed.

Lemma beq_neq a b : beq a b = false <-> a <> b.
Proof.
  rewrite <- not_true_iff_false. now rewrite beq_eq.
Qed.

Lemma bytes_eq_dec (a b : bytes) : {a = b} + {a <> b}.
Proof. apply list_eq_dec, N.eq_dec. Qed.

Lemma strip_prefix_some p s r : strip_prefix p s = Some r <-> s = p ++ r.
Proof.
  revert s; induction p as [|x p IH]; intros s; cbn.
  - split; intros H; congruence.
  - destruct s as [|y s].
    + split; intros H; discriminate.
    + destruct (x =? y) eqn:E.
      * apply N.eqb_eq in E as ->. rewrite IH. split; intros H; [now subst|].
        now injection H as ->.
      * split; intros H; [discriminate|]. injection H as -> ->.
        rewrite N.eqb_refl in E. discriminate.
Qed.

Lemma strip_prefix_none p s : strip_prefix p s = None <-> ~ exists r, s = p ++ r.
Proof.
  destruct (strip_prefix p s) as [r|] eqn:E.
  - apply strip_prefix_some in E. split; [discriminate|]. intros H. exfalso. eauto.
  - split; [|easy]. intros _ [r H]. apply strip_prefix_some in H. congruence.
Qed.

Lemma strip_suffix_some p s r : strip_suffix p s = Some r <-> s = r ++ p.
Proof.
  unfold strip_suffix. destruct (strip_prefix (rev p) (rev s)) as [q|] eqn:E; cbn.
  - apply strip_prefix_some in E.
    assert (Hs : s = rev q ++ p).
    { rewrite <- (rev_involutive s), E, rev_app_distr, rev_involutive. reflexivity. }
    split; intros H.
    + injection H as <-. exact Hs.
    + f_equal. subst s. apply app_inv_tail in H. exact H.
  - split; [discriminate|]. intros ->. exfalso.
    rewrite rev_app_distr in E.
    assert (H : strip_prefix (rev p) (rev p ++ rev r) = Some (rev r)) by now apply strip_prefix_some.
    congruence.
Qed.

Lemma strip_suffix_none p s : strip_suffix p s = None <-> ~ exists r, s = r ++ p.
Proof.
  destruct (strip_suffix p s) as [r|] eqn:E.
  - apply strip_suffix_some in E. split; [discriminate|]. intros H. exfalso. eauto.
  - split; [|easy]. intros _ [r H]. apply strip_suffix_some in H. congruence.
Qed.

Lemma starts_with_iff p s : starts_with p s = true <-> exists r, s = p ++ r.
Proof.
  unfold starts_with. destruct (strip_prefix p s) as [r|] eqn:E.
  - apply strip_prefix_some in E. split; eauto.
  - apply strip_prefix_none in E. split; [discriminate|]. intros H; now elim E.
Qed.

Lemma ends_with_iff p s : ends_with p s = true <-> exists r, s = r ++ p.
Proof.
  unfold ends_with. destruct (strip_suffix p s) as [r|] eqn:E.
  - apply strip_suffix_some in E. split; eauto.
  - apply strip_suffix_none in E. split; [discriminate|]. intros H; now elim E.
Qed.

Lemma lower_idem c : lower (lower c) = lower c.
Proof.
  unfold lower. destruct ((65 <=? c) && (c <=? 90)) eqn:E; [|now rewrite E].
  destruct ((65 <=? c + 32) && (c + 32 <=? 90)) eqn:E2; lia.
Qed.

Lemma lowers_idem s : lowers (lowers s) = lowers s.
Proof. unfold lowers. rewrite map_map. apply map_ext, lower_idem. Qed.

Lemma lowers_app a b : lowers (a ++ b) = lowers a ++ lowers b.
Proof. apply map_app. Qed.

Lemma lowers_length a : List.length (lowers a) = List.length a.
Proof. apply map_length. Qed.

Lemma lower_dot c : lower c = 46 <-> c = 46.
Proof.
  unfold lower. destruct ((65 <=? c) && (c <=? 90)) eqn:E; split; intros; lia.
Qed.

Lemma eq_ignore_case_iff a b : eq_ignore_case a b = true <-> lowers a = lowers b.
Proof. apply beq_eq. Qed.

Lemma drop_while_eq_spec c s :
  exists n, s = repeat c n ++ drop_while_eq c s.
Proof.
  induction s as [|x s [n IH]]; cbn.
  - now exists 0%nat.
  - destruct (x =? c) eqn:E.
    + apply N.eqb_eq in E as ->. exists (S n). cbn. now rewrite <- IH.
    + now exists 0%nat.
Qed.

Lemma drop_while_eq_hd c s x r : drop_while_eq c s = x :: r -> x <> c.
Proof.
  induction s as [|y s IH]; cbn; [discriminate|].
  destruct (y =? c) eqn:E; [exact IH|].
  intros H. injection H as -> ->. now apply N.eqb_neq.
Qed.

Lemma rev_repeat {A} (c : A) n : rev (repeat c n) = repeat c n.
Proof.
  induction n as [|n IH]; cbn; [easy|]. rewrite IH. clear.
  induction n as [|n IH]; cbn; [easy|]. now rewrite IH.
Qed.

Lemma trim_end_spec c s : exists n, s = trim_end c s ++ repeat c n.
Proof.
  unfold trim_end. destruct (drop_while_eq_spec c (rev s)) as [n H].
  exists n. rewrite <- (rev_involutive s) at 1. rewrite H at 1.
  rewrite rev_app_distr, rev_repeat. reflexivity.
Qed.

Lemma trim_end_last c s r x : trim_end c s = r ++ [x] -> x <> c.
Proof.
  unfold trim_end. intros H.
  apply (f_equal (@rev N)) in H. rewrite rev_involutive, rev_app_distr in H. cbn in H.
  eapply drop_while_eq_hd. exact H.
Qed.

(** [trim_end] is characterised by these two facts. *)
Lemma repeat_last_cases {A} (c : A) n : repeat c (S n) = repeat c n ++ [c].
Proof. induction n as [|n IH]; cbn; [easy|]. now rewrite IH at 1. Qed.

Lemma trim_end_unique c s t n :
  s = t ++ repeat c n -> (forall r x, t = r ++ [x] -> x <> c) -> trim_end c s = t.
Proof.
  intros -> Ht. unfold trim_end. rewrite rev_app_distr, rev_repeat.
  assert (H : drop_while_eq c (repeat c n ++ rev t) = rev t).
  { induction n as [|n IH]; cbn; [|now rewrite N.eqb_refl].
    destruct (rev t) as [|x r] eqn:E; [easy|].
    assert (x <> c).
    { apply (Ht (rev r)). rewrite <- (rev_involutive t), E. reflexivity. }
    cbn. destruct (x =? c) eqn:E2; [apply N.eqb_eq in E2; contradiction|easy]. }
  now rewrite H, rev_involutive.
Qed.

Lemma split_nonempty c s : split c s <> [].
Proof.
  induction s as [|x s IH]; cbn; [easy|].
  destruct (x =? c); [easy|]. destruct (split c s); easy.
Qed.

Lemma split_join c s : join c (split c s) = s.
Proof.
  induction s as [|x s IH]; [easy|]. cbn.
  destruct (x =? c) eqn:E.
  - apply N.eqb_eq in E as ->. pose proof (split_nonempty c s).
    destruct (split c s) as [|p ps] eqn:Es; [easy|].
    change (join c ([] :: p :: ps)) with (c :: join c (p :: ps)). now rewrite IH.
  - pose proof (split_nonempty c s).
    destruct (split c s) as [|p ps] eqn:Es; [easy|].
    destruct ps as [|q ps]; cbn in *; now rewrite IH.
Qed.

Lemma split_no_sep c s p : In p (split c s) -> ~ In c p.
Proof.
  revert p; induction s as [|x s IH]; cbn; intros p.
  - intros [<-|[]]. easy.
  - destruct (x =? c) eqn:E.
    + intros [<-|H]; [easy|]. now apply IH.
    + apply N.eqb_neq in E.
      destruct (split c s) as [|q qs] eqn:Es.
      * intros [<-|[]]. cbn. intros [|[]]; congruence.
      * intros [<-|H].
        -- cbn. intros [|Hc]; [congruence|]. apply (IH q); [now left|easy].
        -- apply IH. now right.
Qed.

Lemma split_app_sep c p s : ~ In c p -> split c (p ++ c :: s) = p :: split c s.
Proof.
  induction p as [|x p IH]; cbn; intros Hp.
  - now rewrite N.eqb_refl.
  - destruct (x =? c) eqn:E; [apply N.eqb_eq in E; exfalso; apply Hp; now left|].
    rewrite IH; [easy|]. intros Hc. apply Hp. now right.
Qed.

Lemma split_none c p : ~ In c p -> split c p = [p].
Proof.
  induction p as [|x p IH]; cbn; intros Hp; [easy|].
  destruct (x =? c) eqn:E; [apply N.eqb_eq in E; exfalso; apply Hp; now left|].
  rewrite IH; [easy|]. intros Hc. apply Hp. now right.
Qed.

Lemma split_once_some c s a b :
  split_once c s = Some (a, b) <-> s = a ++ c :: b /\ ~ In c a.
Proof.
  revert a; induction s as [|x s IH]; intros a; cbn.
  - split; [discriminate|]. intros [H _]. destruct a; discriminate.
  - destruct (x =? c) eqn:E.
    + apply N.eqb_eq in E as ->. split; intros H.
      * injection H as <- <-. easy.
      * destruct H as [H Ha]. destruct a as [|y a]; cbn in H.
        -- now injection H as ->.
        -- injection H as <- _. exfalso. apply Ha. now left.
    + apply N.eqb_neq in E. destruct (split_once c s) as [[a' b']|] eqn:Es.
      * split; intros H.
        -- injection H as <- <-. destruct (proj1 (IH a') eq_refl) as [-> Ha].
           split; [easy|]. cbn. intros [|]; [congruence|contradiction].
        -- destruct H as [H Ha]. destruct a as [|y a]; cbn in H; injection H as <- H.
           ++ congruence.
           ++ assert (Hx : Some (a', b') = Some (a, b)).
              { apply IH. split; [easy|]. intros Hc; apply Ha; now right. }
              now injection Hx as -> ->.
      * split; [discriminate|]. intros [H Ha].
        destruct a as [|y a]; cbn in H; injection H as <- H; [congruence|].
        assert (Hx : None = Some (a, b)).
        { apply IH. split; [easy|]. intros Hc; apply Ha; now right. }
        discriminate.
Qed.

Lemma split_once_none c s : split_once c s = None <-> ~ In c s.
Proof.
  induction s as [|x s IH]; cbn; [easy|].
  destruct (x =? c) eqn:E.
  - apply N.eqb_eq in E as ->. split; [discriminate|]. intros H; exfalso; apply H; now left.
  - apply N.eqb_neq in E. destruct (split_once c s) as [[a b]|].
    + split; [discriminate|]. intros H. assert (Hn : ~ In c s) by tauto.
      apply IH in Hn. discriminate.
    + split; [|easy]. intros _ [|H]; [congruence|]. now apply (proj1 IH).
Qed.

Lemma rsplit_once_some c s a b :
  rsplit_once c s = Some (a, b) <-> s = a ++ c :: b /\ ~ In c b.
Proof.
  unfold rsplit_once. destruct (split_once c (rev s)) as [[x y]|] eqn:E.
  - apply split_once_some in E as [E Hx].
    assert (Hs : s = rev y ++ c :: rev x).
    { rewrite <- (rev_involutive s), E, rev_app_distr. cbn. now rewrite <- app_assoc. }
    split; intros H.
    + injection H as <- <-. split; [easy|]. now rewrite <- in_rev.
    + destruct H as [H Hb].
      assert (Hq : split_once c (rev s) = Some (rev b, rev a)).
      { apply split_once_some. split; [|now rewrite <- in_rev].
        rewrite H, rev_app_distr. cbn. now rewrite <- app_assoc. }
      assert (Hp : split_once c (rev s) = Some (x, y)) by now apply split_once_some.
      rewrite Hp in Hq. injection Hq as -> ->. now rewrite !rev_involutive.
  - apply split_once_none in E. split; [discriminate|]. intros [-> _]. exfalso. apply E.
    rewrite <- in_rev. apply in_or_app. right. now left.
Qed.

(** Decimal numbers. *)
Fixpoint dec_value (acc : N) (s : bytes) : N :=
  match s with [] => acc | c :: s' => dec_value (acc * 10 + (c - 48)) s' end.

Lemma dec_value_ge acc s : acc <= dec_value acc s.
Proof.
  revert acc; induction s as [|c s IH]; intros acc; cbn [dec_value]; [lia|].
  specialize (IH (acc * 10 + (c - 48))). lia.
Qed.

Lemma parse_digits_some max acc s n :
  acc <= max ->
  (parse_digits max acc s = Some n <->
   forallb is_digit s = true /\ n = dec_value acc s /\ n <= max).
Proof.
  revert acc; induction s as [|c s IH]; intros acc Hacc; cbn [parse_digits forallb dec_value].
  - split; [intros H; injection H as <-; easy|]. intros (_ & -> & _). easy.
  - destruct (is_digit c) eqn:Ec; cbn.
    + cbv zeta. destruct (acc * 10 + (c - 48) <=? max) eqn:E.
      * apply IH. lia.
      * split; [discriminate|]. intros (_ & -> & Hle).
        pose proof (dec_value_ge (acc * 10 + (c - 48)) s). lia.
    + split; [discriminate|]. intros (H & _). discriminate.
Qed.

Lemma parse_digits_none max acc s :
  acc <= max ->
  (parse_digits max acc s = None <->
   forallb is_digit s = false \/ dec_value acc s > max).
Proof.
  intros Hacc. destruct (parse_digits max acc s) as [n|] eqn:E.
  - apply parse_digits_some in E as (Hd & -> & Hle); [|easy].
    split; [discriminate|]. intros [H|H]; [congruence|lia].
  - split; [intros _|easy].
    destruct (forallb is_digit s) eqn:Ed; [right|now left].
    destruct (N.leb_spec (dec_value acc s) max) as [Hle|]; [|lia].
    assert (H : parse_digits max acc s = Some (dec_value acc s)).
    { apply parse_digits_some; auto. }
    congruence.
Qed.

Lemma dec_value_app acc s t : dec_value acc (s ++ t) = dec_value (dec_value acc s) t.
Proof. revert acc; induction s as [|c s IH]; intros acc; cbn; auto. Qed.

Lemma to_dec_aux_digits fuel n : forallb is_digit (to_dec_aux fuel n) = true.
Proof.
  revert n; induction fuel as [|f IH]; intros n; cbn [to_dec_aux]; [easy|].
  destruct (n <? 10) eqn:E.
  - cbn [forallb]. unfold is_digit. lia.
  - rewrite forallb_app, IH. cbn [forallb]. unfold is_digit. lia.
Qed.

Lemma to_dec_aux_value fuel n :
  (N.to_nat (N.log2 n) < fuel)%nat -> dec_value 0 (to_dec_aux fuel n) = n.
Proof.
  revert n; induction fuel as [|f IH]; intros n Hf; [lia|]. cbn [to_dec_aux].
  destruct (n <? 10) eqn:E.
  - cbn [dec_value]. lia.
  - rewrite dec_value_app. rewrite IH.
    + cbn [dec_value]. lia.
    + assert (Hlog : N.log2 (n / 10) < N.log2 n).
      { apply N.le_lt_trans with (N.log2 (n / 2)).
        - apply N.log2_le_mono. apply N.div_le_compat_l. lia.
        - rewrite <- N.div2_div. rewrite N.div2_spec, N.log2_shiftr.
          assert (0 < N.log2 n) by (apply N.log2_pos; lia). lia. }
      lia.
Qed.

Lemma to_dec_digits n : forallb is_digit (to_dec n) = true.
Proof. apply to_dec_aux_digits. Qed.

Lemma to_dec_value n : dec_value 0 (to_dec n) = n.
Proof. apply to_dec_aux_value. lia. Qed.

Lemma to_dec_nonempty n : to_dec n <> [].
Proof.
  unfold to_dec. cbn [to_dec_aux]. destruct (n <? 10); [easy|].
  intros H. apply app_eq_nil in H as [_ H]. discriminate.
Qed.

Lemma parse_uint_digits max s :
  s <> [] -> forallb is_digit s = true -> parse_uint max s = parse_digits max 0 s.
Proof.
  intros Hne Hd. destruct s as [|c s]; [easy|].
  unfold parse_uint. destruct (N.eq_dec c 43) as [->|Hc].
  - cbn in Hd. discriminate.
  - destruct c as [|p]; [reflexivity|].
    do 6 (try reflexivity; destruct p as [p|p|]); try reflexivity; congruence.
Qed.

Lemma parse_uint_to_dec max n : n <= max -> parse_uint max (to_dec n) = Some n.
Proof.
  intros Hle. rewrite parse_uint_digits.
  - apply parse_digits_some; [lia|]. split; [apply to_dec_digits|].
    now rewrite to_dec_value.
  - apply to_dec_nonempty.
  - apply to_dec_digits.
Qed.

(** Full characterisation of [parse_uint]. *)
Lemma parse_uint_some max s n :
  parse_uint max s = Some n <->
  exists d, (s = d \/ s = 43 :: d) /\ d <> [] /\ forallb is_digit d = true
            /\ n = dec_value 0 d /\ n <= max.
Proof.
  assert (Hplus : forall d, forallb is_digit (43 :: d) = false) by reflexivity.
  split.
  - intros H. destruct s as [|c s]; [discriminate|].
    destruct (N.eq_dec c 43) as [->|Hc].
    + destruct s as [|c s]; [discriminate|].
      change (parse_uint max (43 :: c :: s)) with (parse_digits max 0 (c :: s)) in H.
      apply (parse_digits_some max 0) in H; [|lia].
      destruct H as (Hd & -> & Hle). exists (c :: s). repeat split; auto. easy.
    + assert (Hp : parse_uint max (c :: s) = parse_digits max 0 (c :: s)).
      { unfold parse_uint. destruct c as [|p]; [reflexivity|].
        do 6 (try reflexivity; destruct p as [p|p|]); try reflexivity; congruence. }
      rewrite Hp in H. apply parse_digits_some in H as (Hd & -> & Hle); [|lia].
      exists (c :: s). repeat split; auto. easy.
  - intros (d & [->| ->] & Hne & Hd & -> & Hle).
    + rewrite parse_uint_digits by auto. apply parse_digits_some; auto. lia.
    + destruct d as [|c d]; [easy|].
      change (parse_uint max (43 :: c :: d)) with (parse_digits max 0 (c :: d)).
      apply parse_digits_some; auto. lia.
Qed.
