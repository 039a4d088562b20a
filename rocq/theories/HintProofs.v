From Coq Require Import String List NArith ZArith Bool Lia ZifyBool ZifyNat ZifyN.
From Verif Require Import Bytes BytesProofs FilterModel TraceModel RetryModel RetrySpec RetryParseProofs HintModel HintSpec.
Import ListNotations.
Open Scope N_scope.

Lemma drop_blanks_all w : blanks w -> drop_blanks w = [].
Proof.
  induction 1 as [|c w Hc Hw IH]; [reflexivity|]. cbn [drop_blanks]. unfold is_blank.
  replace ((c =? 32) || (c =? 9)) with true by lia. exact IH.
Qed.
Lemma trim_iff v t : trim v = t <-> trimmed v t.
Proof.
  split.
  - intros <-. destruct (trim_spec v) as (w1 & w2 & H & B1 & B2). exists w1, w2. split; [exact H|].
    split; [exact B1|]. split; [exact B2|]. split.
    + intros c r E. unfold trim in E. destruct (drop_blanks_spec (rev (drop_blanks v))) as (w & Hw & Bw).
      destruct (drop_blanks v) as [|x m] eqn:Ev; [discriminate E|].
      apply (f_equal (@rev N)) in Hw. rewrite rev_involutive, rev_app_distr, E in Hw. injection Hw as -> _.
      now apply drop_blanks_hd in Ev.
    + intros c r E. unfold trim in E. apply (f_equal (@rev N)) in E. rewrite rev_involutive, rev_app_distr in E.
      cbn in E. now apply drop_blanks_hd in E.
  - intros (w1 & w2 & -> & B1 & B2 & Hf & Hl). destruct t as [|x m].
    + unfold trim. cbn [app]. rewrite (drop_blanks_all (w1 ++ w2)); [reflexivity|]. now apply Forall_app.
    + destruct (Hf x m eq_refl) as [X1 X2]. destruct (@exists_last _ (x :: m)) as (r & y & E); [discriminate|].
      destruct (Hl y r E) as [Y1 Y2]. apply trim_app with y; auto.
      rewrite E. now rewrite removelast_last.
Qed.

Lemma to_str_iff v : to_str v = Some v <-> printable v.
Proof.
  unfold to_str, printable. rewrite Forall_forall.
  destruct (forallb _ v) eqn:E.
  - split; [|reflexivity]. intros _ x Hx. rewrite forallb_forall in E. specialize (E x Hx). lia.
  - split; [discriminate|]. intros H. exfalso. apply Bool.not_true_iff_false in E. apply E.
    apply forallb_forall. intros x Hx. specialize (H x Hx). lia.
Qed.
Lemma to_str_cases v : to_str v = Some v /\ printable v \/ to_str v = None /\ ~ printable v.
Proof.
  destruct (to_str v) as [s|] eqn:E.
  - left. pose proof (to_str_id _ _ E) as ->. split; [reflexivity|]. now apply to_str_iff.
  - right. split; [reflexivity|]. rewrite <- to_str_iff. congruence.
Qed.

Lemma value_iff date now max v d :
  parse_retry_after_value date now v max = Some d <-> delay_text date now max v d.
Proof.
  unfold parse_retry_after_value, delay_text. change (2 ^ 64) with (u64_max + 1). unfold from_secs.
  change (10 ^ 9) with 1000000000.
  assert (N1 : forall t secs, number t secs /\ secs < u64_max + 1 <-> parse_uint u64_max t = Some secs).
  { intros t secs. split.
    - intros [H1 H2]. apply number_iff; [lia|exact H1].
    - intros H. assert (secs <= u64_max) by (apply parse_uint_some in H as (? & ? & ? & ? & ? & ?); lia).
      split; [now apply (number_iff u64_max)|lia]. }
  destruct (parse_uint u64_max (trim v)) as [secs|] eqn:E.
  - split.
    + intros H. injection H as <-. exists (trim v). split; [now apply trim_iff|]. left. exists secs.
      apply N1 in E as [E1 E2]. auto.
    + intros (t & Ht & H). apply trim_iff in Ht as <-. destruct H as [(s & H1 & H2 & ->)|(H & _)].
      * assert (Hs : parse_uint u64_max (trim v) = Some s) by now apply N1. congruence.
      * exfalso. apply H. exists secs. now apply N1.
  - assert (Hno : ~ exists secs, number (trim v) secs /\ secs < u64_max + 1).
    { intros [s H]. apply N1 in H. congruence. }
    split.
    + intros H. exists (trim v). split; [now apply trim_iff|]. right. split; [exact Hno|].
      destruct (date (trim v)) as [a|]; [|discriminate]. exists a. split; [reflexivity|].
      destruct (now <=? a) eqn:El; injection H as <-; lia.
    + intros (t & Ht & H). apply trim_iff in Ht as <-. destruct H as [(s & H1 & H2 & _)|(_ & a & -> & ->)].
      * exfalso. apply Hno. now exists s.
      * destruct (now <=? a) eqn:El; f_equal; lia.
Qed.
Theorem retry_after_iff date now status hs max d :
  parse_retry_after date now status hs max = Some d <->
  (status = 429 \/ status = 503) /\
  exists v, hm_get hs (bs "retry-after") = Some v /\ printable v /\ delay_text date now max v d.
Proof.
  unfold parse_retry_after.
  assert (A : forall v, (match to_str v with Some s => parse_retry_after_value date now s max | None => None end) = Some d
    <-> printable v /\ delay_text date now max v d).
  { intros v. destruct (to_str_cases v) as [[-> P]|[-> P]]; [rewrite value_iff; tauto|]. split; [discriminate|tauto]. }
  destruct (negb (status =? 429) && negb (status =? 503)) eqn:E.
  - split; [discriminate|]. lia.
  - destruct (hm_get hs (bs "retry-after")) as [v|].
    + rewrite A. split; [intros H; split; [lia|now exists v]|]. intros [_ (v' & Hv & H)]. injection Hv as <-. exact H.
    + split; [discriminate|]. intros [_ (v' & Hv & _)]. discriminate Hv.
Qed.

Lemma parse_i32_neg d : d <> [] -> parse_i32 (45 :: d) = option_map (fun n => (- Z.of_N n)%Z) (parse_digits 2147483648 0 d).
Proof. now destruct d. Qed.
Lemma parse_i32_pos s : (forall d, s <> 45 :: d) -> parse_i32 s = option_map Z.of_N (parse_uint 2147483647 s).
Proof.
  intros H. destruct s as [|c s]; [reflexivity|]. destruct (N.eq_dec c 45) as [->|Hc]; [now specialize (H s)|].
  unfold parse_i32. destruct c as [|p]; [reflexivity|].
  do 6 (try reflexivity; destruct p as [p|p|]); try reflexivity; congruence.
Qed.
Lemma i32_nonneg_iff t ms : (exists z, parse_i32 t = Some z /\ (z <? 0)%Z = false /\ Z.to_N z = ms) <->
  ms < 2 ^ 31 /\ (number t ms \/ ms = 0 /\ exists z, t = bs "-" ++ z /\ digits z /\ decimal z = 0).
Proof.
  change (2 ^ 31) with 2147483648.
  assert (D : (exists d, t = 45 :: d) \/ forall d, t <> 45 :: d).
  { destruct t as [|c t]; [now right|]. destruct (N.eq_dec c 45) as [->|Hc]; [left; now exists t|right; congruence]. }
  destruct D as [[d ->]|D].
  - assert (Hn : ~ number (45 :: d) ms) by (intros H; apply number_no_dash in H; apply H; now left).
    destruct d as [|x d].
    { split; [intros (z & H & _); discriminate H|]. intros [_ [H|(_ & z & H & Hd & _)]]; [tauto|].
      injection H as <-. apply digits_iff in Hd as [Hd _]. congruence. }
    rewrite parse_i32_neg by discriminate. set (d' := x :: d) in *. assert (Hd' : d' <> []) by discriminate. clearbody d'.
    split.
    + intros (z & H & H1 & H2). destruct (parse_digits 2147483648 0 d') as [n|] eqn:E; [|discriminate H].
      injection H as <-. assert (n = 0) by lia. subst n. apply parse_digits_some in E as (E1 & E2 & _); [|lia].
      split; [lia|]. right. split; [lia|]. exists d'. split; [reflexivity|]. split; [now apply digits_iff|].
      now rewrite decimal_dec.
    + intros [_ [H|(-> & z & H & Hd & Hz)]]; [tauto|]. injection H as <-. apply digits_iff in Hd as [_ Hd].
      assert (E : parse_digits 2147483648 0 d' = Some 0).
      { apply parse_digits_some; [lia|]. rewrite decimal_dec in Hz. repeat split; auto; lia. }
      rewrite E. now exists 0%Z.
  - rewrite parse_i32_pos by exact D. split.
    + intros (z & H & H1 & H2). destruct (parse_uint 2147483647 t) as [n|] eqn:E; [|discriminate H].
      injection H as <-. assert (n = ms) by lia. subst n.
      assert (ms <= 2147483647) by (apply parse_uint_some in E as (? & ? & ? & ? & ? & ?); lia).
      split; [lia|]. left. now apply (number_iff 2147483647).
    + intros [Hm [H|(_ & z & -> & _)]].
      * apply (number_iff 2147483647) in H; [|lia]. rewrite H. exists (Z.of_N ms). cbn [option_map]. repeat split; lia.
      * exfalso. now apply (D z).
Qed.
Theorem pushback_iff hs max d :
  parse_grpc_retry_pushback hs max = Some d <->
  exists v, hm_get hs (bs "grpc-retry-pushback-ms") = Some v /\ printable v /\ pushback_text max v d.
Proof.
  unfold parse_grpc_retry_pushback.
  assert (A : forall v, (match parse_i32 (trim v) with
    | Some ms => if (ms <? 0)%Z then None else Some (N.min (from_millis (Z.to_N ms)) max) | None => None end) = Some d
    <-> pushback_text max v d).
  { intros v. unfold pushback_text, from_millis. change (10 ^ 6) with 1000000. split.
    - intros H. destruct (parse_i32 (trim v)) as [z|] eqn:E; [|discriminate]. destruct (z <? 0)%Z eqn:Ez; [discriminate|].
      injection H as <-. exists (trim v), (Z.to_N z). split; [now apply trim_iff|].
      destruct (proj1 (i32_nonneg_iff (trim v) (Z.to_N z))) as [H1 H2]; [now exists z|]. auto.
    - intros (t & ms & Ht & Hm & -> & H). apply trim_iff in Ht as <-.
      destruct (proj2 (i32_nonneg_iff (trim v) ms) (conj Hm H)) as (z & -> & -> & ->). reflexivity. }
  destruct (hm_get hs (bs "grpc-retry-pushback-ms")) as [v|].
  - destruct (to_str_cases v) as [[-> P]|[-> P]].
    + rewrite A. split; [intros H; now exists v|]. intros (v' & Hv & _ & H). injection Hv as <-. exact H.
    + split; [discriminate|]. intros (v' & Hv & H & _). injection Hv as <-. tauto.
  - split; [discriminate|]. intros (v' & Hv & _). discriminate Hv.
Qed.

(** Hints never exceed the cap. *)
Lemma delay_text_cap date now max v d : delay_text date now max v d -> d <= max.
Proof. intros (t & _ & [(s & _ & _ & ->)|(_ & a & _ & ->)]); lia. Qed.
Lemma pushback_text_cap max v d : pushback_text max v d -> d <= max.
Proof. intros (t & ms & _ & _ & -> & _). lia. Qed.
