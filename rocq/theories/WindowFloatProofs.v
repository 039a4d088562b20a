(** The float comparison of the success-rate window is exact. *)
From Coq Require Import NArith ZArith Bool Lia Reals Lra.
From Flocq Require Import Core IEEE754.BinarySingleNaN.
From Verif Require Import WindowModel.
Open Scope R_scope.

Notation fx := (SpecFloat.fexp 53 1024).
Notation rnd := (round radix2 fx ZnearestE).
#[local] Instance vx : Valid_exp fx := fexp_correct 53 1024 prec_gt_0_53.
#[local] Instance mx : Monotone_exp fx.
Proof. intros a b H. unfold SpecFloat.fexp. lia. Qed.

Definition RN (n : N) : R := IZR (Z.of_N n).

Lemma rn_format n : (n <= 2 ^ 53)%N -> generic_format radix2 fx (RN n).
Proof.
  intros H. apply (generic_format_FLT radix2 (-1074) 53).
  destruct (N.eq_dec n (2 ^ 53)) as [->|E].
  - exists (Float radix2 1 53); unfold F2R, RN; cbn [Fnum Fexp]; [|cbn; lia|cbn; lia].
    rewrite <- IZR_Zpower by lia. rewrite <- mult_IZR. f_equal.
  - exists (Float radix2 (Z.of_N n) 0); unfold F2R, RN; cbn [Fnum Fexp].
    + change (bpow radix2 0) with 1. ring.
    + change (Z.pow radix2 53) with (Z.of_N (2 ^ 53)). lia.
    + lia.
Qed.

Lemma below_max x : 0 <= x <= RN (2 ^ 53) -> Rlt_bool (Rabs (rnd x)) (bpow radix2 1024) = true.
Proof.
  intros [H0 H1]. apply Rlt_bool_true.
  assert (0 <= rnd x).
  { rewrite <- (round_0 radix2 fx ZnearestE). apply round_le; [exact vx|apply valid_rnd_N|exact H0]. }
  assert (rnd x <= RN (2 ^ 53)).
  { rewrite <- (round_generic radix2 fx ZnearestE (RN (2 ^ 53))) by (apply rn_format; reflexivity).
    apply round_le; [exact vx|apply valid_rnd_N|exact H1]. }
  rewrite Rabs_pos_eq by assumption. apply Rle_lt_trans with (1 := H2).
  unfold RN. change (Z.of_N (2 ^ 53)) with (Z.pow radix2 53). rewrite IZR_Zpower by lia. apply bpow_lt. lia.
Qed.

Lemma of_N_correct n : (n <= 2 ^ 53)%N -> B2R (f64_of_N n) = RN n /\ is_finite (f64_of_N n) = true.
Proof.
  intros H. unfold f64_of_N.
  pose proof (binary_normalize_correct 53 1024 prec_gt_0_53 prec_lt_emax_53 mode_NE (Z.of_N n) 0 false) as C.
  cbv zeta in C. replace (F2R (Float radix2 (Z.of_N n) 0)) with (RN n) in C.
  2:{ unfold F2R, RN. cbn [Fnum Fexp]. change (bpow radix2 0) with 1. ring. }
  change (round_mode mode_NE) with ZnearestE in C.
  rewrite below_max in C.
  - destruct C as (C1 & C2 & _). rewrite round_generic in C1; [now split|apply valid_rnd_N|now apply rn_format].
  - unfold RN. split; apply IZR_le; lia.
Qed.

Lemma div_correct a b : (a <= b)%N -> (0 < b <= 2 ^ 53)%N ->
  B2R (f64_div (f64_of_N a) (f64_of_N b)) = rnd (RN a / RN b) /\
  is_finite (f64_div (f64_of_N a) (f64_of_N b)) = true.
Proof.
  intros Hab Hb. destruct (of_N_correct a ltac:(lia)) as [Ha Fa]. destruct (of_N_correct b ltac:(lia)) as [Hbv Fb].
  assert (Pb : 0 < RN b) by (apply (IZR_lt 0); lia).
  pose proof (Bdiv_correct 53 1024 prec_gt_0_53 prec_lt_emax_53 mode_NE (f64_of_N a) (f64_of_N b)) as C.
  rewrite Ha, Hbv in C. specialize (C ltac:(lra)). change (round_mode mode_NE) with ZnearestE in C.
  rewrite below_max in C.
  - destruct C as (C1 & C2 & _). unfold f64_div. rewrite C2. split; [exact C1|exact Fa].
  - assert (0 <= RN a) by (apply (IZR_le 0); lia). assert (RN a <= RN b) by (apply IZR_le; lia).
    assert (1 <= RN (2 ^ 53)) by (apply (IZR_le 1); lia).
    split; [apply Rmult_le_pos; [assumption|left; now apply Rinv_0_lt_compat]|].
    apply Rle_trans with 1; [|assumption]. apply Rmult_le_reg_r with (RN b); [exact Pb|].
    unfold Rdiv. rewrite Rmult_assoc, Rinv_l by lra. lra.
Qed.

Lemma round_err x : 0 <= x <= 1 -> Rabs (rnd x - x) <= / 2 * bpow radix2 (-52).
Proof.
  intros H. apply Rle_trans with (1 := error_le_half_ulp radix2 fx (fun x => negb (Z.even x)) x).
  apply Rmult_le_compat_l; [lra|]. replace (bpow radix2 (-52)) with (ulp radix2 fx (bpow radix2 0)).
  - apply ulp_le; [exact vx|exact mx|]. change (bpow radix2 0) with 1.
    rewrite !Rabs_pos_eq; lra.
  - rewrite ulp_bpow. reflexivity.
Qed.

Lemma ratio_exact s t bp : (s <= t)%N -> (0 < t <= 10 * 4294967295)%N -> (bp <= 10000)%N ->
  f64_lt (f64_div (f64_of_N s) (f64_of_N t)) (as_fraction bp) = (s * 10000 <? bp * t)%N.
Proof.
  intros Hs Ht Hb. unfold as_fraction, f64_lt.
  destruct (div_correct s t Hs ltac:(lia)) as [E1 F1]. destruct (div_correct bp 10000 Hb ltac:(lia)) as [E2 F2].
  rewrite (Bltb_correct _ _ _ _ F1 F2), E1, E2.
  assert (Pt : 0 < RN t) by (apply (IZR_lt 0); lia). assert (Ps : 0 <= RN s) by (apply (IZR_le 0); lia).
  assert (Pst : RN s <= RN t) by (apply IZR_le; lia).
  assert (Pb : 0 <= RN bp <= 10000) by (split; [apply (IZR_le 0)|apply (IZR_le _ 10000)]; lia).
  change (RN 10000) with 10000.
  assert (Ib : 0 <= RN bp / 10000 <= 1) by lra.
  assert (Is : 0 <= RN s / RN t <= 1).
  { split; [apply Rmult_le_pos; [assumption|left; now apply Rinv_0_lt_compat]|].
    apply Rmult_le_reg_r with (RN t); [exact Pt|]. unfold Rdiv. rewrite Rmult_assoc, Rinv_l by lra. lra. }
  destruct (N.ltb_spec (s * 10000) (bp * t)) as [L|L].
  - apply Rlt_bool_true.
    pose proof (round_err _ Is) as Es. pose proof (round_err _ Ib) as Eb.
    assert (G : RN s * 10000 + 1 <= RN bp * RN t).
    { unfold RN. rewrite <- !mult_IZR, <- plus_IZR. apply IZR_le. lia. }
    assert (T : RN t <= 42949672950) by (apply (IZR_le _ 42949672950); lia).
    assert (D : RN bp / 10000 - RN s / RN t >= / 429496729500000).
    { apply Rle_ge. apply Rmult_le_reg_r with (RN t * 10000); [lra|].
      replace ((RN bp / 10000 - RN s / RN t) * (RN t * 10000)) with (RN bp * RN t - RN s * 10000) by (field; lra).
      apply Rle_trans with 1; [|lra].
      apply Rmult_le_reg_l with 429496729500000; [lra|]. rewrite <- Rmult_assoc, Rinv_r by lra. lra. }
    apply Rabs_le_inv in Es. apply Rabs_le_inv in Eb.
    assert (B : bpow radix2 (-52) = / 4503599627370496) by (cbn [bpow]; f_equal; f_equal; reflexivity).
    rewrite B in *. lra.
  - apply Rlt_bool_false. apply round_le; [exact vx|apply valid_rnd_N|].
    assert (G : RN bp * RN t <= RN s * 10000).
    { unfold RN. rewrite <- !mult_IZR. apply IZR_le. lia. }
    apply Rmult_le_reg_r with (RN t * 10000); [lra|].
    replace (RN bp / 10000 * (RN t * 10000)) with (RN bp * RN t) by (field; lra).
    replace (RN s / RN t * (RN t * 10000)) with (RN s * 10000) by (field; lra). exact G.
Qed.
