(** Proofs about the thresholds of failure accrual (property C99). *)
From Coq Require Import NArith ZArith Bool Lia Reals Lra.
From Flocq Require Import Core IEEE754.BinarySingleNaN.
From Verif Require Import WindowModel WindowFloatProofs.
From Verif Require Import ClientPolicyModel.
Open Scope R_scope.

#[local] Instance vx : Valid_exp fx := fexp_correct 53 1024 prec_gt_0_53.
#[local] Instance mx : Monotone_exp fx.
Proof. intros a b H. unfold SpecFloat.fexp. lia. Qed.

(** Rounding to the nearest integer *)
Lemma half_up (a b : N) : (0 < b)%N -> let q := ((2 * a + b) / (2 * b))%N in
  (2 * b * q <= 2 * a + b)%N /\ (2 * a + b < 2 * b * q + 2 * b)%N.
Proof.
  intros H q. assert (E := N.div_mod (2 * a + b) (2 * b) ltac:(lia)). fold q in E. assert (L := N.mod_lt (2 * a + b) (2 * b) ltac:(lia)). clearbody q.
  set (r := ((2 * a + b) mod (2 * b))%N) in *. clearbody r. nia.
Qed.
Lemma round_u32_near (f : f64) : is_finite f = true -> 0 <= B2R f <= 10000 ->
  RN (round_u32 f) - / 2 <= B2R f <= RN (round_u32 f) + / 2 /\ (round_u32 f <= 10000)%N.
Proof.
  intros F [B0 B1]. destruct f as [s| | |s m e H]; try discriminate.
  - cbn [round_u32 B2R]. change (RN 0) with 0. split; [lra|lia].
  - destruct s.
    + exfalso. cbn [B2R] in B0. apply (Rlt_irrefl 0). eapply Rle_lt_trans; [exact B0|]. apply F2R_lt_0. reflexivity.
    + cbn [B2R cond_Zopp] in *.
      set (q := match e with Z0 => Npos m | Zpos k => (Npos m * 2 ^ Npos k)%N | Zneg k => ((2 * Npos m + 2 ^ Npos k) / (2 * 2 ^ Npos k))%N end).
      assert (Q : RN q - / 2 <= F2R (Float radix2 (Z.pos m) e) < RN q + / 2).
      { unfold q. destruct e as [|k|k]; unfold F2R; cbn [Fnum Fexp].
        - change (bpow radix2 0) with 1. unfold RN. change (Z.of_N (N.pos m)) with (Z.pos m). lra.
        - assert (E : RN (N.pos m * 2 ^ N.pos k) = IZR (Z.pos m) * bpow radix2 (Z.pos k)).
          { unfold RN. rewrite N2Z.inj_mul, mult_IZR, N2Z.inj_pow. change (Z.of_N (N.pos m)) with (Z.pos m). change (Z.of_N (N.pos k)) with (Z.pos k). change (Z.of_N 2) with (radix_val radix2).
            rewrite IZR_Zpower by lia. reflexivity. }
          rewrite E. lra.
        - pose proof (half_up (N.pos m) (2 ^ N.pos k)) as D. specialize (D ltac:(apply N.neq_0_lt_0, N.pow_nonzero; discriminate)). cbv zeta in D.
          set (qq := ((2 * N.pos m + 2 ^ N.pos k) / (2 * 2 ^ N.pos k))%N) in *. set (b := (2 ^ N.pos k)%N) in *.
          assert (Eb : RN b = bpow radix2 (Z.pos k)).
          { unfold b, RN. rewrite N2Z.inj_pow. change (Z.of_N 2) with (radix_val radix2). change (Z.of_N (N.pos k)) with (Z.pos k). apply IZR_Zpower. lia. }
          assert (Pb : 0 < bpow radix2 (Z.pos k)) by apply bpow_gt_0.
          assert (D1 : 2 * RN b * RN qq <= 2 * IZR (Z.pos m) + RN b).
          { unfold RN. change 2 with (IZR 2). rewrite <- !mult_IZR, <- plus_IZR. apply IZR_le. lia. }
          assert (D2 : 2 * IZR (Z.pos m) + RN b < 2 * RN b * RN qq + 2 * RN b).
          { unfold RN. change 2 with (IZR 2). rewrite <- !mult_IZR, <- !plus_IZR. apply IZR_lt. lia. }
          rewrite Eb in *. change (Z.neg k) with (- Z.pos k)%Z. rewrite bpow_opp.
          assert (Em : IZR (Z.pos m) * / bpow radix2 (Z.pos k) * bpow radix2 (Z.pos k) = IZR (Z.pos m)) by (field; lra).
          split; apply Rmult_le_reg_r with (bpow radix2 (Z.pos k)) || apply Rmult_lt_reg_r with (bpow radix2 (Z.pos k)); try exact Pb; rewrite Em; lra. }
      assert (Q' : (q <= 10000)%N).
      { apply N2Z.inj_le. apply le_IZR. fold (RN q). assert (RN q < 10001) by lra. unfold RN in *. apply (lt_IZR _ 10001) in H0. apply IZR_le. lia. }
      assert (E : round_u32 (B754_finite false m e H) = q).
      { unfold round_u32. fold q. apply N.min_r. unfold u32max. lia. }
      rewrite E. split; [lra|exact Q'].
Qed.
Lemma mult_err z : 0 <= z <= 10000 -> Rabs (rnd z - z) <= / 2 * bpow radix2 (-38).
Proof.
  intros H. apply Rle_trans with (1 := error_le_half_ulp radix2 fx (fun x => negb (Z.even x)) z).
  apply Rmult_le_compat_l; [lra|]. replace (bpow radix2 (-38)) with (ulp radix2 fx (bpow radix2 14)).
  - apply ulp_le; [exact vx|exact mx|]. assert (bpow radix2 14 = 16384) as -> by (cbn; lra). rewrite !Rabs_pos_eq; lra.
  - rewrite ulp_bpow. reflexivity.
Qed.
Lemma mult_finite (y : f64) : is_finite y = true -> 0 <= B2R y <= 1 ->
  let r := Bmult mode_NE y (f64_of_N 10000) in
  is_finite r = true /\ B2R r = rnd (B2R y * 10000) /\ 0 <= B2R r <= 10000.
Proof.
  intros F B. cbv zeta. destruct (of_N_correct 10000 ltac:(lia)) as [E1 E2]. change (RN 10000) with 10000 in E1.
  pose proof (Bmult_correct 53 1024 prec_gt_0_53 prec_lt_emax_53 mode_NE y (f64_of_N 10000)) as C.
  rewrite E1 in C. change (round_mode mode_NE) with ZnearestE in C.
  assert (Z : 0 <= B2R y * 10000 <= 10000) by lra.
  rewrite below_max in C.
  - destruct C as (C1 & C2 & _). rewrite F, E2 in C2. split; [exact C2|]. split; [exact C1|]. rewrite C1. split.
    + rewrite <- (round_0 radix2 fx ZnearestE). apply round_le; [exact vx|apply valid_rnd_N|]. lra.
    + change 10000 with (RN 10000). rewrite <- (round_generic radix2 fx ZnearestE (RN 10000)) at 2 by (apply rn_format; lia).
      apply round_le; [exact vx|apply valid_rnd_N|]. change (RN 10000) with 10000. lra.
  - split; [lra|]. apply Rle_trans with 10000; [lra|]. apply (IZR_le 10000). lia.
Qed.
Lemma scaled_near (y : f64) : is_finite y = true -> 0 <= B2R y <= 1 ->
  let n := round_u32 (Bmult mode_NE y (f64_of_N 10000)) in
  Rabs (RN n - 10000 * B2R y) <= / 2 + / 2 * bpow radix2 (-38) /\ (n <= 10000)%N.
Proof.
  intros F B. cbv zeta. destruct (mult_finite y F B) as (A1 & A2 & A3). cbv zeta in *.
  destruct (round_u32_near _ A1 A3) as [N1 N2]. split; [|exact N2].
  assert (E := mult_err (B2R y * 10000) ltac:(lra)). rewrite <- A2 in E. apply Rabs_le_inv in E. apply Rabs_le. lra.
Qed.
Lemma zero_R : B2R (f64_of_N 0) = 0 /\ is_finite (f64_of_N 0) = true.
Proof. exact (of_N_correct 0 ltac:(lia)). Qed.
Lemma one_R : B2R (f64_of_N 1) = 1 /\ is_finite (f64_of_N 1) = true.
Proof. exact (of_N_correct 1 ltac:(lia)). Qed.

(** What a clamped number is *)
Lemma clamp_cases x : clamp x = B754_nan \/ (is_finite (clamp x) = true /\ 0 <= B2R (clamp x) <= 1).
Proof.
  unfold clamp. cbv zeta. destruct zero_R as [Z1 Z2], one_R as [O1 O2].
  destruct (Bltb x (f64_of_N 0)) eqn:A; [right; split; [exact Z2|lra]|].
  destruct (Bltb (f64_of_N 1) x) eqn:B; [right; split; [exact O2|lra]|].
  destruct (is_finite x) eqn:F.
  - right. split; [reflexivity|]. rewrite (Bltb_correct _ _ _ _ F Z2), Z1 in A. rewrite (Bltb_correct _ _ _ _ O2 F), O1 in B.
    split.
    + destruct (Rle_or_lt 0 (B2R x)) as [|K]; [assumption|]. rewrite Rlt_bool_true in A by exact K. discriminate.
    + destruct (Rle_or_lt (B2R x) 1) as [|K]; [assumption|]. rewrite Rlt_bool_true in B by exact K. discriminate.
  - destruct x as [s|s| |s m e H]; try discriminate F.
    + destruct s; vm_compute in A, B; discriminate.
    + left. reflexivity.
Qed.
Theorem threshold_range x : (from_fraction x <= 10000)%N.
Proof.
  unfold from_fraction. destruct (clamp_cases x) as [->|[F B]].
  - change (Bmult mode_NE B754_nan (f64_of_N 10000)) with (@B754_nan 53 1024). cbn. lia.
  - exact (proj2 (scaled_near _ F B)).
Qed.
Lemma accepted_fraction x : Bleb (f64_of_N 0) x = true -> Bleb x (f64_of_N 1) = true ->
  is_finite x = true /\ 0 <= B2R x <= 1 /\ clamp x = x.
Proof.
  intros A B. destruct zero_R as [Z1 Z2], one_R as [O1 O2].
  assert (F : is_finite x = true).
  { destruct x as [s|s| |s m e H]; try reflexivity; destruct s || idtac; vm_compute in A, B; discriminate. }
  rewrite (Bleb_correct _ _ _ _ Z2 F), Z1 in A. rewrite (Bleb_correct _ _ _ _ F O2), O1 in B.
  assert (A' : 0 <= B2R x). { destruct (Rle_or_lt 0 (B2R x)) as [|K]; [assumption|]. rewrite Rle_bool_false in A by exact K. discriminate. }
  assert (B' : B2R x <= 1). { destruct (Rle_or_lt (B2R x) 1) as [|K]; [assumption|]. rewrite Rle_bool_false in B by exact K. discriminate. }
  split; [exact F|]. split; [split; assumption|]. unfold clamp. cbv zeta.
  rewrite (Bltb_correct _ _ _ _ F Z2), Z1, Rlt_bool_false by exact A'. rewrite (Bltb_correct _ _ _ _ O2 F), O1, Rlt_bool_false by exact B'. reflexivity.
Qed.
Lemma p38 : bpow radix2 (-38) = / 274877906944.
Proof. reflexivity. Qed.
(** The nearest one in hundredths of a percent *)
Theorem threshold_near x : Bleb (f64_of_N 0) x = true -> Bleb x (f64_of_N 1) = true ->
  Rabs (RN (from_fraction x) - 10000 * B2R x) <= / 2 + / 100000000000.
Proof.
  intros A B. destruct (accepted_fraction x A B) as (F & R0 & C). unfold from_fraction. rewrite C.
  eapply Rle_trans; [exact (proj1 (scaled_near x F R0))|]. rewrite p38. lra.
Qed.
Theorem threshold_round_trip bp : (bp <= 10000)%N -> from_fraction (as_fraction bp) = bp.
Proof.
  intros H. destruct (div_correct bp 10000 H ltac:(lia)) as [E F]. change (f64_div (f64_of_N bp) (f64_of_N 10000)) with (as_fraction bp) in *.
  assert (Pb : 0 <= RN bp <= 10000) by (split; [apply (IZR_le 0)|apply (IZR_le _ 10000)]; lia).
  change (RN 10000) with 10000 in E. assert (D : 0 <= RN bp / 10000 <= 1) by lra.
  assert (Er := round_err _ D). rewrite <- E in Er.
  assert (R0 : 0 <= B2R (as_fraction bp) <= 1).
  { rewrite E. split.
    - rewrite <- (round_0 radix2 fx ZnearestE). apply round_le; [exact vx|apply valid_rnd_N|lra].
    - change 1 with (RN 1). rewrite <- (round_generic radix2 fx ZnearestE (RN 1)) by (apply rn_format; lia). apply round_le; [exact vx|apply valid_rnd_N|]. change (RN 1) with 1. lra. }
  assert (A : Bleb (f64_of_N 0) (as_fraction bp) = true).
  { destruct zero_R as [Z1 Z2]. rewrite (Bleb_correct _ _ _ _ Z2 F), Z1. apply Rle_bool_true. lra. }
  assert (B : Bleb (as_fraction bp) (f64_of_N 1) = true).
  { destruct one_R as [O1 O2]. rewrite (Bleb_correct _ _ _ _ F O2), O1. apply Rle_bool_true. lra. }
  assert (N1 := threshold_near _ A B).
  assert (B52 : bpow radix2 (-52) = / 4503599627370496) by reflexivity. rewrite B52 in Er.
  apply Rabs_le_inv in Er. apply Rabs_le_inv in N1. set (n := from_fraction (as_fraction bp)) in *.
  assert (L1 : RN n - RN bp < 1) by lra. assert (L2 : -1 < RN n - RN bp) by lra.
  unfold RN in L1, L2. rewrite <- minus_IZR in L1, L2. apply (lt_IZR _ 1) in L1. apply (lt_IZR (-1)) in L2. lia.
Qed.
(** What trips *)
Theorem threshold_trips x s t : Bleb (f64_of_N 0) x = true -> Bleb x (f64_of_N 1) = true ->
  (s <= t)%N -> (0 < t <= 10 * 4294967295)%N ->
  (RN s / RN t <= B2R x - 6 / 100000 -> f64_lt (f64_div (f64_of_N s) (f64_of_N t)) (as_fraction (from_fraction x)) = true) /\
  (B2R x + 6 / 100000 <= RN s / RN t -> f64_lt (f64_div (f64_of_N s) (f64_of_N t)) (as_fraction (from_fraction x)) = false).
Proof.
  intros A B S T. rewrite (ratio_exact s t (from_fraction x) S T (threshold_range x)).
  assert (N1 := threshold_near x A B). apply Rabs_le_inv in N1. set (bp := from_fraction x) in *.
  assert (Pt : 0 < RN t) by (apply (IZR_lt 0); lia).
  assert (E : RN s / RN t * RN t = RN s) by (field; lra).
  split; intros K.
  - apply N.ltb_lt. assert (L : RN s * 10000 < RN bp * RN t).
    { rewrite <- E. replace (RN s / RN t * RN t * 10000) with (RN s / RN t * 10000 * RN t) by ring. apply Rmult_lt_compat_r; [exact Pt|]. lra. }
    unfold RN in L. change 10000 with (IZR 10000) in L. rewrite <- !mult_IZR in L. apply lt_IZR in L. lia.
  - apply N.ltb_ge. assert (L : RN bp * RN t <= RN s * 10000).
    { rewrite <- E. replace (RN s / RN t * RN t * 10000) with (RN s / RN t * 10000 * RN t) by ring. apply Rmult_le_compat_r; [lra|]. lra. }
    unfold RN in L. change 10000 with (IZR 10000) in L. rewrite <- !mult_IZR in L. apply le_IZR in L. lia.
Qed.
