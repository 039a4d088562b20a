(** Proofs about the number of threads. *)
From Coq Require Import String List NArith QArith Bool Lia.
From Verif Require Import Bytes BytesProofs EnvModel RtModel RtSpec.
From Verif Require RetrySpec.
Import ListNotations.
Open Scope N_scope.

Lemma dec_value_decimal d : forall a, dec_value a d = fold_left (fun a c => a * 10 + (c - 48)) d a.
Proof. induction d as [|c d IH]; intros a; [reflexivity|]. cbn [dec_value fold_left]. apply IH. Qed.
Lemma parse_uint_number max v n : parse_uint max v = Some n <-> RetrySpec.number v n /\ n <= max.
Proof.
  rewrite parse_uint_some. unfold RetrySpec.number, RetrySpec.digits, RetrySpec.decimal. split.
  - intros (d & Hv & Hne & Hd & Hn & Hm). split; [|exact Hm]. exists d. rewrite <- dec_value_decimal. split; [|auto].
    split; [exact Hne|]. rewrite Forall_forall. rewrite forallb_forall in Hd. intros c Hc. specialize (Hd c Hc). unfold is_digit in Hd.
    apply andb_true_iff in Hd as [H1 H2]. apply N.leb_le in H1. apply N.leb_le in H2. lia.
  - intros ((d & (Hne & Hd) & Hn & Hv) & Hm). exists d. rewrite dec_value_decimal. split; [exact Hv|]. split; [exact Hne|]. split; [|auto].
    apply forallb_forall. intros c Hc. rewrite Forall_forall in Hd. specialize (Hd c Hc). unfold is_digit. apply andb_true_iff. split; apply N.leb_le; lia.
Qed.
Lemma says_iff e key n : says e key n <-> and_then (var e key) parse_cores = Some n.
Proof.
  assert (K : forall v m, parse_cores v = Some m <-> RetrySpec.number v m /\ 1 <= m < 18446744073709551616).
  { intros v m. unfold parse_cores, non_zero. split.
    - destruct (parse_uint u64_max v) as [p|] eqn:E; [|discriminate]. apply parse_uint_number in E as [E1 E2]. destruct (p =? 0) eqn:Z; [discriminate|].
      intros H. injection H as <-. apply N.eqb_neq in Z. split; [exact E1|]. unfold u64_max in E2. lia.
    - intros (H1 & H2 & H3). assert (E : parse_uint u64_max v = Some m) by (apply parse_uint_number; split; [exact H1|unfold u64_max; lia]).
      rewrite E. replace (m =? 0) with false by (symmetry; apply N.eqb_neq; lia). reflexivity. }
  unfold says, var. split.
  - intros (v & Hv & H). rewrite Hv. cbn [and_then]. apply K. exact H.
  - destruct (e key) as [[v|]|]; cbn [and_then]; try discriminate. intros H. exists v. split; [reflexivity|]. apply K. exact H.
Qed.
Lemma silent_iff e key : silent e key <-> and_then (var e key) parse_cores = None.
Proof.
  unfold silent. split.
  - intros H. destruct (and_then (var e key) parse_cores) as [n|] eqn:E; [|reflexivity]. exfalso. apply (H n). apply says_iff. exact E.
  - intros H n Hn. apply says_iff in Hn. congruence.
Qed.

Section Floats.
  Variable parse_f64 : bytes -> option Q.
  Variable share : N -> Q -> N.

  Lemma says_ratio_iff e q : says_ratio parse_f64 e q <->
    and_then (var e (bs "LINKERD2_PROXY_CORES_MAX_RATIO"%string)) (parse_ratio parse_f64) = Some q.
  Proof.
    assert (K : forall v, parse_ratio parse_f64 v = Some q <-> parse_f64 v = Some q /\ (0 < q)%Q /\ (q <= 1)%Q).
    { intros v. unfold parse_ratio. destruct (parse_f64 v) as [p|]; cbn [and_then]; [|split; [discriminate|intros [? _]; discriminate]].
      destruct (Qle_bool p 0) eqn:A; cbn [negb andb].
      - split; [discriminate|]. intros (H & H0 & _). injection H as ->. apply Qle_bool_iff in A. exfalso. apply Qle_not_lt in A. contradiction.
      - destruct (Qle_bool p 1) eqn:B.
        + split; [|intros (H & _); exact H]. intros H. injection H as <-. split; [reflexivity|]. split; [|apply Qle_bool_iff; exact B].
          apply Qnot_le_lt. intros C. apply Qle_bool_iff in C. congruence.
        + split; [discriminate|]. intros (H & _ & H1). injection H as ->. apply Qle_bool_iff in H1. congruence. }
    unfold says_ratio, var. split.
    - intros (v & Hv & H). rewrite Hv. cbn [and_then]. apply K. exact H.
    - destruct (e (bs "LINKERD2_PROXY_CORES_MAX_RATIO"%string)) as [[v|]|]; cbn [and_then]; try discriminate. intros H. exists v. split; [reflexivity|]. apply K. exact H.
  Qed.

  Lemma least_iff e n : least e n <-> n = min_cores (config parse_f64 e 0).
  Proof.
    cbn [config min_cores]. split.
    - intros [m H|m H1 H2|H1 H2].
      + apply says_iff in H. rewrite H. reflexivity.
      + apply silent_iff in H1. apply says_iff in H2. rewrite H1, H2. reflexivity.
      + apply silent_iff in H1. apply silent_iff in H2. rewrite H1, H2. reflexivity.
    - intros ->. destruct (and_then (var e (bs "LINKERD2_PROXY_CORES_MIN"%string)) parse_cores) as [m|] eqn:E1.
      + cbn [or_else]. apply L_min. apply says_iff. exact E1.
      + cbn [or_else]. apply silent_iff in E1. destruct (and_then (var e (bs "LINKERD2_PROXY_CORES"%string)) parse_cores) as [m|] eqn:E2.
        * apply L_cores; [exact E1|]. apply says_iff. exact E2.
        * apply L_one; [exact E1|]. apply silent_iff. exact E2.
  Qed.
  Definition top (e : strings) (cpus : N) : N :=
    match or_else (and_then (var e (bs "LINKERD2_PROXY_CORES_MAX"%string)) parse_cores)
      (and_then (and_then (var e (bs "LINKERD2_PROXY_CORES_MAX_RATIO"%string)) (parse_ratio parse_f64)) (fun r => non_zero (share cpus r))) with
    | Some n => n | None => 1 end.
  Lemma most_iff e cpus n : most parse_f64 share e cpus n <-> n = top e cpus.
  Proof.
    unfold top. split.
    - intros [m H|q H1 H2|H1 H2].
      + apply says_iff in H. rewrite H. reflexivity.
      + apply silent_iff in H1. apply says_ratio_iff in H2. rewrite H1, H2. cbn [or_else and_then]. unfold non_zero.
        destruct (share cpus q =? 0) eqn:Z; [apply N.eqb_eq in Z; rewrite Z; reflexivity|]. apply N.eqb_neq in Z. lia.
      + apply silent_iff in H1. rewrite H1. cbn [or_else].
        destruct (and_then (var e (bs "LINKERD2_PROXY_CORES_MAX_RATIO"%string)) (parse_ratio parse_f64)) as [q|] eqn:E; [|reflexivity].
        exfalso. apply (H2 q). apply says_ratio_iff. exact E.
    - intros ->. destruct (and_then (var e (bs "LINKERD2_PROXY_CORES_MAX"%string)) parse_cores) as [m|] eqn:E1.
      + cbn [or_else]. apply M_max. apply says_iff. exact E1.
      + cbn [or_else]. apply silent_iff in E1.
        destruct (and_then (var e (bs "LINKERD2_PROXY_CORES_MAX_RATIO"%string)) (parse_ratio parse_f64)) as [q|] eqn:E2; cbn [and_then].
        * apply says_ratio_iff in E2. pose proof (M_ratio parse_f64 share e cpus q E1 E2) as M. unfold non_zero.
          destruct (share cpus q =? 0) eqn:Z; [apply N.eqb_eq in Z; rewrite Z in M; exact M|]. apply N.eqb_neq in Z. replace (share cpus q) with (N.max 1 (share cpus q)) by lia. exact M.
        * apply M_one; [exact E1|]. intros q Hq. apply says_ratio_iff in Hq. congruence.
  Qed.
  Lemma threads_cores e cpus : threads (build parse_f64 share e cpus) = cores share (config parse_f64 e cpus).
  Proof. unfold build. destruct (cores share (config parse_f64 e cpus)) as [|[p|p|]]; reflexivity. Qed.
  Lemma cores_eq e cpus : 1 <= cpus -> cores share (config parse_f64 e cpus) = N.min (N.max (top e cpus) (min_cores (config parse_f64 e 0))) cpus.
  Proof.
    intros H. assert (Z : non_zero cpus = Some cpus) by (unfold non_zero; replace (cpus =? 0) with false by (symmetry; apply N.eqb_neq; lia); reflexivity).
    unfold cores, config, top. cbn [max_cores max_ratio available min_cores]. rewrite Z. reflexivity.
  Qed.

  Theorem number_of_threads e cpus : 1 <= cpus ->
    exists least_n most_n, least e least_n /\ most parse_f64 share e cpus most_n /\
    (forall n, least e n -> n = least_n) /\ (forall n, most parse_f64 share e cpus n -> n = most_n) /\
    threads (build parse_f64 share e cpus) = N.min (N.max most_n least_n) cpus.
  Proof.
    intros H. exists (min_cores (config parse_f64 e 0)), (top e cpus). split; [apply least_iff; reflexivity|]. split; [apply most_iff; reflexivity|].
    split; [intros n; apply least_iff|]. split; [intros n; apply most_iff|]. rewrite threads_cores. apply cores_eq. exact H.
  Qed.
  Lemma says_pos e key n : says e key n -> 1 <= n.
  Proof. intros (v & _ & _ & H & _). exact H. Qed.
  Lemma least_pos e n : least e n -> 1 <= n.
  Proof. intros [m H|m _ H|_ _]; [eapply says_pos; exact H|eapply says_pos; exact H|lia]. Qed.
  Theorem within e cpus : 1 <= threads (build parse_f64 share e cpus) <= N.max 1 cpus.
  Proof.
    rewrite threads_cores. destruct (N.eq_dec cpus 0) as [->|H].
    - pose proof (least_pos e (min_cores (config parse_f64 e 0)) (proj2 (least_iff e _) eq_refl)). unfold cores. change (available (config parse_f64 e 0)) with 1. lia.
    - rewrite cores_eq by lia. pose proof (least_pos e (min_cores (config parse_f64 e 0)) (proj2 (least_iff e _) eq_refl)). lia.
  Qed.
  Theorem scheduler e cpus : 
    match build parse_f64 share e cpus with Current_thread => True | Multi_thread n blocking => 2 <= n /\ blocking = n end.
  Proof.
    pose proof (within e cpus) as W. rewrite threads_cores in W. unfold build. destruct (cores share (config parse_f64 e cpus)) as [|[p|p|]]; try exact I; split; try reflexivity; lia.
  Qed.
End Floats.
