(** Proofs of C150 *)
From Coq Require Import String List NArith Bool Lia ZifyBool ZifyN.
From Verif Require Import Bytes BytesProofs.
From Verif Require ProfileModel RetrySpec RetryParseProofs EnvSpec EnvProofs LogModel.
From Verif Require Import UptimeModel UptimeSpec.
Import ListNotations.
Open Scope N_scope.

(** ** Settings *)
Lemma spells_iff v word : lowers word = word ->
  spells v word <-> exists s, v = Some s /\ eq_ignore_case (ProfileModel.trim s) word = true.
Proof.
  intros W. unfold spells. split.
  - intros (s & t & -> & B & L). exists s. split; [reflexivity|]. apply EnvProofs.bare_trim in B. subst t. apply eq_ignore_case_iff. congruence.
  - intros (s & -> & E). exists s, (ProfileModel.trim s). split; [reflexivity|]. split; [apply EnvProofs.bare_trim; reflexivity|].
    apply eq_ignore_case_iff in E. congruence.
Qed.
Lemma off_iff now e : eq_ignore_case (ProfileModel.trim (t_filter (from_env now e))) (bs "off") = true <-> spells (e_level e) (bs "off").
Proof.
  rewrite (spells_iff _ (bs "off") eq_refl). cbn [from_env t_filter]. destruct (e_level e) as [l|].
  - split; [intros H; exists l; auto|intros (s & [= <-] & H); exact H].
  - split; [intros H; vm_compute in H; discriminate H|intros (s & [=] & _)].
Qed.
Lemma json_iff now e : eq_ignore_case (ProfileModel.trim (t_format (from_env now e))) (bs "json") = true <-> spells (e_format e) (bs "json").
Proof.
  rewrite (spells_iff _ (bs "json") eq_refl). cbn [from_env t_format]. destruct (e_format e) as [l|].
  - split; [intros H; exists l; auto|intros (s & [= <-] & H); exact H].
  - split; [intros H; vm_compute in H; discriminate H|intros (s & [=] & _)].
Qed.
Lemma init_spec now e : let g := init (from_env now e) in
  (g_output g = None <-> spells (e_level e) (bs "off")) /\
  (g_handle g = true <-> g_output g <> None) /\
  (forall out filter, g_output g = Some (out, filter) ->
     filter = match e_level e with Some l => l | None => bs "warn,linkerd=info,hickory=error" end ++ bs ",_access_log=off" /\
     (spells (e_format e) (bs "json") /\ out = In_json \/ ~ spells (e_format e) (bs "json") /\ out = In_plain now) /\
     g_access g = LogModel.access_log_format (e_access e)).
Proof.
  cbv zeta. pose proof (off_iff now e) as O. pose proof (json_iff now e) as J. unfold init.
  destruct (eq_ignore_case (ProfileModel.trim (t_filter (from_env now e))) (bs "off")).
  - cbn [g_output g_handle]. split; [split; [intros _; apply O; reflexivity|reflexivity]|]. split; [split; [discriminate|intros H; destruct H; reflexivity]|discriminate].
  - unfold build. cbv zeta. cbn [g_output g_handle g_access]. split; [split; [discriminate|intros S; apply O in S; discriminate]|].
    split; [split; [discriminate|reflexivity]|]. intros out filter H. injection H as HO HF. split; [symmetry; exact HF|]. split; [|reflexivity].
    change (t_format (from_env now e)) with (match e_format e with Some f => f | None => DEFAULT_LOG_FORMAT end) in J. rewrite <- HO. clear HO.
    cbn [from_env t_format t_start].
    destruct (eq_ignore_case (ProfileModel.trim match e_format e with Some f => f | None => DEFAULT_LOG_FORMAT end) (bs "json")).
    + left. split; [apply J; reflexivity|reflexivity].
    + right. split; [intros S; apply J in S; discriminate|reflexivity].
Qed.

(** ** Numbers *)
Lemma value_acc s : forall a, dec_value a s = a * 10 ^ N.of_nat (List.length s) + dec_value 0 s.
Proof.
  induction s as [|c s IH]; intros a; cbn [dec_value List.length]; [lia|].
  rewrite IH, (IH (0 * 10 + (c - 48))). rewrite Nat2N.inj_succ, N.pow_succ_r'. lia.
Qed.
Lemma value_lt s : forallb is_digit s = true -> dec_value 0 s < 10 ^ N.of_nat (List.length s).
Proof.
  induction s as [|c s IH]; cbn [forallb]; [intros _; cbn; lia|]. intros H. apply andb_true_iff in H as [C H]. specialize (IH H).
  cbn [dec_value List.length]. rewrite value_acc, Nat2N.inj_succ, N.pow_succ_r'. unfold is_digit in C. nia.
Qed.
Lemma dec_least fuel : forall n, 1 <= n -> 10 ^ N.of_nat (List.length (to_dec_aux fuel n) - 1) <= n.
Proof.
  induction fuel as [|f IH]; intros n H; cbn [to_dec_aux]; [cbn; lia|]. destruct (N.ltb_spec n 10) as [L|L]; [cbn; lia|].
  rewrite app_length. cbn [List.length]. replace (List.length (to_dec_aux f (n / 10)) + 1 - 1)%nat with (List.length (to_dec_aux f (n / 10))) by lia.
  assert (1 <= n / 10) as Q by (apply N.div_le_lower_bound; lia). specialize (IH (n / 10) Q).
  pose proof (N.mul_div_le n 10 ltac:(lia)) as D.
  destruct (List.length (to_dec_aux f (n / 10))) as [|k]; [cbn; lia|]. replace (S k - 1)%nat with k in IH by lia.
  rewrite Nat2N.inj_succ, N.pow_succ_r'. lia.
Qed.
Lemma dec_length n k : (0 < k)%nat -> n < 10 ^ N.of_nat k -> (List.length (to_dec n) <= k)%nat.
Proof.
  intros K H. destruct (N.eq_dec n 0) as [->|NZ]; [cbn; lia|].
  pose proof (dec_least (S (N.to_nat (N.log2 n))) n ltac:(lia)) as L. fold (to_dec n) in L.
  destruct (PeanoNat.Nat.le_gt_cases (List.length (to_dec n)) k) as [|G]; [assumption|exfalso].
  assert (10 ^ N.of_nat k <= 10 ^ N.of_nat (List.length (to_dec n) - 1)) by (apply N.pow_le_mono_r; lia). lia.
Qed.
Lemma dec_positive n : (0 < List.length (to_dec n))%nat.
Proof. pose proof (to_dec_nonempty n). destruct (to_dec n); [contradiction|cbn; lia]. Qed.
Lemma dec_mono n m : n < m -> (List.length (to_dec n) <= List.length (to_dec m))%nat.
Proof.
  intros H. apply dec_length; [apply dec_positive|]. pose proof (value_lt (to_dec m) (to_dec_digits m)) as V. rewrite to_dec_value in V. lia.
Qed.
Lemma digits_dec n : RetrySpec.digits (to_dec n) /\ RetrySpec.decimal (to_dec n) = n.
Proof.
  split; [apply RetryParseProofs.digits_iff; split; [apply to_dec_nonempty|apply to_dec_digits]|].
  rewrite RetryParseProofs.decimal_dec. apply to_dec_value.
Qed.
Lemma zeros_value k s : dec_value 0 (repeat 48 k ++ s) = dec_value 0 s.
Proof. induction k as [|k IH]; [reflexivity|]. cbn [repeat app dec_value]. exact IH. Qed.
Lemma zeros_digits k s : forallb is_digit s = true -> forallb is_digit (repeat 48 k ++ s) = true.
Proof. intros H. induction k as [|k IH]; [exact H|]. cbn. exact IH. Qed.
Lemma pad_length c w s : (List.length s <= w)%nat -> List.length (pad c w s) = w.
Proof. intros H. unfold pad. rewrite app_length, repeat_length. lia. Qed.

Lemma micros_lt d : subsec_micros d < 1000000.
Proof. unfold subsec_micros. pose proof (N.mod_lt d 1000000000 ltac:(lia)). apply N.div_lt_upper_bound; lia. Qed.
Lemma micros_total d : d / 1000 = as_secs d * 1000000 + subsec_micros d.
Proof.
  unfold as_secs, subsec_micros. pose proof (N.div_mod d 1000000000 ltac:(lia)) as E. set (q := d / 1000000000) in *. set (r := d mod 1000000000) in *.
  rewrite E. replace (1000000000 * q + r) with (r + (1000000 * q) * 1000) by lia. rewrite N.div_add by lia. lia.
Qed.
Lemma micros_padded d : let m := pad 48 6 (to_dec (subsec_micros d)) in
  forallb is_digit m = true /\ dec_value 0 m = subsec_micros d /\ List.length m = 6%nat.
Proof.
  cbv zeta. pose proof (micros_lt d) as M. split; [apply zeros_digits, to_dec_digits|]. split; [unfold pad; rewrite zeros_value; apply to_dec_value|].
  apply pad_length. apply dec_length; [lia|exact M].
Qed.

(** ** What is said *)
Lemma format_says d : says (format d) (as_secs d) (subsec_micros d).
Proof.
  destruct (micros_padded d) as (M1 & M2 & M3). destruct (digits_dec (as_secs d)) as (D1 & D2).
  exists (6 - List.length (to_dec (as_secs d)))%nat, (to_dec (as_secs d)), (pad 48 6 (to_dec (subsec_micros d))).
  split; [unfold format, pad; rewrite <- app_assoc; reflexivity|]. split; [exact D1|]. split; [exact D2|].
  split; [apply RetryParseProofs.digits_iff; split; [intros E; rewrite E in M3; discriminate M3|exact M1]|].
  split; [rewrite RetryParseProofs.decimal_dec; exact M2|]. split; [exact M3|]. lia.
Qed.
Lemma spaces_skip i j s s' x y : RetrySpec.digits s -> RetrySpec.digits s' -> repeat 32 i ++ s ++ x = repeat 32 j ++ s' ++ y -> s ++ x = s' ++ y.
Proof.
  intros (N1 & F1) (N2 & F2). revert j. induction i as [|i IH]; intros [|j]; cbn [repeat app]; [auto| | |].
  - destruct s as [|c s]; [contradiction|]. intros [= -> _]. inversion F1. lia.
  - destruct s' as [|c s']; [contradiction|]. intros [= <- _]. inversion F2. lia.
  - intros [= E]. exact (IH j E).
Qed.
Lemma digits_stop s : forall s' x y, Forall (fun c => 48 <= c <= 57) s -> Forall (fun c => 48 <= c <= 57) s' ->
  s ++ 46 :: x = s' ++ 46 :: y -> s = s' /\ x = y.
Proof.
  induction s as [|c s IH]; intros [|c' s'] x y F1 F2; cbn [app].
  - intros [= ->]. auto.
  - intros [= E _]. inversion F2; subst; lia.
  - intros [= E _]. inversion F1; subst; lia.
  - intros [= -> E]. inversion F1; inversion F2; subst. destruct (IH s' x y) as [-> ->]; auto.
Qed.
Lemma says_one t s m s' m' : says t s m -> says t s' m' -> s = s' /\ m = m'.
Proof.
  intros (i & a & b & -> & A & <- & B & <- & Lb & _) (j & a' & b' & E & A' & <- & B' & <- & Lb' & _). cbn [bs app] in E. 
  change (bs "[") with [91] in E. change (bs ".") with [46] in E. cbn [app] in E. injection E as E.
  apply spaces_skip in E; [|assumption|assumption]. apply digits_stop in E as [-> E]; [|apply A|apply A'].
  split; [reflexivity|]. f_equal. exact (app_inv_tail _ _ _ E).
Qed.

Lemma format_length d : List.length (format d) = (10 + Nat.max 6 (List.length (to_dec (as_secs d))))%nat.
Proof.
  unfold format. destruct (micros_padded d) as (_ & _ & M). rewrite !app_length, M. unfold pad. rewrite app_length, repeat_length. 
  change (List.length (bs "[")) with 1%nat. change (List.length (bs ".")) with 1%nat. change (List.length (bs "s]")) with 2%nat. lia.
Qed.

(** ** Order *)
Lemma before_irrefl s : ~ before s s.
Proof. induction s as [|c s IH]; intros H; inversion H; subst; [lia|auto]. Qed.
Lemma before_trans s t u : before s t -> before t u -> before s u.
Proof.
  intros H. revert u. induction H as [c s|a b s t L|a s t H IH]; intros u K; inversion K; subst; try (constructor; try lia; auto; fail).
Qed.
Lemma before_app p s t : before s t -> before (p ++ s) (p ++ t).
Proof. induction p as [|c p IH]; [auto|]. cbn. intros H. apply Before_next. auto. Qed.
Lemma before_tail s t x y : List.length s = List.length t -> before s t -> before (s ++ x) (t ++ y).
Proof.
  intros L H. revert L. induction H as [c s|a b s t Q|a s t H IH]; intros L; cbn in *; [lia|apply Before_here; assumption|apply Before_next; apply IH; lia].
Qed.
Lemma digits_before s : forall t, List.length s = List.length t -> forallb is_digit s = true -> forallb is_digit t = true ->
  dec_value 0 s < dec_value 0 t -> before s t.
Proof.
  induction s as [|c s IH]; intros [|c' t] L D1 D2 V; try discriminate L; [cbn in V; lia|].
  cbn [forallb] in D1, D2. apply andb_true_iff in D1 as [C1 D1]. apply andb_true_iff in D2 as [C2 D2]. injection L as L.
  cbn [dec_value] in V. rewrite (value_acc s), (value_acc t) in V. rewrite L in V. unfold is_digit in C1, C2.
  pose proof (value_lt s D1) as V1. pose proof (value_lt t D2) as V2. rewrite L in V1.
  destruct (N.lt_trichotomy c c') as [Q|[Q|Q]].
  - apply Before_here. exact Q.
  - subst c'. apply Before_next. apply IH; auto. lia.
  - exfalso. assert (c' - 48 + 1 <= c - 48) as R by lia. nia.
Qed.
Lemma spaces_before i j s t : (j < i)%nat -> RetrySpec.digits t -> before (repeat 32 i ++ s) (repeat 32 j ++ t).
Proof.
  intros H (N0 & F). revert i H. induction j as [|j IH]; intros [|i] H; try lia; cbn [repeat app].
  - destruct t as [|c t]; [contradiction|]. apply Before_here. inversion F. lia.
  - apply Before_next. apply IH. lia.
Qed.
Lemma secs_before n m : m < 1000000 -> n < m -> before (pad 32 6 (to_dec n)) (pad 32 6 (to_dec m)).
Proof.
  intros M H. pose proof (dec_mono n m H) as L. assert (List.length (to_dec m) <= 6)%nat as L6 by (apply dec_length; [lia|exact M]).
  unfold pad. destruct (PeanoNat.Nat.eq_dec (List.length (to_dec n)) (List.length (to_dec m))) as [E|E].
  - rewrite E. apply before_app. apply digits_before; [exact E|apply to_dec_digits|apply to_dec_digits|]. rewrite !to_dec_value. exact H.
  - apply spaces_before; [lia|apply digits_dec].
Qed.
Lemma format_before d d' : as_secs d' < 1000000 -> d / 1000 < d' / 1000 -> before (format d) (format d').
Proof.
  intros S H. rewrite !micros_total in H. pose proof (micros_lt d) as M. pose proof (micros_lt d') as M'. unfold format. apply before_app.
  destruct (N.lt_trichotomy (as_secs d) (as_secs d')) as [Q|[Q|Q]]; [| |nia].
  - apply before_tail; [|apply secs_before; assumption].
    rewrite !pad_length; [reflexivity|apply dec_length; [lia|exact S]|apply dec_length; [lia|]]. cbn. lia.
  - rewrite Q. apply before_app, before_app. destruct (micros_padded d) as (A1 & A2 & A3). destruct (micros_padded d') as (B1 & B2 & B3).
    apply before_tail; [congruence|]. apply digits_before; [congruence|exact A1|exact B1|]. rewrite A2, B2. lia.
Qed.
Lemma format_order d d' : as_secs d < 1000000 -> as_secs d' < 1000000 -> (before (format d) (format d') <-> d / 1000 < d' / 1000).
Proof.
  intros S S'. split; [|apply format_before; exact S']. intros B. destruct (N.lt_trichotomy (d / 1000) (d' / 1000)) as [Q|[Q|Q]]; [exact Q| |].
  - exfalso. assert (format d = format d') as E.
    { rewrite !micros_total in Q. pose proof (micros_lt d) as M. pose proof (micros_lt d') as M'.
      assert (as_secs d = as_secs d') as E1 by nia. assert (subsec_micros d = subsec_micros d') as E2 by lia. unfold format. rewrite E1, E2. reflexivity. }
    rewrite E in B. exact (before_irrefl _ B).
  - exfalso. apply (format_before d' d S) in Q. exact (before_irrefl _ (before_trans _ _ _ B Q)).
Qed.
Lemma access_iff now e a : g_access (init (from_env now e)) = Some a <->
  ~ spells (e_level e) (bs "off") /\ LogModel.access_log_format (e_access e) = Some a.
Proof.
  destruct (init_spec now e) as (O & _ & F). cbv zeta in *. unfold init in *.
  destruct (eq_ignore_case (ProfileModel.trim (t_filter (from_env now e))) (bs "off")) eqn:E.
  - split; [discriminate|]. intros (H & _). destruct H. apply O. reflexivity.
  - assert (~ spells (e_level e) (bs "off")) as NO by (intros S; apply O in S; discriminate S). cbn [build g_access from_env t_access]. tauto.
Qed.
