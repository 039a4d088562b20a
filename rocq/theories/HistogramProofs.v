From Coq Require Import List Arith NArith ZArith QArith Sorted Bool Lia ZifyBool ZifyNat ZifyN.
From Verif Require Import HistogramModel HistogramSpec.
Import ListNotations.
Open Scope N_scope.

Lemma qle_lt : forall a b, negb (Qle_bool b a) = true <-> (a < b)%Q.
Proof.
  intros a b. rewrite negb_true_iff. split.
  - intros H. apply Qnot_le_lt. intros L. apply Qle_bool_iff in L. congruence.
  - intros H. destruct (Qle_bool b a) eqn:E; [|reflexivity]. apply Qle_bool_iff in E. exfalso. apply (Qlt_not_le _ _ H E).
Qed.
Lemma bucket_lt_iff : forall a b, bucket_lt a b = true <-> below a b.
Proof.
  intros a b. split.
  - destruct a as [[|[]|p]|], b as [[|[]|q]|]; cbn; intros H; try discriminate; try (constructor; discriminate); try constructor.
    apply qle_lt. exact H.
  - intros H. destruct H as [x Hx|p q H| | |]; try reflexivity; [destruct x; [congruence|reflexivity..]|]. cbn. apply qle_lt. exact H.
Qed.
Lemma below_trans : forall a b c, below a b -> below b c -> below a c.
Proof.
  intros a b c H1 H2. inversion H1; subst; inversion H2; subst; constructor; try congruence. eapply Qlt_trans; eassumption.
Qed.
Theorem new_iff : forall bs, (exists h, new bs = Some h) <-> Sorted below (Le (Finite 0) :: bs).
Proof.
  intros bs. unfold new. enough (G : forall p, (exists l, new_buckets p bs = Some l) <-> Sorted below (p :: bs)).
  { rewrite <- G. split; intros (h & H); [destruct (new_buckets _ bs); [eauto|discriminate]|rewrite H; cbn; eauto]. }
  induction bs as [|b bs IH]; intros p; [split; [repeat constructor|exists []; reflexivity]|].
  cbn [new_buckets]. split.
  - intros (l & H). destruct (bucket_lt p b) eqn:E; [|discriminate]. destruct (new_buckets b bs) as [l'|] eqn:N; [|discriminate].
    constructor; [apply IH; eauto|]. constructor. apply bucket_lt_iff. exact E.
  - intros H. inversion H as [|? ? S R]; subst. inversion R; subst. apply IH in S as (l & E). apply bucket_lt_iff in H1. rewrite H1, E. cbn. eauto.
Qed.
Lemma new_some : forall bs h, new bs = Some h -> bounds h = bs /\ buckets h = repeat 0 (length bs) /\ h_sum h = 0 /\ StronglySorted below bs.
Proof.
  intros bs h H. assert (S : Sorted below (Le (Finite 0) :: bs)) by (apply new_iff; eauto).
  unfold new in H. destruct (new_buckets _ bs) as [l|] eqn:E; [|discriminate]. injection H as <-. cbn. repeat split.
  - clear S. revert E. generalize (Le (Finite 0)). revert l. induction bs as [|b bs IH]; intros l p E; cbn in E; [injection E as <-; reflexivity|].
    destruct (bucket_lt p b); [|discriminate]. destruct (new_buckets b bs) as [l'|] eqn:E'; [|discriminate]. injection E as <-. cbn. f_equal. exact (IH l' b E').
  - apply Sorted_StronglySorted; [exact below_trans|]. inversion S; assumption.
Qed.
Lemma to_f64_precise : forall v, precise v -> to_f64 v = v.
Proof. intros v H. unfold to_f64. apply N.mod_small. unfold precise, max_precise in *. lia. Qed.
Lemma fits_at_most : forall v b, precise v -> fits v b = at_most b v.
Proof. intros v [[| |q]|] H; cbn; rewrite ?to_f64_precise by exact H; reflexivity. Qed.
Lemma at_most_mono : forall a b v, below a b -> at_most a v = true -> at_most b v = true.
Proof.
  intros a b v H A. destruct H as [x Hx|p q H| | |]; try reflexivity; try discriminate; cbn in *.
  apply Qle_bool_iff. apply Qle_bool_iff in A. apply Qlt_le_weak. eapply Qle_lt_trans; eassumption.
Qed.
Lemma all_at_most : forall b bs v, StronglySorted below (b :: bs) -> at_most b v = true -> bucket_of (b :: bs) v = 0%nat.
Proof.
  intros b bs v S A. unfold bucket_of. replace (filter _ (b :: bs)) with (@nil bucket); [reflexivity|].
  inversion S as [|? ? S' F]; subst. symmetry. assert (G : forall l, Forall (fun x => at_most x v = true) l -> filter (fun b => negb (at_most b v)) l = []).
  { induction l as [|x l IH]; intros H; [reflexivity|]. inversion H; subst. cbn. rewrite H2. apply IH. assumption. }
  apply G. constructor; [exact A|]. eapply Forall_impl; [|exact F]. intros x Hx. exact (at_most_mono _ _ _ Hx A).
Qed.
Lemma bucket_of_cons : forall b bs v, at_most b v = false -> bucket_of (b :: bs) v = S (bucket_of bs v).
Proof. intros b bs v A. unfold bucket_of. cbn. rewrite A. reflexivity. Qed.
Lemma position_bucket : forall bs v, StronglySorted below bs -> precise v -> 
  position (fits v) bs = if (bucket_of bs v <? length bs)%nat then Some (bucket_of bs v) else None.
Proof.
  induction bs as [|b bs IH]; intros v SS P; [reflexivity|]. cbn [position]. rewrite (fits_at_most v b P). destruct (at_most b v) eqn:A.
  - rewrite all_at_most by assumption. reflexivity.
  - rewrite bucket_of_cons by exact A. inversion SS; subst. rewrite IH by assumption. cbn [length].
    change (S (bucket_of bs v) <? S (length bs))%nat with (bucket_of bs v <? length bs)%nat. destruct (_ <? _)%nat; reflexivity.
Qed.
Lemma bucket_of_le : forall bs i b v, StronglySorted below bs -> nth_error bs i = Some b ->
  at_most b v = (bucket_of bs v <=? i)%nat.
Proof.
  induction bs as [|c bs IH]; intros i b v S H; [destruct i; discriminate|]. destruct (at_most c v) eqn:A.
  - rewrite all_at_most by assumption. cbn. destruct i as [|i]; [injection H as <-; exact A|]. inversion S as [|? ? S' F]; subst.
    apply (at_most_mono c); [|exact A]. rewrite Forall_forall in F. apply F. eapply nth_error_In. exact H.
  - rewrite bucket_of_cons by exact A. destruct i as [|i]; [injection H as <-; rewrite A; reflexivity|]. inversion S; subst. apply IH; assumption.
Qed.
Lemma bucket_of_last : forall bs v, StronglySorted below (bs ++ [Inf]) -> (bucket_of (bs ++ [Inf]) v < length (bs ++ [Inf]))%nat.
Proof.
  intros bs v S. assert (H : at_most Inf v = (bucket_of (bs ++ [Inf]) v <=? length bs)%nat).
  { apply bucket_of_le; [exact S|]. rewrite nth_error_app2 by lia. rewrite Nat.sub_diag. reflexivity. }
  cbn [at_most] in H. rewrite app_length. cbn [length]. lia.
Qed.
Lemma count_le : forall f vs, count f vs <= N.of_nat (length vs).
Proof. intros f vs. unfold count. induction vs as [|v vs IH]; [reflexivity|]. cbn. destruct (f v); cbn [length]; lia. Qed.
Lemma count_cons : forall f v vs, count f (v :: vs) = (if f v then 1 else 0) + count f vs.
Proof. intros. unfold count. cbn. destruct (f v); cbn [length]; lia. Qed.
Lemma nth_incr : forall l i j, nth_error (incr i l) j = if (i =? j)%nat then option_map (fun c => counter_add c 1) (nth_error l j) else nth_error l j.
Proof.
  induction l as [|c l IH]; intros i j; [destruct i, j; cbn; try reflexivity; destruct (_ =? _)%nat; reflexivity|]. destruct i as [|i], j as [|j]; try reflexivity. cbn [incr nth_error]. rewrite IH. reflexivity.
Qed.
Lemma incr_length : forall l i, length (incr i l) = length l.
Proof. induction l as [|c l IH]; intros [|i]; cbn; auto. Qed.
Lemma add_all_spec : forall vs h, StronglySorted below (bounds h) -> (forall v, precise v -> bucket_of (bounds h) v < length (bounds h))%nat -> Forall precise vs ->
  Forall (fun c => c < 2 ^ 64) (buckets h) -> h_sum h < 2 ^ 64 ->
  exists h', add_all h vs = Some h' /\ bounds h' = bounds h /\ length (buckets h') = length (buckets h) /\
    (forall i c, nth_error (buckets h) i = Some c -> nth_error (buckets h') i = Some ((c + count (fun v => bucket_of (bounds h) v =? i)%nat vs) mod 2 ^ 64)) /\
    h_sum h' = (h_sum h + total vs) mod 2 ^ 64.
Proof.
  induction vs as [|v vs IH]; intros h S L P C Q.
  - exists h. repeat split; try reflexivity.
    + intros i c E. rewrite Forall_forall in C. specialize (C c (nth_error_In _ _ E)). unfold count. cbn [filter length N.of_nat]. rewrite N.add_0_r, N.mod_small by exact C. exact E.
    + cbn [total fold_right]. rewrite N.add_0_r, N.mod_small by exact Q. reflexivity.
  - inversion P as [|? ? Pv P']; subst. cbn [add_all]. unfold add. rewrite position_bucket by assumption.
    specialize (L v Pv) as Lv. apply Nat.ltb_lt in Lv. rewrite Lv.
    set (h1 := Histogram _ _ _). destruct (IH h1) as (h' & H1 & H2 & H3 & H4 & H5).
    + exact S.
    + exact L.
    + exact P'.
    + apply Forall_forall. intros c Hc. apply In_nth_error in Hc as (i & Hi). cbn [buckets h1] in Hi. rewrite nth_incr in Hi. rewrite Forall_forall in C.
      destruct (_ =? _)%nat; [|apply C; eapply nth_error_In; exact Hi]. destruct (nth_error (buckets h) i); [|discriminate]. injection Hi as <-. apply N.mod_lt. discriminate.
    + apply N.mod_lt. discriminate.
    + exists h'. split; [exact H1|]. split; [exact H2|]. split; [rewrite H3; apply incr_length|]. split.
      * intros i c E. rewrite count_cons. specialize (H4 i). cbn [buckets bounds h1] in H4. rewrite nth_incr, E in H4.
        destruct (bucket_of (bounds h) v =? i)%nat; cbn [option_map] in H4; rewrite (H4 _ eq_refl).
        -- unfold counter_add. rewrite N.add_mod_idemp_l by discriminate. do 2 f_equal. lia.
        -- do 2 f_equal.
      * rewrite H5. cbn [h_sum h1 total fold_right]. unfold counter_add. rewrite N.add_mod_idemp_l by discriminate. f_equal. unfold total. lia.
Qed.
(** The counts of a histogram *)
Theorem observed_spec : forall bs vs, Sorted below (Le (Finite 0) :: bs ++ [Inf]) -> Forall precise vs ->
  exists h, observed (bs ++ [Inf]) vs h /\ h_sum h = total vs mod 2 ^ 64 /\
    buckets h = map (fun i => count (fun v => bucket_of (bs ++ [Inf]) v =? i)%nat vs mod 2 ^ 64) (seq 0 (length (bs ++ [Inf]))).
Proof.
  intros bs vs S P. apply new_iff in S as (h0 & N). pose proof (new_some _ _ N) as (B & K & Z & S).
  destruct (add_all_spec vs h0) as (h & H1 & H2 & H3 & H4 & H5).
  - rewrite B. exact S.
  - rewrite B. intros v _. apply bucket_of_last. exact S.
  - exact P.
  - rewrite K. apply Forall_forall. intros c Hc. apply repeat_spec in Hc. subst c. reflexivity.
  - rewrite Z. reflexivity.
  - exists h. split; [exists h0; auto|]. split; [rewrite H5, Z; reflexivity|].
    rewrite B in *. apply nth_ext with (d := 0) (d' := 0); [rewrite map_length, seq_length, H3, K; apply repeat_length|].
    intros i Hi. rewrite H3, K, repeat_length in Hi.
    assert (E : nth_error (buckets h0) i = Some 0). { rewrite K. apply nth_error_repeat. exact Hi. }
    apply H4 in E. apply nth_error_nth with (d := 0) in E. rewrite E.
    set (F := fun i : nat => _). rewrite nth_indep with (d' := F 0%nat) by (rewrite map_length, seq_length; exact Hi).
    rewrite (map_nth F), seq_nth by exact Hi. reflexivity.
Qed.
Lemma observed_fun : forall bs vs h h', observed bs vs h -> observed bs vs h' -> h = h'.
Proof. intros bs vs h h' (a & E1 & E2) (b & E3 & E4). congruence. Qed.
(** All buckets together *)
Lemma count_split : forall f vs i, count (fun v => f v <=? S i)%nat vs = count (fun v => f v <=? i)%nat vs + count (fun v => f v =? S i)%nat vs.
Proof.
  intros f vs i. induction vs as [|v vs IH]; [reflexivity|]. rewrite !count_cons, IH.
  destruct (f v <=? S i)%nat eqn:A, (f v <=? i)%nat eqn:B, (f v =? S i)%nat eqn:C; lia.
Qed.
Lemma total_app : forall a b, total (a ++ b) = total a + total b.
Proof. induction a as [|x a IH]; intros b; [reflexivity|]. cbn [app]. unfold total in *. cbn [fold_right]. rewrite IH. lia. Qed.
Lemma cumulative : forall f vs i, total (map (fun j => count (fun v => f v =? j)%nat vs) (seq 0 (S i))) = count (fun v => f v <=? i)%nat vs.
Proof.
  intros f vs. induction i as [|i IH].
  - cbn. rewrite N.add_0_r. unfold count. f_equal. f_equal. apply filter_ext. intros v. lia.
  - rewrite seq_S, map_app, total_app, IH. cbn [map total fold_right Nat.add]. rewrite N.add_0_r. symmetry. apply count_split.
Qed.
Lemma count_ext : forall f g vs, (forall v, f v = g v) -> count f vs = count g vs.
Proof. intros f g vs H. unfold count. f_equal. f_equal. apply filter_ext. exact H. Qed.

(** Reports *)
Fixpoint sums (t : N) (cs : list N) : list N := match cs with [] => [] | c :: cs => (t + c) :: sums (t + c) cs end.
Lemma fmt_sums : forall bs cs t, length cs = length bs -> t + total cs <= 2 ^ 53 ->
  fmt_buckets t bs cs = (map (fun p => Bucket_line (fst p) (snd p)) (combine bs (sums t cs)), t + total cs).
Proof.
  induction bs as [|b bs IH]; intros [|c cs] t L H; try discriminate; [cbn; rewrite N.add_0_r; reflexivity|].
  cbn [fmt_buckets sums combine map fst snd]. unfold total in *. cbn [fold_right] in *.
  assert (E : counter_add t c = t + c).
  { unfold counter_add. apply N.mod_small. apply N.le_lt_trans with (2 ^ 53); [lia|reflexivity]. }
  rewrite E, IH; [|injection L as L; exact L|lia]. rewrite to_f64_precise by (unfold precise; lia). f_equal. lia.
Qed.
Lemma sums_length : forall cs t, length (sums t cs) = length cs.
Proof. induction cs as [|c cs IH]; intros t; cbn; auto. Qed.
Lemma sums_nth : forall cs t i, (i < length cs)%nat -> nth_error (sums t cs) i = Some (t + total (firstn (S i) cs)).
Proof.
  induction cs as [|c cs IH]; intros t i L; [inversion L|]. unfold total in *. destruct i as [|i].
  - cbn [sums nth_error firstn fold_right]. f_equal. lia.
  - cbn [sums nth_error]. rewrite IH by (cbn in L; lia). change (firstn (S (S i)) (c :: cs)) with (c :: firstn (S i) cs). cbn [fold_right]. f_equal. lia.
Qed.
Lemma sums_le : forall cs i, total (firstn i cs) <= total cs.
Proof. intros cs i. rewrite <- (firstn_skipn i cs) at 2. rewrite total_app. lia. Qed.
Lemma combine_nth_error : forall A B (l : list A) (m : list B) i x y, nth_error l i = Some x -> nth_error m i = Some y -> nth_error (combine l m) i = Some (x, y).
Proof.
  induction l as [|a l IH]; intros [|b m] [|i] x y H1 H2; try discriminate; cbn in *; [congruence|]. apply IH; assumption.
Qed.
Lemma report_lines : forall bs cs s, length cs = length bs -> total cs <= 2 ^ 53 ->
  fmt_metric bs cs s = map (fun p => Bucket_line (fst p) (snd p)) (combine bs (sums 0 cs)) ++ [Count_line (total cs); Sum_line (to_f64 s)].
Proof.
  intros bs cs s L H. unfold fmt_metric. rewrite fmt_sums by (cbn; assumption). cbn [N.add]. rewrite to_f64_precise by exact H. reflexivity.
Qed.
Lemma report_nth : forall bs cs s i b, length cs = length bs -> total cs <= 2 ^ 53 -> nth_error bs i = Some b ->
  nth_error (fmt_metric bs cs s) i = Some (Bucket_line b (total (firstn (S i) cs))).
Proof.
  intros bs cs s i b L H E. assert (I : (i < length bs)%nat) by (apply nth_error_Some; congruence).
  rewrite report_lines by assumption. rewrite nth_error_app1 by (rewrite map_length, combine_length, sums_length; lia).
  apply (map_nth_error (fun p => Bucket_line (fst p) (snd p)) i (combine bs (sums 0 cs)) (d := (b, total (firstn (S i) cs)))).
  apply combine_nth_error; [exact E|]. rewrite sums_nth by lia. reflexivity.
Qed.
Lemma nth_error_same : forall A (l m : list A), (forall i, nth_error l i = nth_error m i) -> l = m.
Proof.
  induction l as [|x l IH]; intros [|y m] H; [reflexivity|discriminate (H 0%nat)..|]. f_equal; [injection (H 0%nat); auto|]. apply IH. intros i. exact (H (S i)).
Qed.
Lemma firstn_map_seq : forall A (f : nat -> A) n i, (i <= n)%nat -> firstn i (map f (seq 0 n)) = map f (seq 0 i).
Proof.
  intros A f n i L. replace n with (i + (n - i))%nat by lia. rewrite seq_app, map_app, firstn_app, map_length, seq_length, Nat.sub_diag.
  cbn [firstn]. rewrite app_nil_r. rewrite firstn_all2; [reflexivity|]. rewrite map_length, seq_length. lia.
Qed.
Lemma small_counts : forall vs f, N.of_nat (length vs) <= 2 ^ 53 -> count f vs mod 2 ^ 64 = count f vs.
Proof. intros vs f H. apply N.mod_small. pose proof (count_le f vs). apply N.le_lt_trans with (2 ^ 53); [lia|reflexivity]. Qed.
Lemma observed_buckets : forall bs vs h, Sorted below (Le (Finite 0) :: bs ++ [Inf]) -> Forall precise vs -> N.of_nat (length vs) <= 2 ^ 53 ->
  observed (bs ++ [Inf]) vs h -> buckets h = map (fun i => count (fun v => bucket_of (bs ++ [Inf]) v =? i)%nat vs) (seq 0 (length (bs ++ [Inf]))).
Proof.
  intros bs vs h S P L O. destruct (observed_spec bs vs S P) as (h' & O' & _ & E). rewrite (observed_fun _ _ _ _ O O'), E.
  apply map_ext. intros i. apply small_counts. exact L.
Qed.
Lemma strongly : forall bs, Sorted below (Le (Finite 0) :: bs) -> StronglySorted below bs.
Proof. intros bs S. apply Sorted_StronglySorted; [exact below_trans|]. inversion S; assumption. Qed.
Theorem report_spec : forall bs vs h, Sorted below (Le (Finite 0) :: bs ++ [Inf]) -> Forall precise vs -> N.of_nat (length vs) <= 2 ^ 53 ->
  observed (bs ++ [Inf]) vs h ->
  fmt_metric (bs ++ [Inf]) (buckets h) (h_sum h) =
  map (fun b => Bucket_line b (count (at_most b) vs)) (bs ++ [Inf]) ++
    [Count_line (N.of_nat (length vs)); Sum_line (total vs mod 2 ^ 64 mod (2 ^ 53 + 1))].
Proof.
  intros bs vs h S P L O. pose proof (observed_buckets bs vs h S P L O) as B.
  destruct (observed_spec bs vs S P) as (h' & O' & Z & _). rewrite (observed_fun _ _ _ _ O' O) in Z. clear h' O'.
  apply strongly in S. set (l := bs ++ [Inf]) in *.
  assert (LEN : length (buckets h) = length l) by (rewrite B, map_length, seq_length; reflexivity).
  assert (CUM : forall i b, nth_error l i = Some b -> total (firstn (Datatypes.S i) (buckets h)) = count (at_most b) vs).
  { intros i b E. assert (I : (i < length l)%nat) by (apply nth_error_Some; congruence).
    rewrite B, firstn_map_seq, cumulative by lia. apply count_ext. intros v. symmetry. apply bucket_of_le; assumption. }
  assert (TOT : total (buckets h) = N.of_nat (length vs)).
  { specialize (CUM (length bs) Inf). rewrite firstn_all2 in CUM by (rewrite LEN; unfold l; rewrite app_length; cbn; lia). rewrite CUM.
    - unfold count. cbn [at_most]. f_equal. clear. induction vs; cbn in *; congruence.
    - unfold l. rewrite nth_error_app2 by lia. rewrite Nat.sub_diag. reflexivity. }
  rewrite report_lines; [|exact LEN|lia]. rewrite TOT, Z. f_equal.
  apply nth_error_same. intros i. destruct (nth_error l i) as [b|] eqn:E.
  - rewrite (map_nth_error _ _ _ E). assert (I : (i < length l)%nat) by (apply nth_error_Some; congruence).
    apply (map_nth_error (fun p => Bucket_line (fst p) (snd p)) i (combine l (sums 0 (buckets h))) (d := (b, count (at_most b) vs))).
    apply combine_nth_error; [exact E|]. rewrite sums_nth by lia. f_equal. cbn [N.add]. apply CUM. exact E.
  - apply nth_error_None in E. rewrite (proj2 (nth_error_None _ _)), (proj2 (nth_error_None _ _)); [reflexivity|..]; rewrite map_length; [|rewrite combine_length]; lia.
Qed.
Lemma count_firstn : forall f vs n m, (n <= m)%nat -> count f (firstn n vs) <= count f (firstn m vs).
Proof.
  intros f vs. induction vs as [|v vs IH]; intros n m L; [rewrite !firstn_nil; lia|]. destruct n as [|n]; [unfold count; cbn; lia|]. destruct m as [|m]; [lia|].
  cbn [firstn]. rewrite !count_cons. specialize (IH n m ltac:(lia)). lia.
Qed.
Lemma total_mono : forall (f g : nat -> N) l, (forall i, In i l -> f i <= g i) -> total (map f l) <= total (map g l).
Proof.
  intros f g l H. induction l as [|i l IH]; [reflexivity|]. unfold total in *. cbn [map fold_right].
  specialize (H i (or_introl eq_refl)) as Hi. assert (IH' := IH (fun j Hj => H j (or_intror Hj))). lia.
Qed.
(** A report that is made while observations are added *)
Theorem concurrent_report : forall bs vs ns cs s, Sorted below (Le (Finite 0) :: bs ++ [Inf]) -> Forall precise vs -> N.of_nat (length vs) <= 2 ^ 53 ->
  read_at (bs ++ [Inf]) vs ns cs ->
  (forall i b, nth_error (bs ++ [Inf]) i = Some b -> exists m,
    nth_error (fmt_metric (bs ++ [Inf]) cs s) i = Some (Bucket_line b m) /\
    count (at_most b) (firstn (nth 0 ns 0%nat) vs) <= m <= count (at_most b) (firstn (nth i ns 0%nat) vs)) /\
  (forall i j x y, (i <= j)%nat -> (j <= length (bs ++ [Inf]))%nat -> nth_error (fmt_metric (bs ++ [Inf]) cs s) i = Some x -> nth_error (fmt_metric (bs ++ [Inf]) cs s) j = Some y -> value_of x <= value_of y) /\
  exists x, nth_error (fmt_metric (bs ++ [Inf]) cs s) (length bs) = Some (Bucket_line Inf x) /\
            nth_error (fmt_metric (bs ++ [Inf]) cs s) (length (bs ++ [Inf])) = Some (Count_line x).
Proof.
  intros bs vs ns cs s S P L (L1 & L2 & SO & R). pose proof (strongly _ S) as SS. set (l := bs ++ [Inf]) in *.
  assert (NN : forall i, (i < length l)%nat -> nth_error ns i = Some (nth i ns 0%nat)) by (intros; apply nth_error_nth'; lia).
  assert (MONO : forall i j, (i <= j)%nat -> (j < length l)%nat -> (nth i ns 0 <= nth j ns 0)%nat).
  { intros i j I J. apply (SO i j); auto; apply NN; lia. }
  assert (C : forall i, (i < length l)%nat -> nth_error cs i = Some (count (fun v => bucket_of l v =? i)%nat (firstn (nth i ns 0%nat) vs))).
  { intros i I. destruct (R i _ (NN i I)) as (h & O & <-).
    assert (LF : N.of_nat (length (firstn (nth i ns 0%nat) vs)) <= 2 ^ 53) by (rewrite firstn_length; lia).
    assert (PF : Forall precise (firstn (nth i ns 0%nat) vs)).
    { apply Forall_forall. intros v Hv. rewrite Forall_forall in P. apply P. rewrite <- (firstn_skipn (nth i ns 0%nat) vs). apply in_app_iff. auto. }
    rewrite (observed_buckets bs _ h S PF LF O). fold l.
    erewrite map_nth_error; [reflexivity|]. rewrite (nth_error_nth' _ 0%nat) by (rewrite seq_length; exact I). rewrite seq_nth by exact I. reflexivity. }
  assert (CS : cs = map (fun i => count (fun v => bucket_of l v =? i)%nat (firstn (nth i ns 0%nat) vs)) (seq 0 (length l))).
  { apply nth_error_same. intros i. destruct (Nat.lt_ge_cases i (length l)) as [I|I].
    - rewrite C by exact I. symmetry. erewrite map_nth_error; [reflexivity|]. rewrite (nth_error_nth' _ 0%nat) by (rewrite seq_length; exact I). rewrite seq_nth by exact I. reflexivity.
    - rewrite (proj2 (nth_error_None _ _)), (proj2 (nth_error_None _ _)); [reflexivity|rewrite map_length, seq_length; exact I|lia]. }
  assert (B : forall i, (i < length l)%nat -> forall b, nth_error l i = Some b ->
    count (at_most b) (firstn (nth 0 ns 0%nat) vs) <= total (firstn (Datatypes.S i) cs) <= count (at_most b) (firstn (nth i ns 0%nat) vs)).
  { intros i I b E. rewrite CS, firstn_map_seq by lia.
    assert (K : forall w, count (at_most b) w = total (map (fun j => count (fun v => bucket_of l v =? j)%nat w) (seq 0 (Datatypes.S i)))).
    { intros w. rewrite cumulative. apply count_ext. intros v. apply bucket_of_le; assumption. }
    rewrite !K. split; apply total_mono; intros j Hj; apply in_seq in Hj; apply count_firstn; apply MONO; lia. }
  assert (LAST : nth_error l (length bs) = Some Inf) by (unfold l; rewrite nth_error_app2 by lia; rewrite Nat.sub_diag; reflexivity).
  assert (LL : length l = Datatypes.S (length bs)) by (unfold l; rewrite app_length; cbn; lia).
  assert (TOT : total cs <= 2 ^ 53).
  { specialize (B (length bs) ltac:(lia) Inf LAST) as [_ B]. rewrite firstn_all2 in B by lia.
    pose proof (count_le (at_most Inf) (firstn (nth (length bs) ns 0%nat) vs)) as Q. rewrite firstn_length in Q. lia. }
  assert (NTH : forall i b, nth_error l i = Some b -> nth_error (fmt_metric l cs s) i = Some (Bucket_line b (total (firstn (Datatypes.S i) cs)))).
  { intros i b E. apply report_nth; auto. }
  assert (CNT : nth_error (fmt_metric l cs s) (length l) = Some (Count_line (total cs))).
  { rewrite report_lines by assumption. rewrite nth_error_app2; rewrite map_length, combine_length, sums_length, L2, Nat.min_id; [|lia]. rewrite Nat.sub_diag. reflexivity. }
  split; [|split].
  - intros i b E. exists (total (firstn (Datatypes.S i) cs)). split; [apply NTH; exact E|]. apply B; [|exact E]. apply nth_error_Some. congruence.
  - assert (V : forall i x, (i <= length l)%nat -> nth_error (fmt_metric l cs s) i = Some x -> value_of x = total (firstn (Datatypes.S i) cs)).
    { intros i x I E. destruct (nth_error l i) as [b|] eqn:N.
      - rewrite (NTH i b N) in E. injection E as <-. reflexivity.
      - apply nth_error_None in N. replace i with (length l) in * by lia. rewrite CNT in E. injection E as <-. cbn [value_of]. rewrite firstn_all2 by lia. reflexivity. }
    intros i j x y IJ J E1 E2. rewrite (V i x), (V j y) by (assumption || lia).
    replace (firstn (Datatypes.S i) cs) with (firstn (Datatypes.S i) (firstn (Datatypes.S j) cs)) by (rewrite firstn_firstn; f_equal; lia).
    apply sums_le.
  - exists (total cs). split; [|exact CNT]. rewrite (NTH _ _ LAST). rewrite firstn_all2 by lia. reflexivity.
Qed.
Theorem ms_spec : forall d, nanos d < 10 ^ 9 -> from_ms d = N.min (2 ^ 64 - 1) (nanoseconds d / 10 ^ 6).
Proof.
  intros [s n] H. unfold from_ms, nanoseconds, u64_max. cbn [secs nanos] in *.
  replace ((s * 10 ^ 9 + n) / 10 ^ 6) with (s * 1000 + n / 1000000).
  - lia.
  - replace (s * 10 ^ 9 + n) with (n + (s * 1000) * 10 ^ 6) by lia. rewrite N.div_add by discriminate. change (10 ^ 6) with 1000000. lia.
Qed.
Theorem us_spec : forall d, nanos d < 10 ^ 9 -> from_us d = N.min (2 ^ 64 - 1) (nanoseconds d / 10 ^ 3).
Proof.
  intros [s n] H. unfold from_us, nanoseconds, u64_max. cbn [secs nanos] in *.
  replace ((s * 10 ^ 9 + n) / 10 ^ 3) with (s * 1000000 + n / 1000).
  - destruct (_ <=? _) eqn:E; lia.
  - replace (s * 10 ^ 9 + n) with (n + (s * 1000000) * 10 ^ 3) by lia. rewrite N.div_add by discriminate. change (10 ^ 3) with 1000. lia.
Qed.

Lemma at_most_num n v : at_most (Le (Finite (inject_Z (Z.of_N n)))) v = (v <=? n).
Proof.
  cbn [at_most]. apply Bool.eq_iff_eq_true. rewrite Qle_bool_iff, <- Zle_Qle, N.leb_le. lia.
Qed.
Lemma latencies : forall vs, Forall precise vs -> N.of_nat (length vs) <= 2 ^ 53 ->
  exists h, observed latency_bounds vs h /\
    map value_of (fmt_metric latency_bounds (buckets h) (h_sum h)) =
    map (fun ms => count (fun v => v <=? ms) vs)
      [1; 2; 3; 4; 5; 10; 20; 30; 40; 50; 100; 200; 300; 400; 500; 1000; 2000; 3000; 4000; 5000; 10000; 20000; 30000; 40000; 50000] ++
    [N.of_nat (length vs); N.of_nat (length vs); total vs mod 2 ^ 64 mod (2 ^ 53 + 1)].
Proof.
  intros vs P L. set (ms := [1; 2; 3; 4; 5; 10; 20; 30; 40; 50; 100; 200; 300; 400; 500; 1000; 2000; 3000; 4000; 5000; 10000; 20000; 30000; 40000; 50000]).
  assert (S : Sorted below (Le (Finite 0) :: map (fun n => Le (Finite (inject_Z (Z.of_N n)))) ms ++ [Inf])).
  { apply new_iff. eexists. vm_compute. reflexivity. }
  change latency_bounds with (map (fun n => Le (Finite (inject_Z (Z.of_N n)))) ms ++ [Inf]).
  destruct (observed_spec _ vs S P) as (h & O & _). exists h. split; [exact O|].
  rewrite (report_spec _ vs h S P L O). rewrite !map_app, !map_map, <- app_assoc. f_equal.
  - apply map_ext. intros n. cbn [value_of]. unfold count. f_equal. f_equal. apply filter_ext. intros v. apply at_most_num.
  - cbn [map app value_of]. f_equal. unfold count. f_equal. f_equal. clear. induction vs as [|v vs IH]; [reflexivity|]. cbn. f_equal. exact IH.
Qed.
