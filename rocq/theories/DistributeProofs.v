(** Proofs about distributions *)
From Coq Require Import List Arith NArith Bool Lia ZifyBool ZifyNat ZifyN.
From Verif Require Import DistributeModel DistributeSpec.
Import ListNotations.

(** ** Ordered backends *)
Lemma first_from : forall keys rs i, exists l x, poll_first keys rs i = (l, x) /\
  ((exists k, k < length keys /\ (forall j, j < k -> rs (i + j) = Is_pending) /\ rs (i + k) = Is_ready /\
      l = map (fun j => Polled j Is_pending) (seq i k) ++ [Polled (i + k) Is_ready; Answered Is_ready] /\ x = Some (i + k)) \/
   (exists k, k < length keys /\ (forall j, j < k -> rs (i + j) = Is_pending) /\ rs (i + k) = Is_failed /\
      l = map (fun j => Polled j Is_pending) (seq i k) ++ [Polled (i + k) Is_failed; Answered Is_failed] /\ x = None) \/
   ((forall j, j < length keys -> rs (i + j) = Is_pending) /\
      l = map (fun j => Polled j Is_pending) (seq i (length keys)) ++ [Answered Is_pending] /\ x = None)).
Proof.
  induction keys as [|[] keys IH]; intros rs i; cbn [poll_first].
  - exists [Answered Is_pending], None. split; [reflexivity|]. right. right. split; [cbn; lia|]. auto.
  - destruct (rs i) eqn:E.
    + do 2 eexists. split; [reflexivity|]. left. exists 0. rewrite Nat.add_0_r. cbn. repeat split; auto; lia.
    + destruct (IH rs (S i)) as (l & x & H & C). rewrite H. do 2 eexists. split; [reflexivity|].
      assert (P : forall k, (forall j, j < k -> rs (S i + j) = Is_pending) -> forall j, j < S k -> rs (i + j) = Is_pending).
      { intros k Hk [|j] Hj; [rewrite Nat.add_0_r; exact E|]. replace (i + S j) with (S i + j) by lia. apply Hk. lia. }
      destruct C as [(k & H1 & H2 & H3 & -> & ->)|[(k & H1 & H2 & H3 & -> & ->)|(H1 & -> & ->)]].
      * left. exists (S k). replace (i + S k) with (S i + k) by lia. cbn [length]. pose proof (P _ H2) as P'. repeat split; auto. lia.
      * right. left. exists (S k). replace (i + S k) with (S i + k) by lia. cbn [length]. pose proof (P _ H2) as P'. repeat split; auto. lia.
      * right. right. cbn [length]. pose proof (P _ H1) as P'. repeat split; auto.
    + do 2 eexists. split; [reflexivity|]. right. left. exists 0. rewrite Nat.add_0_r. cbn. repeat split; auto; lia.
Qed.
Theorem first_ok : forall keys rs, let (l, x) := poll_first keys rs 0 in first_poll (length keys) rs l x.
Proof.
  intros keys rs. destruct (first_from keys rs 0) as (l & x & H & C). rewrite H.
  destruct C as [(k & H1 & H2 & H3 & -> & ->)|[(k & H1 & H2 & H3 & -> & ->)|(H1 & -> & ->)]];
    [apply f_ready|apply f_failed|apply f_pending]; auto.
Qed.

(** ** Weighted backends *)
Open Scope N_scope.
Lemma sum_app : forall a b, sum (a ++ b) = sum a + sum b.
Proof. intros a b. unfold sum. induction a as [|x a IH]; cbn [app fold_right]; lia. Qed.
Lemma sample_ok : forall ws r, r < sum ws ->
  (sample ws r < length ws)%nat /\ sum (firstn (sample ws r) ws) <= r /\
  r < sum (firstn (sample ws r) ws) + nth (sample ws r) ws 0.
Proof.
  unfold sum. induction ws as [|w ws IH]; intros r H; [cbn in H; lia|].
  destruct ws as [|v ws].
  - cbn in *. lia.
  - assert (E : sample (w :: v :: ws) r = if r <? w then 0%nat else S (sample (v :: ws) (r - w))) by reflexivity.
    rewrite E. destruct (r <? w) eqn:C.
    + cbn [firstn fold_right nth length]. lia.
    + cbn [fold_right] in H. destruct (IH (r - w)) as (H1 & H2 & H3); [cbn [fold_right]; lia|].
      set (k := sample (v :: ws) (r - w)) in *. clearbody k.
      cbn [firstn fold_right nth length] in *. split; [lia|]. split; lia.
Qed.

Definition current (ws : list N) (aside : list nat) : list N := map (weight ws aside) (seq 0 (length ws)).
Lemma current_length : forall ws aside, length (current ws aside) = length ws.
Proof. intros. unfold current. rewrite map_length, seq_length. reflexivity. Qed.
Lemma current_nil : forall ws, current ws [] = ws.
Proof.
  intros ws. unfold current. apply nth_ext with (d := weight ws [] 0) (d' := 0).
  - rewrite map_length, seq_length. reflexivity.
  - intros n Hn. rewrite map_length, seq_length in Hn. rewrite map_nth, seq_nth by exact Hn. unfold weight.
    destruct (in_dec _ _ _) as [[]|_]. reflexivity.
Qed.
Lemma current_nth : forall ws aside i, (i < length ws)%nat -> nth i (current ws aside) 0 = weight ws aside i.
Proof.
  intros ws aside i Hi. unfold current. rewrite nth_indep with (d' := weight ws aside 0) by (rewrite map_length, seq_length; exact Hi).
  rewrite map_nth, seq_nth by exact Hi. reflexivity.
Qed.
Lemma current_before : forall ws aside i, (i <= length ws)%nat -> sum (firstn i (current ws aside)) = before ws aside i.
Proof.
  intros ws aside i Hi. induction i as [|i IH]; [reflexivity|].
  cbn [before]. rewrite <- IH by lia.
  assert (E : firstn (S i) (current ws aside) = firstn i (current ws aside) ++ [nth i (current ws aside) 0]).
  { assert (L : (i < length (current ws aside))%nat) by (rewrite current_length; lia). revert L.
    generalize (current ws aside) as l. clear. induction i as [|i IH]; intros [|x l] L; cbn in *; try lia; [reflexivity|].
    f_equal. apply IH. lia. }
  rewrite E, sum_app, current_nth by lia. unfold sum. cbn. lia.
Qed.
Lemma current_sum : forall ws aside, sum (current ws aside) = before ws aside (length ws).
Proof. intros. rewrite <- current_before by lia. rewrite firstn_all2 by (rewrite current_length; lia). reflexivity. Qed.
Lemma set_current : forall ws aside i, (i < length ws)%nat ->
  set_weight (current ws aside) i 0 = current ws (aside ++ [i]).
Proof.
  intros ws aside i Hi. apply nth_ext with (d := 0) (d' := 0).
  - rewrite current_length. rewrite <- (current_length ws aside). generalize (current ws aside) as l. clear.
    intros l. revert i. induction l as [|x l IH]; intros [|i]; cbn; auto.
  - intros j Hj. assert (Hj' : (j < length ws)%nat).
    { rewrite <- (current_length ws aside). clear Hi. revert i j Hj. generalize (current ws aside) as l. clear.
      induction l as [|x l IH]; intros [|i] [|j] Hj; cbn in *; try lia. specialize (IH i j). lia. }
    assert (S : forall l i j, (j < length l)%nat -> nth j (set_weight l i 0) 0 = if (j =? i)%nat then 0 else nth j l 0).
    { clear. induction l as [|x l IH]; intros [|i] [|j] Hj; cbn [set_weight nth length] in *; try lia; auto.
      rewrite IH by lia. reflexivity. }
    rewrite S by (rewrite current_length; exact Hj'). rewrite !current_nth by exact Hj'.
    unfold weight. destruct (Nat.eqb_spec j i) as [->|N].
    + destruct (in_dec _ i (aside ++ [i])) as [_|C]; [reflexivity|]. destruct C. apply in_app_iff. right. left. reflexivity.
    + destruct (in_dec _ j aside) as [I|I]; destruct (in_dec _ j (aside ++ [i])) as [J|J]; try reflexivity.
      * destruct J. apply in_app_iff. auto.
      * apply in_app_iff in J as [J|[J|[]]]; congruence.
Qed.
Lemma falls : forall ws aside draw, 0 < before ws aside (length ws) ->
  let i := sample (current ws aside) (draw mod sum (current ws aside)) in
  (i < length ws)%nat /\ falls_to ws aside draw i /\ ~ In i aside.
Proof.
  intros ws aside draw H i.
  assert (L : draw mod sum (current ws aside) < sum (current ws aside)) by (apply N.mod_lt; rewrite current_sum; lia).
  destruct (sample_ok _ _ L) as (H1 & H2 & H3). fold i in H1, H2, H3.
  rewrite current_length in H1. rewrite current_before in H2, H3 by lia. rewrite current_nth in H3 by exact H1.
  rewrite current_sum in H2, H3.
  split; [exact H1|]. split; [split; assumption|]. intros C. unfold weight in H3.
  destruct (in_dec _ i aside) as [_|N]; [lia|contradiction].
Qed.
Lemma all_aside : forall ws aside, NoDup aside -> (forall i, In i aside -> (i < length ws)%nat) -> (length ws <= length aside)%nat ->
  before ws aside (length ws) = 0.
Proof.
  intros ws aside ND Hin Hl.
  assert (A : forall i, (i < length ws)%nat -> In i aside).
  { intros i Hi. apply (NoDup_length_incl (l := aside) (l' := seq 0 (length ws))) in ND.
    - apply ND. apply in_seq. lia.
    - rewrite seq_length. exact Hl.
    - intros x Hx. apply in_seq. specialize (Hin _ Hx). lia. }
  assert (Z : forall i, (i <= length ws)%nat -> before ws aside i = 0).
  { induction i as [|i IH]; intros Hi; [reflexivity|]. cbn [before]. rewrite IH by lia. unfold weight.
    destruct (in_dec _ i aside) as [_|N]; [reflexivity|]. destruct N. apply A. lia. }
  apply Z. lia.
Qed.
Lemma zero_aside : forall ws aside, before ws aside (length ws) = 0 -> forall j, weight ws [] j <> 0 -> In j aside.
Proof.
  intros ws aside H j Hj. destruct (in_dec Nat.eq_dec j aside) as [I|I]; [exact I|exfalso].
  assert (Hl : (j < length ws)%nat).
  { destruct (le_lt_dec (length ws) j) as [C|C]; [|exact C]. exfalso. apply Hj. unfold weight.
    destruct (in_dec _ j []) as [[]|_]. apply nth_overflow. exact C. }
  assert (M : forall i k, (i <= k)%nat -> before ws aside i <= before ws aside k).
  { intros i k Hk. induction Hk; [lia|]. cbn [before]. lia. }
  specialize (M (S j) (length ws)). cbn [before] in M.
  assert (W : weight ws aside j = weight ws [] j).
  { unfold weight. destruct (in_dec _ j aside) as [|_]; [contradiction|]. destruct (in_dec _ j []) as [[]|_]. reflexivity. }
  lia.
Qed.
Lemma random_from : forall ws rs draws fuel aside,
  0 < before ws aside (length ws) -> NoDup aside -> (forall i, In i aside -> (i < length ws)%nat) ->
  (length ws <= length aside + fuel)%nat ->
  exists l x, poll_random fuel (current ws aside) rs draws (length aside) = (l, x) /\
  exists order, (forall a j b, order = a ++ j :: b -> (j < length ws)%nat /\ falls_to ws (aside ++ a) (draws (length aside + length a)%nat) j) /\
  ((exists order' i, order = order' ++ [i] /\ (forall j, In j order' -> rs j = Is_pending) /\ rs i = Is_ready /\
      l = map (fun j => Polled j Is_pending) order' ++ [Polled i Is_ready; Answered Is_ready] /\ x = Some i) \/
   (exists order' i, order = order' ++ [i] /\ (forall j, In j order' -> rs j = Is_pending) /\ rs i = Is_failed /\
      l = map (fun j => Polled j Is_pending) order' ++ [Polled i Is_failed; Answered Is_failed] /\ x = None) \/
   ((forall j, In j order -> rs j = Is_pending) /\ (forall j, weight ws [] j <> 0 -> In j (aside ++ order)) /\
      l = map (fun j => Polled j Is_pending) order ++ [Answered Is_pending] /\ x = None)).
Proof.
  intros ws rs draws fuel. induction fuel as [|fuel IH]; intros aside Hs ND Hin Hf.
  - exfalso. rewrite all_aside in Hs; auto; lia.
  - cbn [poll_random]. destruct (falls ws aside (draws (length aside)) Hs) as (Hi & Hfall & Hni). cbv zeta in Hi, Hfall, Hni.
    set (i := sample _ _) in *. clearbody i.
    assert (One : forall a j b, [i] = a ++ j :: b -> (j < length ws)%nat /\ falls_to ws (aside ++ a) (draws (length aside + length a)%nat) j).
    { intros [|? [|]] j b E; try discriminate. injection E as <- _. rewrite app_nil_r. cbn [length]. rewrite Nat.add_0_r. auto. }
    destruct (rs i) eqn:R.
    + do 2 eexists. split; [reflexivity|]. exists [i]. split; [exact One|]. left. exists [], i. repeat split; auto. intros j [].
    + unfold disable_backend. rewrite set_current by exact Hi. rewrite current_sum.
      assert (ND' : NoDup (aside ++ [i])).
      { clear -ND Hni. induction ND as [|x l Hx ND IH]; cbn; [constructor; [intros []|constructor]|].
        constructor; [|apply IH; intros C; apply Hni; right; exact C].
        intros C. apply in_app_iff in C as [C|[C|[]]]; [contradiction|]. subst. apply Hni. left. reflexivity. }
      destruct (_ =? 0) eqn:Z.
      * do 2 eexists. split; [reflexivity|]. exists [i]. split; [exact One|]. right. right.
        split; [intros j [<-|[]]; exact R|]. split; [|auto]. apply zero_aside. apply N.eqb_eq. exact Z.
      * assert (Hin' : forall j, In j (aside ++ [i]) -> (j < length ws)%nat).
        { intros j Hj. apply in_app_iff in Hj as [Hj|[<-|[]]]; auto. }
        destruct (IH (aside ++ [i])) as (l & x & E & order & Ho & C); auto; [lia|rewrite app_length; cbn; lia|].
        rewrite app_length in E. cbn [length] in E. rewrite Nat.add_1_r in E. rewrite E.
        do 2 eexists. split; [reflexivity|]. exists (i :: order). split.
        { intros [|y a] j b Eq; cbn [app] in Eq; injection Eq as <- Eq.
          - rewrite app_nil_r. cbn [length]. rewrite Nat.add_0_r. auto.
          - destruct (Ho _ _ _ Eq) as [H1 H2]. split; [exact H1|]. rewrite <- app_assoc in H2. cbn [app] in H2.
            rewrite app_length in H2. cbn [length] in *. replace (length aside + S (length a))%nat with (length aside + 1 + length a)%nat by lia. exact H2. }
        destruct C as [(o & k & -> & H1 & H2 & -> & ->)|[(o & k & -> & H1 & H2 & -> & ->)|(H1 & H2 & -> & ->)]].
        -- left. exists (i :: o), k. repeat split; auto. intros j [<-|Hj]; auto.
        -- right. left. exists (i :: o), k. repeat split; auto. intros j [<-|Hj]; auto.
        -- right. right. repeat split; auto.
           ++ intros j [<-|Hj]; auto.
           ++ intros j Hj. specialize (H2 j Hj). rewrite <- app_assoc in H2. exact H2.
    + do 2 eexists. split; [reflexivity|]. exists [i]. split; [exact One|]. right. left. exists [], i. repeat split; auto. intros j [].
Qed.
Theorem random_ok : forall ws rs draws, 0 < sum ws ->
  let (l, x) := poll_random (length ws) ws rs draws 0 in random_poll ws rs draws l x.
Proof.
  intros ws rs draws H.
  destruct (random_from ws rs draws (length ws) []) as (l & x & E & order & Ho & C).
  - rewrite <- current_sum, current_nil. exact H.
  - constructor.
  - intros i [].
  - cbn. lia.
  - rewrite current_nil in E. cbn [length] in E. rewrite E.
    destruct C as [(o & k & -> & H1 & H2 & -> & ->)|[(o & k & -> & H1 & H2 & -> & ->)|(H1 & H2 & -> & ->)]];
      [apply r_ready|apply r_failed|apply r_pending]; auto; intros a j b Eq; destruct (Ho _ _ _ Eq) as [_ Q]; exact Q.
Qed.
(** Nothing of weight zero, nothing twice *)
Lemma falls_weight : forall ws a draw j, falls_to ws a draw j -> ~ In j a /\ (j < length ws)%nat /\ nth j ws 0 <> 0.
Proof.
  intros ws a draw j [H0 H]. unfold weight in H. destruct (in_dec _ j a) as [|N]; [|].
  - exfalso. lia.
  - split; [exact N|]. assert (nth j ws 0 <> 0) by lia.
    split; [|assumption]. destruct (le_lt_dec (length ws) j) as [C|C]; [|exact C]. rewrite nth_overflow in H1 by exact C. lia.
Qed.

(** ** Services *)
Lemma reserved_snoc : forall i l e, reserved i (l ++ [e]) <-> e = Polled i Is_ready \/ (e = Answered Is_ready /\ reserved i l).
Proof.
  intros i l e. split.
  - intros (a & b & E & H). destruct b as [|x b _] using rev_ind.
    + apply app_inj_tail in E as [_ <-]. auto.
    + right. replace (a ++ Polled i Is_ready :: b ++ [x]) with ((a ++ Polled i Is_ready :: b) ++ [x]) in E by (rewrite <- app_assoc; reflexivity).
      apply app_inj_tail in E as [-> ->]. split; [apply H; apply in_app_iff; right; left; reflexivity|].
      exists a, b. split; [reflexivity|]. intros y Hy. apply H. apply in_app_iff. auto.
  - intros [->|[-> (a & b & -> & H)]].
    + exists l, []. split; [reflexivity|]. intros y [].
    + exists a, (b ++ [Answered Is_ready]). split; [rewrite <- app_assoc; reflexivity|].
      intros y Hy. apply in_app_iff in Hy as [Hy|[<-|[]]]; auto.
Qed.
Section Service.
  Variable w_of : nat -> option N.
  Definition log_ok (l : list seen) : Prop := forall a e b, l = a ++ e :: b -> entry_ok w_of a e.
  Lemma log_snoc : forall l e, log_ok l -> entry_ok w_of l e -> log_ok (l ++ [e]).
  Proof.
    intros l e H He a x b E. destruct b as [|y b _] using rev_ind.
    - apply app_inj_tail in E as [<- <-]. exact He.
    - replace (a ++ x :: b ++ [y]) with ((a ++ x :: b) ++ [y]) in E by (rewrite <- app_assoc; reflexivity).
      apply app_inj_tail in E as [-> _]. exact (H a x b eq_refl).
  Qed.
  Definition none_reserved (l : list seen) : Prop := ~ exists i, reserved i l.
  Lemma pend_ok : forall order l, log_ok l -> none_reserved l ->
    (forall i, In i order -> exists w, w_of i = Some w /\ w <> 0) ->
    log_ok (l ++ map (fun j => Polled j Is_pending) order) /\ none_reserved (l ++ map (fun j => Polled j Is_pending) order).
  Proof.
    induction order as [|x order IH] using rev_ind; intros l Hl Hn Hw; [rewrite app_nil_r; auto|].
    destruct (IH l Hl Hn) as [H1 H2]; [intros i Hi; apply Hw; apply in_app_iff; auto|].
    rewrite map_app, app_assoc. cbn [map]. split.
    - apply log_snoc; [exact H1|]. cbn. apply Hw. apply in_app_iff. right. left. reflexivity.
    - intros (i & H). apply reserved_snoc in H as [H|[H _]]; discriminate.
  Qed.
  Definition ready_ok (l : list seen) (x : option nat) : Prop :=
    match x with Some i => reserved i l | None => none_reserved l end.
  Lemma ready_chunk : forall order i l, log_ok l -> none_reserved l ->
    (forall j, In j (order ++ [i]) -> exists w, w_of j = Some w /\ w <> 0) ->
    let l' := l ++ map (fun j => Polled j Is_pending) order ++ [Polled i Is_ready; Answered Is_ready] in
    log_ok l' /\ ready_ok l' (Some i).
  Proof.
    intros order i l Hl Hn Hw. cbv zeta.
    destruct (pend_ok order l Hl Hn) as [H1 H2]; [intros j Hj; apply Hw; apply in_app_iff; auto|].
    rewrite app_assoc. set (m := l ++ _) in *. clearbody m.
    replace (m ++ [Polled i Is_ready; Answered Is_ready]) with ((m ++ [Polled i Is_ready]) ++ [Answered Is_ready]) by (rewrite <- app_assoc; reflexivity).
    assert (R : reserved i (m ++ [Polled i Is_ready])) by (apply reserved_snoc; auto).
    split; [|apply reserved_snoc; auto].
    apply log_snoc; [|cbn; eauto]. apply log_snoc; [exact H1|]. cbn. apply Hw. apply in_app_iff. right. left. reflexivity.
  Qed.
  Lemma failed_chunk : forall order i l, log_ok l -> none_reserved l ->
    (forall j, In j (order ++ [i]) -> exists w, w_of j = Some w /\ w <> 0) ->
    let l' := l ++ map (fun j => Polled j Is_pending) order ++ [Polled i Is_failed; Answered Is_failed] in
    log_ok l' /\ ready_ok l' None.
  Proof.
    intros order i l Hl Hn Hw. cbv zeta.
    destruct (pend_ok order l Hl Hn) as [H1 H2]; [intros j Hj; apply Hw; apply in_app_iff; auto|].
    rewrite app_assoc. set (m := l ++ _) in *. clearbody m.
    replace (m ++ [Polled i Is_failed; Answered Is_failed]) with ((m ++ [Polled i Is_failed]) ++ [Answered Is_failed]) by (rewrite <- app_assoc; reflexivity).
    assert (R : none_reserved (m ++ [Polled i Is_failed])) by (intros (j & H); apply reserved_snoc in H as [H|[H _]]; discriminate).
    split; [|intros (j & H); apply reserved_snoc in H as [H|[H _]]; discriminate].
    apply log_snoc; [|cbn; exact R]. apply log_snoc; [exact H1|]. cbn. apply Hw. apply in_app_iff. right. left. reflexivity.
  Qed.
  Lemma pending_chunk : forall order l, log_ok l -> none_reserved l ->
    (forall j, In j order -> exists w, w_of j = Some w /\ w <> 0) ->
    let l' := l ++ map (fun j => Polled j Is_pending) order ++ [Answered Is_pending] in
    log_ok l' /\ ready_ok l' None.
  Proof.
    intros order l Hl Hn Hw. cbv zeta. destruct (pend_ok order l Hl Hn) as [H1 H2]; [exact Hw|].
    rewrite app_assoc. set (m := l ++ _) in *. clearbody m. split.
    - apply log_snoc; [exact H1|]. cbn. exact H2.
    - intros (j & H). apply reserved_snoc in H as [H|[H _]]; discriminate.
  Qed.
End Service.
Definition s_inv (d : distribution unit) (s : service) : Prop :=
  d_selection s = d /\ log_ok (weight_of d) (d_log s) /\ ready_ok (d_log s) (d_ready s).
Lemma weights_forget : forall K (d : distribution K) i, weight_of (forget d) i = weight_of d i.
Proof.
  intros K [|keys|keys] i; cbn; [reflexivity|rewrite map_length; reflexivity|].
  rewrite nth_error_map. destruct (nth_error keys i); reflexivity.
Qed.
Lemma valid_forget : forall K (d : distribution K), valid d -> valid (forget d).
Proof. intros K [|keys|keys] H; cbn in *; auto. rewrite map_map. cbn. exact H. Qed.
Lemma order_weights : forall (keys : list (unit * N)) order (draws : nat -> N),
  (forall a j b, order = a ++ j :: b -> falls_to (map snd keys) a (draws (length a)) j) ->
  forall j, In j order -> exists w, weight_of (Random_available keys) j = Some w /\ w <> 0.
Proof.
  intros keys order draws H j Hj. apply in_split in Hj as (a & b & E). specialize (H a j b E).
  apply falls_weight in H as (_ & H1 & H2). cbn. rewrite map_length in H1.
  destruct (nth_error keys j) as [[u w]|] eqn:E'; [|apply nth_error_None in E'; lia].
  exists w. split; [reflexivity|]. intros ->. apply H2.
  erewrite nth_error_nth; [|rewrite nth_error_map, E'; reflexivity]. reflexivity.
Qed.
Lemma poll_inv : forall d s rs draws, valid d -> s_inv d s -> s_inv d (poll_ready s rs draws).
Proof.
  intros d s rs draws Hv (E & Hl & Hr). unfold poll_ready. rewrite E.
  destruct d as [|keys|keys].
  - split; [first [exact E|reflexivity]|]. cbn [d_log d_ready]. destruct (d_ready s) as [i|] eqn:R.
    + exfalso. cbn in Hr. destruct Hr as (a & b & E' & _). specialize (Hl a (Polled i Is_ready) b E'). cbn in Hl.
      destruct Hl as (w & Hw & _). discriminate.
    + destruct (pending_chunk (weight_of Empty) [] _ Hl Hr) as [H1 H2]; [intros j []|]. auto.
  - destruct (d_ready s) as [i|] eqn:R.
    + split; [first [exact E|reflexivity]|]. cbn [d_log d_ready]. cbn in Hr. split; [apply log_snoc; [exact Hl|]; cbn; eauto|]. apply reserved_snoc. auto.
    + pose proof (first_ok keys rs) as F. destruct (poll_first keys rs 0) as [l x]. split; [first [exact E|reflexivity]|]. cbn [d_log d_ready].
      assert (W : forall j, (j < length keys)%nat -> exists w, weight_of (First_available keys) j = Some w /\ w <> 0).
      { intros j Hj. exists 1. unfold weight_of. apply Nat.ltb_lt in Hj. rewrite Hj. split; [reflexivity|lia]. }
      destruct F as [i Hi Hp Hri|i Hi Hp Hri|Hp]; [apply ready_chunk|apply failed_chunk|apply pending_chunk]; auto; intros j Hj; apply W.
      * apply in_app_iff in Hj as [Hj|[<-|[]]]; [apply in_seq in Hj; lia|exact Hi].
      * apply in_app_iff in Hj as [Hj|[<-|[]]]; [apply in_seq in Hj; lia|exact Hi].
      * apply in_seq in Hj. lia.
  - destruct (d_ready s) as [i|] eqn:R.
    + split; [first [exact E|reflexivity]|]. cbn [d_log d_ready]. cbn in Hr. split; [apply log_snoc; [exact Hl|]; cbn; eauto|]. apply reserved_snoc. auto.
    + cbn [valid] in Hv. destruct Hv as [V1 V2].
      assert (WI : weighted_index (map snd keys) = inl (map snd keys)).
      { unfold weighted_index. destruct (map snd keys) eqn:M; [cbn in V1; lia|]. rewrite <- M in *.
        replace (u32_max <? sum (map snd keys)) with false by (symmetry; apply N.ltb_ge; exact V2).
        replace (sum (map snd keys) =? 0) with false by (symmetry; apply N.eqb_neq; lia). reflexivity. }
      rewrite WI. pose proof (random_ok (map snd keys) rs draws V1) as F.
      destruct (poll_random _ _ rs draws 0) as [l x]. split; [first [exact E|reflexivity]|]. cbn [d_log d_ready].
      destruct F as [order i Ho Hp Hri|order i Ho Hp Hri|order Ho Hp Hz]; [apply ready_chunk|apply failed_chunk|apply pending_chunk]; auto;
        apply (order_weights keys _ draws); exact Ho.
Qed.
Lemma call_inv : forall d s, s_inv d s -> s_inv d (call s).
Proof.
  intros d s (E & Hl & Hr). unfold call. rewrite E.
  assert (N : none_reserved (d_log s) -> s_inv d (Service (d_selection s) None (d_log s ++ [Panicked]))).
  { intros Hn. split; [first [exact E|reflexivity]|]. cbn [d_log d_ready]. split; [apply log_snoc; [exact Hl|exact Hn]|].
    intros (j & H). apply reserved_snoc in H as [H|[H _]]; discriminate. }
  assert (S : forall i, reserved i (d_log s) -> s_inv d (Service (d_selection s) None (d_log s ++ [Sent i]))).
  { intros i Hi. split; [first [exact E|reflexivity]|]. cbn [d_log d_ready]. split; [apply log_snoc; [exact Hl|exact Hi]|].
    intros (j & H). apply reserved_snoc in H as [H|[H _]]; discriminate. }
  rewrite E in N, S. destruct d as [|keys|keys]; destruct (d_ready s) as [i|] eqn:R; auto.
  exfalso. cbn in Hr. destruct Hr as (a & b & E' & _). specialize (Hl a (Polled i Is_ready) b E'). cbn in Hl.
  destruct Hl as (w & Hw & _). discriminate.
Qed.
Lemma run_inv : forall K (d : distribution K) es, valid d -> s_inv (forget d) (run d es).
Proof.
  intros K d es Hv. induction es as [|e es IH] using rev_ind.
  - split; [reflexivity|]. split; [intros [|] e b H; discriminate|]. intros (i & [|] & b & H & _); discriminate.
  - unfold run. rewrite fold_left_app. fold (run d es). cbn [fold_left handle]. destruct e as [rs draws|].
    + apply poll_inv; [apply valid_forget; exact Hv|exact IH].
    + apply call_inv. exact IH.
Qed.
Theorem service_ok : forall K (d : distribution K) es a e b, valid d -> d_log (run d es) = a ++ e :: b -> entry_ok (weight_of d) a e.
Proof.
  intros K d es a e b Hv E. destruct (run_inv K d es Hv) as (_ & H & _). specialize (H _ _ _ E).
  destruct e as [i r|[]|i| |]; cbn in *; auto. rewrite weights_forget in H. exact H.
Qed.
Lemma reserved_fun : forall i j l, reserved i l -> reserved j l -> i = j.
Proof.
  intros i j l. induction l as [|e l IH] using rev_ind; intros Hi Hj.
  - destruct Hi as ([|] & b & H & _); discriminate.
  - apply reserved_snoc in Hi as [->|[-> Hi]]; apply reserved_snoc in Hj as [Hj|[Hj Hj']]; try congruence. auto.
Qed.
Lemma run_snoc : forall K (d : distribution K) es e, run d (es ++ [e]) = handle (run d es) e.
Proof. intros. unfold run. rewrite fold_left_app. reflexivity. Qed.
(** One poll, at any time when no backend is reserved *)
Theorem poll_first_now : forall K (keys : list K) es rs draws,
  ~ (exists i, reserved i (d_log (run (First_available keys) es))) ->
  exists l x, first_poll (length keys) rs l x /\
    d_log (run (First_available keys) (es ++ [Poll rs draws])) = d_log (run (First_available keys) es) ++ l.
Proof.
  intros K keys es rs draws Hn. destruct (run_inv K (First_available keys) es I) as (E & _ & Hr).
  rewrite run_snoc. cbn [handle].
  set (s := run _ es) in *. clearbody s. unfold poll_ready. rewrite E. cbn [forget].
  destruct (d_ready s) as [i|]; [exfalso; apply Hn; exists i; exact Hr|].
  pose proof (first_ok (map (fun _ : K => tt) keys) rs) as F. destruct (poll_first _ rs 0) as [l x].
  rewrite map_length in F. exists l, x. split; [exact F|reflexivity].
Qed.
Theorem poll_random_now : forall K (keys : list (K * N)) es rs draws, valid (Random_available keys) ->
  ~ (exists i, reserved i (d_log (run (Random_available keys) es))) ->
  exists l x, random_poll (map snd keys) rs draws l x /\
    d_log (run (Random_available keys) (es ++ [Poll rs draws])) = d_log (run (Random_available keys) es) ++ l.
Proof.
  intros K keys es rs draws Hv Hn. destruct (run_inv K (Random_available keys) es Hv) as (E & _ & Hr).
  rewrite run_snoc. cbn [handle].
  set (s := run _ es) in *. clearbody s. unfold poll_ready. rewrite E. cbn [forget].
  destruct (d_ready s) as [i|]; [exfalso; apply Hn; exists i; exact Hr|].
  rewrite map_map. cbn [snd]. destruct Hv as [V1 V2].
  assert (WI : weighted_index (map snd keys) = inl (map snd keys)).
  { unfold weighted_index. destruct (map snd keys) eqn:M; [cbn in V1; lia|]. rewrite <- M in *.
    replace (u32_max <? sum (map snd keys)) with false by (symmetry; apply N.ltb_ge; exact V2).
    replace (sum (map snd keys) =? 0) with false by (symmetry; apply N.eqb_neq; lia). reflexivity. }
  change (map (fun x : K * N => snd x) keys) with (map snd keys). rewrite WI.
  pose proof (random_ok (map snd keys) rs draws V1) as F. destruct (poll_random _ _ rs draws 0) as [l x].
  exists l, x. split; [exact F|reflexivity].
Qed.
(** A request goes to the reserved backend. *)
Theorem call_now : forall K (d : distribution K) es i, valid d -> reserved i (d_log (run d es)) ->
  d_log (run d (es ++ [Call])) = d_log (run d es) ++ [Sent i].
Proof.
  intros K d es i Hv Hi. destruct (run_inv K d es Hv) as (E & Hl & Hr).
  rewrite run_snoc. cbn [handle].
  set (s := run d es) in *. clearbody s. unfold call.
  destruct (d_ready s) as [j|]; [|exfalso; apply Hr; exists i; exact Hi].
  assert (j = i) by (eapply reserved_fun; eauto). subst j.
  destruct (d_selection s) eqn:D; [|reflexivity..]. exfalso.
  destruct Hi as (a & b & E' & _). specialize (Hl a _ b E'). rewrite <- E in Hl. cbn in Hl. destruct Hl as (w & Hw & _). discriminate.
Qed.

(** ** Making distributions *)
Theorem random_valid : forall K (keys : list (K * N)) d, random_available keys = inl d -> valid d.
Proof.
  intros K keys d. unfold random_available. destruct (length keys <? 2)%nat; [intros H; injection H as <-; exact I|].
  unfold weighted_index. destruct (map snd keys) eqn:M; [discriminate|]. rewrite <- M.
  destruct (u32_max <? _) eqn:O; [discriminate|]. destruct (sum (map snd keys) =? 0) eqn:Z; [discriminate|].
  intros H. injection H as <-. cbn [valid]. lia.
Qed.
Theorem random_error : forall K (keys : list (K * N)),
  random_route keys = None <-> (2 <= length keys)%nat /\ (sum (map snd keys) = 0 \/ u32_max < sum (map snd keys)).
Proof.
  intros K keys. unfold random_route, random_available. destruct (length keys <? 2)%nat eqn:L.
  - split; [discriminate|lia].
  - unfold weighted_index. destruct (map snd keys) eqn:M.
    + destruct keys; [cbn in L; lia|discriminate].
    + rewrite <- M. destruct (u32_max <? sum (map snd keys)) eqn:O; [split; [intros _; split; lia|reflexivity]|].
      destruct (sum (map snd keys) =? 0) eqn:Z; [split; [intros _; split; lia|reflexivity]|]. split; [discriminate|lia].
Qed.

(** ** The caches *)
Section Cache.
  Variable K : Type.
  Variable eqb : K -> K -> bool.
  Hypothesis eqb_eq : forall a b, eqb a b = true <-> a = b.
  Notation lookup := (lookup K eqb).
  Notation new_service := (new_service K eqb).
  Lemma eqb_refl : forall a, eqb a a = true.
  Proof. intros. apply eqb_eq. reflexivity. Qed.
  Lemma lookup_some : forall c k n, NoDup (map fst c) -> lookup c k = Some n <-> In (k, n) c.
  Proof.
    intros c k n. unfold DistributeModel.lookup. induction c as [|[x m] c IH]; intros ND; cbn [find fst]; [split; [discriminate|intros []]|].
    inversion ND as [|? ? Hx ND']; subst. destruct (eqb x k) eqn:E.
    - apply eqb_eq in E. subst x. cbn. split; [intros H; left; congruence|].
      intros [H|H]; [congruence|]. exfalso. apply Hx. apply in_map_iff. exists (k, n). auto.
    - rewrite IH by exact ND'. split; [right; auto|]. intros [H|H]; [|exact H]. injection H as -> ->. rewrite eqb_refl in E. discriminate.
  Qed.
  Lemma lookup_none : forall c k, lookup c k = None <-> ~ In k (map fst c).
  Proof.
    intros c k. unfold DistributeModel.lookup. split.
    - destruct (find _ c) eqn:E; [discriminate|]. intros _ H. apply in_map_iff in H as ([x m] & <- & H).
      pose proof (find_none _ _ E _ H) as Q. cbn in Q. rewrite eqb_refl in Q. discriminate.
    - intros H. destruct (find _ c) as [[x m]|] eqn:E; [|reflexivity]. exfalso. apply find_some in E as [E1 E2].
      apply eqb_eq in E2. cbn in E2. subst. apply H. apply in_map_iff. exists (k, m). auto.
  Qed.
  Lemma contains_iff : forall l k, contains K eqb l k = true <-> In k l.
  Proof.
    intros l k. unfold contains. rewrite existsb_exists. split.
    - intros (x & H & E). apply eqb_eq in E. subst. exact H.
    - intros H. exists k. split; [exact H|apply eqb_refl].
  Qed.
  Lemma NoDup_filter_map : forall (f : K * nat -> bool) c, NoDup (map fst c) -> NoDup (map fst (filter f c)).
  Proof.
    intros f c. induction c as [|e c IH]; intros ND; [constructor|]. inversion ND as [|? ? Hx ND']; subst. cbn.
    destruct (f e); [|auto]. cbn. constructor; [|auto]. intros H. apply Hx. apply in_map_iff in H as (y & E & H).
    apply filter_In in H as [H _]. apply in_map_iff. eauto.
  Qed.
  Lemma add_ok : forall backends c, NoDup (map fst (c_services c)) ->
    let c' := add_missing K eqb backends c in
    NoDup (map fst (c_services c')) /\
    (forall k n, In (k, n) (c_services c) -> In (k, n) (c_services c')) /\
    (forall k, In k (map fst (c_services c')) <-> In k (map fst (c_services c)) \/ In k backends) /\
    ((c_built c <= c_built c')%nat) /\
    (forall k n, In (k, n) (c_services c') -> In (k, n) (c_services c) \/ (c_built c <= n < c_built c')%nat).
  Proof.
    induction backends as [|b backends IH]; intros c ND; cbn [add_missing].
    - repeat split; auto. intros [H|[]]; exact H.
    - set (c1 := match lookup (c_services c) b with Some _ => c | None => _ end).
      assert (S : NoDup (map fst (c_services c1)) /\ (forall k n, In (k, n) (c_services c) -> In (k, n) (c_services c1)) /\
        (forall k, In k (map fst (c_services c1)) <-> In k (map fst (c_services c)) \/ k = b) /\ (c_built c <= c_built c1)%nat /\
        (forall k n, In (k, n) (c_services c1) -> In (k, n) (c_services c) \/ (c_built c <= n < c_built c1)%nat)).
      { unfold c1. destruct (lookup (c_services c) b) as [m|] eqn:L.
        - apply lookup_some in L; [|exact ND]. repeat split; auto. intros [H| ->]; [exact H|]. apply in_map_iff. exists (b, m). auto.
        - apply lookup_none in L. cbn [c_services c_built map fst]. repeat split.
          + constructor; assumption.
          + intros k n H. right. exact H.
          + intros [<-|H]; auto.
          + intros [H| ->]; [right|left]; auto.
          + lia.
          + intros k n [H|H]; [injection H as <- <-; right; lia|left; exact H]. }
      clearbody c1. destruct S as (S1 & S2 & S3 & S4 & S5). destruct (IH c1 S1) as (H1 & H2 & H3 & H4 & H5).
      split; [exact H1|]. split; [auto|]. split; [|split; [lia|]].
      + intros k. rewrite H3, S3. cbn [In]. intuition congruence.
      + intros k n H. destruct (H5 k n H) as [Q|Q]; [|right; lia]. destruct (S5 k n Q); [auto|right; lia].
  Qed.
  Theorem cache_ok : forall c backends, NoDup (map fst (c_services c)) -> NoDup backends ->
    (forall k n, In (k, n) (c_services c) -> (n < c_built c)%nat) ->
    let c' := new_service c backends in
    exactly K (c_services c') backends /\
    (forall k n, In k backends -> In (k, n) (c_services c) -> In (k, n) (c_services c')) /\
    (forall k n, In (k, n) (c_services c') -> In (k, n) (c_services c) \/ (c_built c <= n)%nat) /\
    (forall k n, In (k, n) (c_services c') -> (n < c_built c')%nat) /\
    ((c_built c <= c_built c')%nat).
  Proof.
    intros c backends ND NB Hb. cbv zeta. unfold DistributeModel.new_service.
    set (f := filter _ (c_services c)).
    assert (NF : NoDup (map fst f)) by (apply NoDup_filter_map; exact ND).
    assert (F : forall k n, In (k, n) f <-> In k backends /\ In (k, n) (c_services c)).
    { intros k n. unfold f. rewrite filter_In. cbn [fst]. rewrite contains_iff. tauto. }
    assert (I : incl (map fst f) backends).
    { intros k Hk. apply in_map_iff in Hk as ([x n] & <- & H). apply F in H. tauto. }
    assert (X : forall l : list (K * nat), NoDup (map fst l) -> (forall k, In k (map fst l) <-> In k backends) -> exactly K l backends).
    { intros l Nl Hl. split; [exact Nl|]. intros k. rewrite <- Hl. unfold holds. rewrite in_map_iff. split.
      - intros ([x n] & <- & H). eauto.
      - intros (n & H). exists (k, n). auto. }
    cbn [c_services]. destruct (length f <? length backends)%nat eqn:L.
    - destruct (add_ok backends (Cache f (c_built c)) NF) as (H1 & H2 & H3 & H4 & H5). cbn [c_services c_built] in *.
      split; [apply X; [exact H1|]; intros k; rewrite H3; split; [intros [H|H]; auto|auto]|].
      split; [intros k n Hk H; apply H2; apply F; auto|].
      split; [intros k n H; destruct (H5 k n H) as [Q|Q]; [left; apply F in Q; tauto|right; lia]|].
      split; [|lia]. intros k n H. destruct (H5 k n H) as [Q|Q]; [|lia]. apply F in Q as [_ Q]. specialize (Hb _ _ Q). lia.
    - cbn [c_services c_built]. split; [apply X; [exact NF|]; intros k; split; [apply I|]|].
      { apply (NoDup_length_incl (l := map fst f) (l' := backends)); [exact NF|rewrite map_length; apply Nat.ltb_ge; exact L|exact I]. }
      split; [intros k n Hk H; apply F; auto|]. split; [intros k n H; apply F in H; tauto|]. split; [|lia].
      intros k n H. apply F in H as [_ H]. eauto.
  Qed.
  Notation update_all := (update_all K eqb).
  Lemma update_inv : forall us, (forall u, In u us -> NoDup u) ->
    NoDup (map fst (c_services (update_all us))) /\ (forall k n, In (k, n) (c_services (update_all us)) -> (n < c_built (update_all us))%nat).
  Proof.
    induction us as [|u us IH] using rev_ind; intros H.
    - split; [constructor|intros k n []].
    - unfold DistributeModel.update_all. rewrite fold_left_app. change (fold_left new_service us (Cache [] 0)) with (update_all us). cbn [fold_left].
      destruct IH as [I1 I2]; [intros v Hv; apply H; apply in_app_iff; auto|].
      destruct (cache_ok (update_all us) u) as ((C1 & _) & _ & _ & C2 & _); auto.
      apply H. apply in_app_iff. right. left. reflexivity.
  Qed.
  Theorem update_exactly : forall us u, (forall v, In v (us ++ [u]) -> NoDup v) -> exactly K (c_services (update_all (us ++ [u]))) u.
  Proof.
    intros us u H. unfold DistributeModel.update_all. rewrite fold_left_app. change (fold_left new_service us (Cache [] 0)) with (update_all us). cbn [fold_left].
    destruct (update_inv us) as [I1 I2]; [intros v Hv; apply H; apply in_app_iff; auto|].
    apply cache_ok; auto. apply H. apply in_app_iff. right. left. reflexivity.
  Qed.
  (** A service stays as long as its backend is listed, and is not used again later. *)
  Theorem update_kept : forall us vs k n, (forall v, In v (us ++ vs) -> NoDup v) -> In (k, n) (c_services (update_all us)) ->
    (forall v, In v vs -> In k v) -> In (k, n) (c_services (update_all (us ++ vs))).
  Proof.
    intros us vs k n. induction vs as [|v vs IH] using rev_ind; intros H Hn Hk; [rewrite app_nil_r; exact Hn|].
    rewrite app_assoc. unfold DistributeModel.update_all. rewrite fold_left_app. change (fold_left new_service (us ++ vs) (Cache [] 0)) with (update_all (us ++ vs)). cbn [fold_left].
    assert (H' : forall w, In w (us ++ vs) -> NoDup w) by (intros w Hw; apply H; rewrite app_assoc; apply in_app_iff; auto).
    destruct (update_inv (us ++ vs) H') as [I1 I2].
    apply cache_ok; auto.
    - apply H. rewrite app_assoc. apply in_app_iff. right. left. reflexivity.
    - apply Hk. apply in_app_iff. right. left. reflexivity.
    - apply IH; auto. intros w Hw. apply Hk. apply in_app_iff. auto.
  Qed.
  Lemma update_fresh : forall us vs k n, (forall v, In v (us ++ vs) -> NoDup v) ->
    (n < c_built (update_all us))%nat -> ~ In (k, n) (c_services (update_all us)) ->
    ~ In (k, n) (c_services (update_all (us ++ vs))) /\ (n < c_built (update_all (us ++ vs)))%nat.
  Proof.
    intros us vs k n. induction vs as [|v vs IH] using rev_ind; intros H Hb Hn; [rewrite app_nil_r; auto|].
    assert (H' : forall w, In w (us ++ vs) -> NoDup w) by (intros w Hw; apply H; rewrite app_assoc; apply in_app_iff; auto).
    destruct (IH H' Hb Hn) as [G1 G2]. destruct (update_inv (us ++ vs) H') as [I1 I2].
    rewrite app_assoc. unfold DistributeModel.update_all. rewrite fold_left_app. change (fold_left new_service (us ++ vs) (Cache [] 0)) with (update_all (us ++ vs)). cbn [fold_left].
    destruct (cache_ok (update_all (us ++ vs)) v) as (_ & _ & C3 & _ & C5); auto.
    { apply H. rewrite app_assoc. apply in_app_iff. right. left. reflexivity. }
    split; [|lia]. intros C. destruct (C3 _ _ C) as [Q|Q]; [contradiction|lia].
  Qed.
  Theorem update_gone : forall us u vs k n, (forall v, In v (us ++ u :: vs) -> NoDup v) ->
    In (k, n) (c_services (update_all us)) -> ~ In k u -> ~ In (k, n) (c_services (update_all (us ++ u :: vs))).
  Proof.
    intros us u vs k n H Hn Hu. replace (us ++ u :: vs) with ((us ++ [u]) ++ vs) in * by (rewrite <- app_assoc; reflexivity).
    assert (H' : forall w, In w (us ++ [u]) -> NoDup w) by (intros w Hw; apply H; apply in_app_iff; auto).
    destruct (update_inv us) as [I1 I2]; [intros w Hw; apply H'; apply in_app_iff; auto|].
    apply update_fresh; auto.
    - pose proof (I2 _ _ Hn) as I3. unfold DistributeModel.update_all. rewrite fold_left_app. change (fold_left new_service us (Cache [] 0)) with (update_all us). cbn [fold_left].
      destruct (cache_ok (update_all us) u) as (_ & _ & _ & _ & C5); auto; [|lia].
      apply H'. apply in_app_iff. right. left. reflexivity.
    - intros C. destruct (update_exactly us u H') as [_ E]. apply Hu. apply E. exists n. exact C.
  Qed.
  Theorem update_lookup : forall us u k, (forall v, In v (us ++ [u]) -> NoDup v) ->
    (exists n, lookup (c_services (update_all (us ++ [u]))) k = Some n) <-> In k u.
  Proof.
    intros us u k H. destruct (update_exactly us u H) as [ND E]. rewrite E. unfold holds.
    split; intros (n & Hn); exists n; [apply lookup_some in Hn|apply lookup_some]; auto.
  Qed.

  Lemma get_all_inv : forall ks,
    let (c, l) := get_all K eqb ks in
    NoDup (map fst (c_services c)) /\ NoDup (map snd (c_services c)) /\
    (forall k n, In (k, n) (c_services c) -> (n < c_built c)%nat) /\ Forall2 (fun k n => In (k, n) (c_services c)) ks l /\
    c_built c = length (c_services c) /\ incl (map fst (c_services c)) ks.
  Proof.
    induction ks as [|k ks IH] using rev_ind.
    - cbn. split; [constructor|]. split; [constructor|]. split; [intros ? ? []|]. split; [constructor|]. split; [reflexivity|intros ? []].
    - unfold get_all. rewrite fold_left_app. fold (get_all K eqb ks). cbn [fold_left].
      destruct (get_all K eqb ks) as [c l]. destruct IH as (I1 & I2 & I3 & I4 & I5 & I6). unfold get_or_build. cbn [fst snd].
      destruct (lookup (c_services c) k) as [n|] eqn:L.
      + apply lookup_some in L; [|exact I1]. repeat split; auto.
        * apply Forall2_app; [exact I4|]. constructor; [exact L|constructor].
        * intros x Hx. apply in_app_iff. left. auto.
      + apply lookup_none in L. cbn [c_services c_built map fst snd length]. repeat split.
        * constructor; assumption.
        * constructor; [|exact I2]. intros H. apply in_map_iff in H as ([x m] & E & H). cbn in E. subst m. specialize (I3 _ _ H). lia.
        * intros x m [H|H]; [injection H as <- <-; lia|]. specialize (I3 _ _ H). lia.
        * apply Forall2_app; [|constructor; [left; reflexivity|constructor]].
          clear -I4. induction I4; constructor; auto. right. assumption.
        * lia.
        * intros x [<-|Hx]; apply in_app_iff; [right; left; reflexivity|left; auto].
  Qed.
  Theorem get_all_same : forall ks i j ki kj si sj,
    nth_error ks i = Some ki -> nth_error ks j = Some kj ->
    nth_error (snd (get_all K eqb ks)) i = Some si -> nth_error (snd (get_all K eqb ks)) j = Some sj -> (ki = kj <-> si = sj).
  Proof.
    intros ks i j ki kj si sj Ki Kj Si Sj. pose proof (get_all_inv ks) as H. destruct (get_all K eqb ks) as [c l].
    cbn [snd] in *. destruct H as (I1 & I2 & _ & I4 & _).
    assert (F : forall i k n, nth_error ks i = Some k -> nth_error l i = Some n -> In (k, n) (c_services c)).
    { clear -I4. induction I4; intros [|i] k n; cbn; try discriminate; [intros E1 E2; congruence|eauto]. }
    pose proof (F _ _ _ Ki Si) as Hi. pose proof (F _ _ _ Kj Sj) as Hj. split; intros <-.
    - apply lookup_some in Hi; [|exact I1]. apply lookup_some in Hj; [|exact I1]. congruence.
    - clear -I2 Hi Hj. induction (c_services c) as [|[k n] l IH]; [destruct Hi|]. inversion I2 as [|? ? Hx I2']; subst. cbn in Hx.
      destruct Hi as [Hi|Hi], Hj as [Hj|Hj]; auto; try congruence; exfalso; apply Hx; apply in_map_iff.
      + exists (kj, si). split; [cbn; congruence|exact Hj].
      + exists (ki, si). split; [cbn; congruence|exact Hi].
  Qed.
  Theorem get_all_length : forall ks, length (snd (get_all K eqb ks)) = length ks.
  Proof. intros ks. pose proof (get_all_inv ks) as H. destruct (get_all K eqb ks) as [c l]. destruct H as (_ & _ & _ & I4 & _). cbn. clear -I4. induction I4; cbn; congruence. Qed.
  Theorem get_all_built : forall ks us, NoDup us -> (forall k, In k us <-> In k ks) -> c_built (fst (get_all K eqb ks)) = length us.
  Proof.
    intros ks us ND U. pose proof (get_all_inv ks) as H. destruct (get_all K eqb ks) as [c l]. destruct H as (I1 & _ & _ & I4 & I5 & I6).
    cbn [fst]. rewrite I5. rewrite <- (map_length fst). apply Nat.le_antisymm; apply NoDup_incl_length; auto.
    - intros k Hk. apply U. auto.
    - intros k Hk. apply U in Hk. clear -I4 Hk. induction I4; [destruct Hk|]. destruct Hk as [<-|Hk]; [|auto].
      apply in_map_iff. exists (x, y). auto.
  Qed.
End Cache.

(** ** Draws *)
Lemma before_mono : forall ws aside i j, (i <= j)%nat -> before ws aside i <= before ws aside j.
Proof. intros ws aside i j H. induction H; [lia|]. cbn [before]. lia. Qed.
Theorem draw_unique : forall ws aside draw i j, falls_to ws aside draw i -> falls_to ws aside draw j -> i = j.
Proof.
  intros ws aside draw i j [H1 H2] [H3 H4]. set (r := _ mod _) in *. clearbody r.
  destruct (Nat.lt_trichotomy i j) as [L|[L|L]]; [|exact L|]; exfalso.
  - pose proof (before_mono ws aside (S i) j L) as M. cbn [before] in M. lia.
  - pose proof (before_mono ws aside (S j) i L) as M. cbn [before] in M. lia.
Qed.
Theorem draw_exists : forall ws aside draw, 0 < before ws aside (length ws) -> exists i, falls_to ws aside draw i.
Proof.
  intros ws aside draw H. unfold falls_to.
  assert (R : draw mod before ws aside (length ws) < before ws aside (length ws)) by (apply N.mod_lt; lia).
  set (r := _ mod _) in *. clearbody r. revert R. clear H. induction (length ws) as [|n IH]; intros R; cbn [before] in R; [lia|].
  destruct (N.lt_ge_cases r (before ws aside n)) as [L|L]; [exact (IH L)|]. exists n. split; lia.
Qed.
(** Of every [before … (length ws)] consecutive draws, as many as its weight fall to a backend. *)
Theorem draw_share : forall ws aside i (r : N), weight ws aside i <> 0 -> (i < length ws)%nat ->
  r < before ws aside (length ws) ->
  (forall n, falls_to ws aside (n * before ws aside (length ws) + r) i <-> before ws aside i <= r < before ws aside i + weight ws aside i).
Proof.
  intros ws aside i r Hw Hi Hr n. unfold falls_to. rewrite N.add_comm, N.mod_add by lia. rewrite N.mod_small by exact Hr. reflexivity.
Qed.
