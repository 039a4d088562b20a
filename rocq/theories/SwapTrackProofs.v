From Coq Require Import List NArith Bool Arith Lia.
From Verif Require Import HistogramModel SwapModel SwapSpec.
Import ListNotations.
Open Scope nat_scope.

Definition cnt (P : tracked -> bool) (l : list (option tracked)) : nat :=
  length (filter (fun o => match o with Some t => P t | None => false end) l).
Definition one (P : tracked -> bool) (o : option tracked) : nat := match o with Some t => if P t then 1 else 0 | None => 0 end.
Definition of_family (f : nat) (t : tracked) : bool := Nat.eqb (t_family t) f.
Definition usable_of (f : nat) (t : tracked) : bool := Nat.eqb (t_family t) f && negb (t_dropping t).
Lemma one_usable f t : one (usable_of f) (Some t) = if Nat.eqb (t_family t) f && negb (t_dropping t) then 1 else 0.
Proof. reflexivity. Qed.
Lemma one_family f t : one (of_family f) (Some t) = if Nat.eqb (t_family t) f then 1 else 0.
Proof. reflexivity. Qed.
Lemma one_none P : one P None = 0.
Proof. reflexivity. Qed.
Lemma cnt_cons P o l : cnt P (o :: l) = one P o + cnt P l.
Proof. unfold cnt, one. cbn. destruct o as [t|]; [destruct (P t)|]; reflexivity. Qed.
Lemma cnt_app P a b : cnt P (a ++ b) = cnt P a + cnt P b.
Proof. induction a as [|o a IH]; [reflexivity|]. rewrite <- app_comm_cons, !cnt_cons, IH. lia. Qed.
Lemma cnt_set P i o o' : forall l, nth_error l i = Some o -> cnt P (set_service i o' l) + one P o = cnt P l + one P o'.
Proof.
  induction i as [|i IH]; intros [|x l] H; cbn in H; try discriminate; cbn [set_service]; rewrite !cnt_cons.
  - injection H as ->. lia.
  - apply IH in H. lia.
Qed.
Lemma cnt_pos P l : 0 < cnt P l <-> exists i t, nth_error l i = Some (Some t) /\ P t = true.
Proof.
  unfold cnt. split.
  - destruct (filter _ l) as [|o r] eqn:E; cbn; [lia|]. intros _. assert (I : In o (filter (fun o => match o with Some t => P t | None => false end) l)) by (rewrite E; cbn; auto).
    apply filter_In in I as (I & B). apply In_nth_error in I as (i & I). destruct o as [t|]; [|discriminate]. eauto.
  - intros (i & t & H & B). apply nth_error_In in H.
    assert (I : In (Some t) (filter (fun o => match o with Some t => P t | None => false end) l)) by (apply filter_In; auto).
    destruct (filter _ l); [destruct I|cbn; lia].
Qed.
Lemma nth_set i o l j :
  nth_error (set_service i o l) j = if Nat.eqb i j then (match nth_error l j with Some _ => Some o | None => None end) else nth_error l j.
Proof.
  revert i j. induction l as [|d l IH]; intros [|i] [|j]; cbn; try reflexivity.
  - now destruct (Nat.eqb i j).
  - apply IH.
Qed.
Lemma length_set i o l : length (set_service i o l) = length l.
Proof. revert i. induction l as [|d l IH]; intros [|i]; cbn; auto. Qed.

Lemma strong_cnt f l : strong_count f l = cnt (of_family f) l.
Proof. reflexivity. Qed.
Lemma lives_iff k f : lives k f <-> 0 < cnt (of_family f) (k_services k).
Proof.
  rewrite cnt_pos. unfold lives, of_family. split; intros (i & t & H & E); exists i, t; (split; [exact H|]); now apply Nat.eqb_eq.
Qed.
Lemma in_use_iff k f : in_use k f <-> 0 < cnt (usable_of f) (k_services k).
Proof.
  rewrite cnt_pos. unfold in_use, usable_of. split.
  - intros (i & t & H & E & D). exists i, t. split; [exact H|]. rewrite D. apply Nat.eqb_eq in E. now rewrite E.
  - intros (i & t & H & E). apply andb_true_iff in E as (E & D). exists i, t. split; [exact H|]. apply Nat.eqb_eq in E.
    split; [exact E|]. now apply negb_true_iff in D.
Qed.
Lemma usable_iff k i t : usable k i = Some t <-> nth_error (k_services k) i = Some (Some t) /\ t_dropping t = false.
Proof.
  unfold usable. destruct (nth_error (k_services k) i) as [[u|]|].
  - destruct (t_dropping u) eqn:D; split; [discriminate|intros (E & F)|intros E|intros (E & F)].
    + injection E as <-. congruence.
    + injection E as <-. auto.
    + congruence.
  - split; [discriminate|intros (E & _); discriminate].
  - split; [discriminate|intros (E & _); discriminate].
Qed.

Lemma track_snoc es e : forall k, track_all k (es ++ [e]) = match track_all k es with Some k' => track k' e | None => None end.
Proof.
  induction es as [|x es IH]; intros k; cbn.
  - destruct (track k e); reflexivity.
  - destruct (track k x); auto.
Qed.
Lemma track_app es es' : forall k, track_all k (es ++ es') = match track_all k es with Some k' => track_all k' es' | None => None end.
Proof. induction es as [|x es IH]; intros k; cbn; [reflexivity|]. destruct (track k x); auto. Qed.

Lemma times_snoc f es e : times f (es ++ [e]) = (times f es + (if f e then 1 else 0))%N.
Proof. unfold times. rewrite filter_app, app_length. cbn. destruct (f e); cbn; lia. Qed.
Lemma wrap_add a n : counter_add (a mod 2 ^ 64) n = ((a + n) mod 2 ^ 64)%N.
Proof. unfold counter_add. now rewrite N.add_mod_idemp_l by discriminate. Qed.

(* ---- polls and creations ---- *)
Record counts (es : list tracks) (k : tracking) : Prop := {
  n_create : m_create (k_metrics k) = (times is_created es mod 2 ^ 64)%N;
  n_ready : m_ready (k_metrics k) = (times is_ready es mod 2 ^ 64)%N;
  n_pending : m_not_ready (k_metrics k) = (times is_pending es mod 2 ^ 64)%N;
  n_failed : m_error (k_metrics k) = (times is_failed es mod 2 ^ 64)%N }.
Lemma same a : (a mod 2 ^ 64 = (a + 0) mod 2 ^ 64)%N.
Proof. now rewrite N.add_0_r. Qed.
Lemma counted es : forall k, track_all untracked es = Some k -> counts es k.
Proof.
  induction es as [|e es IH] using rev_ind; intros k R.
  - injection R as <-. constructor; reflexivity.
  - rewrite track_snoc in R. destruct (track_all untracked es) as [k0|]; [|discriminate]. specialize (IH _ eq_refl).
    destruct k0 as [m n ts]. destruct IH as [A B C D]. cbn [k_metrics] in *.
    destruct e as [|i|i now r|i|i]; cbn [track] in R.
    + injection R as <-. constructor; cbn [k_metrics m_create m_ready m_not_ready m_error]; rewrite times_snoc; cbn [is_created is_ready is_pending is_failed]; rewrite ?A, ?B, ?C, ?D, ?wrap_add; auto using same.
    + destruct (usable _ i); [|discriminate]. injection R as <-. constructor; cbn [k_metrics]; rewrite times_snoc; cbn [is_created is_ready is_pending is_failed]; rewrite ?A, ?B, ?C, ?D; apply same.
    + destruct (usable _ i) as [t|]; [|discriminate]. injection R as <-.
      constructor; cbn [k_metrics]; rewrite times_snoc; unfold add_blocked; destruct (t_blocked t); destruct r;
        cbn [m_create m_ready m_not_ready m_error is_created is_ready is_pending is_failed]; rewrite ?A, ?B, ?C, ?D, ?wrap_add; auto using same.
    + destruct (usable _ i) as [t|]; [|discriminate]. injection R as <-.
      constructor; cbn [k_metrics]; rewrite times_snoc; destruct (Nat.eqb _ _);
        cbn [m_create m_ready m_not_ready m_error is_created is_ready is_pending is_failed]; rewrite ?A, ?B, ?C, ?D; auto using same.
    + destruct (nth_error ts i) as [[t|]|]; try discriminate. destruct (t_dropping t); [|discriminate]. injection R as <-.
      constructor; cbn [k_metrics]; rewrite times_snoc; cbn [is_created is_ready is_pending is_failed]; rewrite ?A, ?B, ?C, ?D; apply same.
Qed.

(* ---- drops ---- *)
(* [l]: the families whose drop was counted *)
Record dropped (k : tracking) (l : list nat) : Prop := {
  d_nodup : NoDup l;
  d_count : m_drop (k_metrics k) = (N.of_nat (length l) mod 2 ^ 64)%N;
  d_known : forall f, In f l -> f < k_families k;
  d_unused : forall f, In f l -> cnt (usable_of f) (k_services k) = 0;
  d_families : forall i t, nth_error (k_services k) i = Some (Some t) -> t_family t < k_families k }.

Lemma eqb_same n : Nat.eqb n n = true. Proof. apply Nat.eqb_refl. Qed.

Lemma dropped_step k l e k' : dropped k l -> track k e = Some k' ->
  dropped k' (match e with
              | Drop_entered i =>
                  match usable k i with
                  | Some t => if Nat.eqb (strong_count (t_family t) (k_services k)) 1 then t_family t :: l else l
                  | None => l
                  end
              | _ => l
              end).
Proof.
  intros [A B C D E] R. destruct k as [m n ts]. cbn [k_metrics k_families k_services] in *.
  destruct e as [|i|i now r|i|i]; cbn [track] in R.
  - injection R as <-. constructor; cbn [k_metrics k_families k_services m_drop]; auto.
    + intros f F. apply C in F. lia.
    + intros f F. rewrite cnt_app, D by auto. unfold cnt. cbn. unfold usable_of. cbn. apply C in F.
      destruct (Nat.eqb n f) eqn:X; [apply Nat.eqb_eq in X; lia|reflexivity].
    + intros j t H. destruct (Nat.lt_ge_cases j (length ts)) as [L|L].
      * rewrite nth_error_app1 in H by auto. apply E in H. lia.
      * rewrite nth_error_app2 in H by auto. destruct (j - length ts) as [|[|x]]; cbn in H; inversion H; subst. cbn. lia.
  - destruct (usable _ i) as [t|] eqn:U; [|discriminate]. injection R as <-. apply usable_iff in U as (U & V). cbn [k_services] in U.
    constructor; cbn [k_metrics k_families k_services]; auto.
    + intros f F. rewrite cnt_app, D by auto. unfold cnt. cbn. unfold usable_of. cbn.
      destruct (Nat.eqb (t_family t) f) eqn:X; [|reflexivity]. exfalso. apply Nat.eqb_eq in X. subst f.
      assert (P : 0 < cnt (usable_of (t_family t)) ts); [|rewrite D in P by auto; lia].
      apply cnt_pos. exists i, t. split; [auto|]. unfold usable_of. now rewrite eqb_same, V.
    + intros j u H. destruct (Nat.lt_ge_cases j (length ts)) as [L|L].
      * rewrite nth_error_app1 in H by auto. eauto.
      * rewrite nth_error_app2 in H by auto. destruct (j - length ts) as [|[|x]]; cbn in H; inversion H; subst. cbn. eauto.
  - destruct (usable _ i) as [t|] eqn:U; [|discriminate]. injection R as <-. apply usable_iff in U as (U & V). cbn [k_services] in U.
    constructor; cbn [k_metrics k_families k_services]; auto.
    + destruct (t_blocked t); destruct r; exact B.
    + intros f F. pose proof (cnt_set (usable_of f) i _ (Some (Tracked (t_family t) (match r with Pending => Some now | _ => None end) false)) ts U) as X.
      rewrite D in X by auto. rewrite !one_usable in X. cbn [t_family t_dropping] in X. rewrite V in X.
      destruct (Nat.eqb (t_family t) f); cbn in X; lia.
    + intros j u H. rewrite nth_set in H. destruct (Nat.eqb i j) eqn:X; [|eauto]. apply Nat.eqb_eq in X. subst j. rewrite U in H. inversion H; subst. cbn. eauto.
  - destruct (usable _ i) as [t|] eqn:U; [|discriminate]. injection R as <-. apply usable_iff in U as (U & V). cbn [k_services] in U.
    assert (S : forall f, cnt (usable_of f) (set_service i (Some (Tracked (t_family t) (t_blocked t) true)) ts) + (if Nat.eqb (t_family t) f then 1 else 0) = cnt (usable_of f) ts).
    { intros f. pose proof (cnt_set (usable_of f) i _ (Some (Tracked (t_family t) (t_blocked t) true)) ts U) as X.
      rewrite !one_usable in X. cbn [t_family t_dropping] in X. rewrite V in X. destruct (Nat.eqb (t_family t) f); cbn in X; lia. }
    assert (Fam : forall j u, nth_error (set_service i (Some (Tracked (t_family t) (t_blocked t) true)) ts) j = Some (Some u) -> t_family u < n).
    { intros j u H. rewrite nth_set in H. destruct (Nat.eqb i j) eqn:X; [|eauto]. apply Nat.eqb_eq in X. subst j. rewrite U in H. inversion H; subst. cbn. eauto. }
    assert (Un : forall f, In f l -> cnt (usable_of f) (set_service i (Some (Tracked (t_family t) (t_blocked t) true)) ts) = 0).
    { intros f F. specialize (S f). rewrite D in S by auto. lia. }
    destruct (Nat.eqb (strong_count (t_family t) ts) 1) eqn:X; constructor; cbn [k_metrics k_families k_services m_drop]; auto.
    + constructor; [|auto]. intros F. specialize (S (t_family t)). rewrite eqb_same, D in S by auto. lia.
    + rewrite B, wrap_add. f_equal. cbn [length]. lia.
    + intros f [<-|F]; eauto.
    + intros f [<-|F]; [|auto]. rewrite strong_cnt in X. apply Nat.eqb_eq in X.
      pose proof (cnt_set (of_family (t_family t)) i _ None ts U) as Y. rewrite X, one_family, one_none, eqb_same in Y.
      (* at most one service of the family, and it is being dropped *)
      destruct (cnt (usable_of (t_family t)) (set_service i (Some (Tracked (t_family t) (t_blocked t) true)) ts)) eqn:Z; [auto|exfalso].
      assert (P : 0 < cnt (usable_of (t_family t)) (set_service i (Some (Tracked (t_family t) (t_blocked t) true)) ts)) by lia.
      apply cnt_pos in P as (j & u & P & Q). unfold usable_of in Q. apply andb_true_iff in Q as (Q1 & Q2).
      rewrite nth_set in P. destruct (Nat.eqb i j) eqn:W.
      { apply Nat.eqb_eq in W. subst j. rewrite U in P. inversion P; subst. discriminate. }
      assert (0 < cnt (of_family (t_family t)) (set_service i None ts)); [|lia].
      apply cnt_pos. exists j, u. split; [|exact Q1]. now rewrite nth_set, W.
  - destruct (nth_error ts i) as [[t|]|] eqn:U; try discriminate. destruct (t_dropping t) eqn:V; [|discriminate]. injection R as <-.
    constructor; cbn [k_metrics k_families k_services]; auto.
    + intros f F. pose proof (cnt_set (usable_of f) i _ None ts U) as X. rewrite D in X by auto. cbn in X. lia.
    + intros j u H. rewrite nth_set in H. destruct (Nat.eqb i j) eqn:X; [|eauto]. destruct (nth_error ts j); discriminate.
Qed.
Lemma dropped_all es : forall k, track_all untracked es = Some k -> exists l, dropped k l.
Proof.
  induction es as [|e es IH] using rev_ind; intros k R.
  - injection R as <-. exists []. constructor; cbn; try easy; [constructor|intros [|i] t H; discriminate].
  - rewrite track_snoc in R. destruct (track_all untracked es) as [k0|]; [|discriminate]. destruct (IH _ eq_refl) as (l & D).
    eexists. eapply dropped_step; eauto.
Qed.
Lemma never_too_many es k : track_all untracked es = Some k ->
  exists l, NoDup l /\ (forall f, In f l -> f < k_families k /\ ~ in_use k f) /\
            m_drop (k_metrics k) = (N.of_nat (length l) mod 2 ^ 64)%N.
Proof.
  intros R. destruct (dropped_all _ _ R) as (l & [A B C D E]). exists l. split; [auto|]. split; [|auto].
  intros f F. split; [auto|]. rewrite in_use_iff, D by auto. lia.
Qed.

(* without drops at the same time *)
Record exact (k : tracking) (l : list nat) : Prop := {
  x_dropped : dropped k l;
  x_none : forall i t, nth_error (k_services k) i = Some (Some t) -> t_dropping t = false;
  x_gone : forall f, f < k_families k -> (In f l <-> cnt (of_family f) (k_services k) = 0) }.
Lemma exact_one k l e k' : exact k l -> (forall i, e <> Drop_entered i /\ e <> Drop_left i) -> track k e = Some k' -> exact k' l.
Proof.
  intros [X Y Z] N R. pose proof (dropped_step _ _ _ _ X R) as X'. destruct k as [m n ts]. cbn [k_metrics k_families k_services] in *.
  destruct e as [|i|i now r|i|i]; try (destruct (N i); congruence); cbn [track] in R.
  - injection R as <-. constructor; cbn [k_services k_families] in *; [exact X'| |].
    + intros j t H. destruct (Nat.lt_ge_cases j (length ts)) as [L|L].
      * rewrite nth_error_app1 in H by auto. eauto.
      * rewrite nth_error_app2 in H by auto. destruct (j - length ts) as [|[|x]]; cbn in H; inversion H; subst. reflexivity.
    + intros f F. rewrite cnt_app. rewrite cnt_cons, one_family. cbn [t_family]. change (cnt (of_family f) []) with 0. rewrite Nat.add_0_r. destruct (Nat.eqb n f) eqn:E.
      * cbn. apply Nat.eqb_eq in E. subst f. split; [|lia]. intros I. apply (d_known _ _ X) in I. cbn in I. lia.
      * cbn. apply Nat.eqb_neq in E. rewrite Nat.add_0_r. apply Z. lia.
  - destruct (usable _ i) as [t|] eqn:U; [|discriminate]. injection R as <-. apply usable_iff in U as (U & V). cbn [k_services] in U.
    constructor; cbn [k_services k_families] in *; [exact X'| |].
    + intros j u H. destruct (Nat.lt_ge_cases j (length ts)) as [L|L].
      * rewrite nth_error_app1 in H by auto. eauto.
      * rewrite nth_error_app2 in H by auto. destruct (j - length ts) as [|[|x]]; cbn in H; inversion H; subst. reflexivity.
    + intros f F. rewrite cnt_app. rewrite cnt_cons, one_family. cbn [t_family]. change (cnt (of_family f) []) with 0. rewrite Nat.add_0_r. destruct (Nat.eqb (t_family t) f) eqn:E.
      * cbn. apply Nat.eqb_eq in E. subst f. rewrite Z by auto. split; [|lia]. intros W.
        assert (0 < cnt (of_family (t_family t)) ts) by (apply cnt_pos; exists i, t; split; [auto|unfold of_family; apply eqb_same]). lia.
      * cbn. rewrite Nat.add_0_r. now apply Z.
  - destruct (usable _ i) as [t|] eqn:U; [|discriminate]. injection R as <-. apply usable_iff in U as (U & V). cbn [k_services] in U.
    constructor; cbn [k_services k_families] in *; [exact X'| |].
    + intros j u H. rewrite nth_set in H. destruct (Nat.eqb i j) eqn:W; [|eauto]. apply Nat.eqb_eq in W. subst j. rewrite U in H. inversion H; subst. reflexivity.
    + intros f F. rewrite Z by auto.
      pose proof (cnt_set (of_family f) i _ (Some (Tracked (t_family t) (match r with Pending => Some now | _ => None end) false)) ts U) as C.
      rewrite !one_family in C. cbn [t_family] in C. destruct (Nat.eqb (t_family t) f); lia.
Qed.
Lemma exact_drop k l i k1 k2 : exact k l -> track k (Drop_entered i) = Some k1 -> track k1 (Drop_left i) = Some k2 ->
  exists l', exact k2 l'.
Proof.
  intros [X Y Z] R1 R2. pose proof (dropped_step _ _ _ _ X R1) as X1. pose proof (dropped_step _ _ _ _ X1 R2) as X2. cbn beta iota in X2.
  eexists. split; [exact X2| |]; clear X1; destruct k as [m n ts]; cbn [k_metrics k_families k_services track] in *;
    (destruct (usable _ i) as [t|] eqn:U; [|discriminate]); injection R1 as <-; apply usable_iff in U as (U & V); cbn [k_services] in U;
    cbn [track] in R2; rewrite nth_set, eqb_same, U in R2; cbn [t_dropping] in R2; injection R2 as <-; cbn [k_services k_families] in *.
  - intros j u H. rewrite nth_set in H. destruct (Nat.eqb i j) eqn:W; [destruct (nth_error (set_service i _ ts) j); discriminate|].
    rewrite nth_set, W in H. eauto.
  - intros f F.
    assert (C : cnt (of_family f) (set_service i None (set_service i (Some (Tracked (t_family t) (t_blocked t) true)) ts)) + (if Nat.eqb (t_family t) f then 1 else 0) = cnt (of_family f) ts).
    { pose proof (cnt_set (of_family f) i _ (Some (Tracked (t_family t) (t_blocked t) true)) ts U) as C1.
      assert (U1 : nth_error (set_service i (Some (Tracked (t_family t) (t_blocked t) true)) ts) i = Some (Some (Tracked (t_family t) (t_blocked t) true))) by (now rewrite nth_set, eqb_same, U).
      pose proof (cnt_set (of_family f) i _ None _ U1) as C2. rewrite !one_family in C1. rewrite one_family, one_none in C2. cbn [t_family] in C1, C2.
      destruct (Nat.eqb (t_family t) f); lia. }
    specialize (Z f F). destruct (Nat.eqb (strong_count (t_family t) ts) 1) eqn:W; rewrite strong_cnt in W.
    + apply Nat.eqb_eq in W. cbn [In]. rewrite Z. destruct (Nat.eqb (t_family t) f) eqn:Q.
      * apply Nat.eqb_eq in Q. subst f. split; [lia|auto].
      * apply Nat.eqb_neq in Q. split; [intros [K|K]; [congruence|lia]|intros K; right; lia].
    + apply Nat.eqb_neq in W. rewrite Z. destruct (Nat.eqb (t_family t) f) eqn:Q; [|lia].
      apply Nat.eqb_eq in Q. subst f. lia.
Qed.
Lemma exact_all es : serial es -> forall k l k', exact k l -> track_all k es = Some k' -> exists l', exact k' l'.
Proof.
  induction 1 as [|i es S IH|e es N S IH]; intros k l k' X R.
  - injection R as <-. eauto.
  - change (Drop_entered i :: Drop_left i :: es) with ([Drop_entered i] ++ [Drop_left i] ++ es) in R. rewrite !track_app in R.
    cbn [track_all] in R. destruct (track k (Drop_entered i)) as [k1|] eqn:R1; [|discriminate]. rewrite track_app in R. cbn [track_all] in R.
    destruct (track k1 (Drop_left i)) as [k2|] eqn:R2; [|discriminate]. destruct (exact_drop _ _ _ _ _ X R1 R2) as (l' & X'). eauto.
  - cbn [track_all] in R. destruct (track k e) as [k1|] eqn:R1; [|discriminate]. apply (IH k1 l k'); [|exact R]. eapply exact_one; eauto.
Qed.
Lemma all_counted es k : serial es -> track_all untracked es = Some k ->
  exists l, NoDup l /\ (forall f, In f l <-> f < k_families k /\ ~ lives k f) /\
            m_drop (k_metrics k) = (N.of_nat (length l) mod 2 ^ 64)%N.
Proof.
  intros S R. destruct (exact_all _ S untracked [] k) as (l & [[A B C D E] Y Z]); [|exact R|].
  - constructor; [constructor; cbn; try easy; [constructor|intros [|i] t H; discriminate]|intros [|i] t H; discriminate|intros f H; cbn in H; lia].
  - exists l. split; [auto|]. split; [|auto]. intros f. rewrite lives_iff. split.
    + intros I. pose proof (C _ I) as F. split; [auto|]. apply Z in I; [lia|auto].
    + intros (F & N). apply Z; [auto|lia].
Qed.
Lemma families_created es : forall k, track_all untracked es = Some k -> N.of_nat (k_families k) = times is_created es.
Proof.
  induction es as [|e es IH] using rev_ind; intros k R.
  - injection R as <-. reflexivity.
  - rewrite track_snoc in R. destruct (track_all untracked es) as [k0|]; [|discriminate]. specialize (IH _ eq_refl). rewrite times_snoc, <- IH.
    destruct k0 as [m n ts]. destruct e as [|i|i now r|i|i]; cbn [track] in R.
    + injection R as <-. cbn. lia.
    + destruct (usable _ i); [|discriminate]. injection R as <-. cbn. lia.
    + destruct (usable _ i); [|discriminate]. injection R as <-. cbn. destruct r; lia.
    + destruct (usable _ i); [|discriminate]. injection R as <-. cbn. lia.
    + destruct (nth_error ts i) as [[t|]|]; try discriminate. destruct (t_dropping t); [|discriminate]. injection R as <-. cbn. lia.
Qed.

(* ---- the time ---- *)
Lemma blocked_det i es : forall b c, blocked i es b -> blocked i es c -> b = c.
Proof.
  induction es as [|e es IH] using rev_ind; intros b c B C.
  - inversion B as [|x now r H|x y z H1 H2 H3]; subst; [|destruct x; discriminate|destruct x; discriminate].
    inversion C as [|x now r H|x y z H1 H2 H3]; subst; [reflexivity|destruct x; discriminate|destruct x; discriminate].
  - inversion B as [H|x now r H|x y z H1 H2 H3]; subst; [destruct es; discriminate| |].
    + apply app_inj_tail in H as (-> & <-).
      inversion C as [H|x now' r' H|x y z H1 H2 H3]; subst; [destruct es; discriminate| |].
      * apply app_inj_tail in H as (-> & E). now inversion E.
      * apply app_inj_tail in H3 as (-> & ->). destruct (H2 now r eq_refl).
    + apply app_inj_tail in H3 as (-> & ->).
      inversion C as [H|x now' r' H|x y z' H1' H2' H3']; subst; [destruct es; discriminate| |].
      * apply app_inj_tail in H as (-> & <-). destruct (H2 now' r' eq_refl).
      * apply app_inj_tail in H3' as (-> & ->). auto.
Qed.
Record since (es : list tracks) (k : tracking) : Prop := {
  s_live : forall i t, nth_error (k_services k) i = Some (Some t) -> blocked i es (t_blocked t);
  s_new : forall i, length (k_services k) <= i -> blocked i es None }.
Lemma since_all es : forall k, track_all untracked es = Some k -> since es k.
Proof.
  induction es as [|e es IH] using rev_ind; intros k R.
  - injection R as <-. constructor; [intros [|i] t H; discriminate|]. intros. constructor.
  - rewrite track_snoc in R. destruct (track_all untracked es) as [k0|]; [|discriminate]. destruct (IH _ eq_refl) as [A B].
    destruct k0 as [m n ts]. cbn [k_services] in *. destruct e as [|i|i now r|i|i]; cbn [track] in R.
    + injection R as <-. constructor; cbn [k_services].
      * intros j t H. apply unchanged; [|discriminate]. destruct (Nat.lt_ge_cases j (length ts)) as [L|L].
        -- rewrite nth_error_app1 in H by auto. auto.
        -- rewrite nth_error_app2 in H by auto. destruct (j - length ts) as [|[|x]] eqn:J; cbn in H; inversion H; subst. cbn. auto.
      * intros j H. rewrite app_length in H. cbn in H. apply unchanged; [|discriminate]. apply B. lia.
    + destruct (usable _ i) as [t|]; [|discriminate]. injection R as <-. constructor; cbn [k_services].
      * intros j u H. apply unchanged; [|discriminate]. destruct (Nat.lt_ge_cases j (length ts)) as [L|L].
        -- rewrite nth_error_app1 in H by auto. auto.
        -- rewrite nth_error_app2 in H by auto. destruct (j - length ts) as [|[|x]] eqn:J; cbn in H; inversion H; subst. cbn. auto.
      * intros j H. rewrite app_length in H. cbn in H. apply unchanged; [|discriminate]. apply B. lia.
    + destruct (usable _ i) as [t|] eqn:U; [|discriminate]. apply usable_iff in U as (U & _). cbn [k_services] in U. injection R as <-.
      constructor; cbn [k_services].
      * intros j u H. rewrite nth_set in H. destruct (Nat.eqb i j) eqn:E.
        -- apply Nat.eqb_eq in E. subst j. rewrite U in H. inversion H; subst. cbn [t_blocked]. apply found.
        -- apply Nat.eqb_neq in E. apply unchanged; [auto|]. congruence.
      * intros j H. rewrite length_set in H. apply unchanged; [auto|]. intros now' r' X. inversion X; subst.
        assert (nth_error ts j = None) by now apply nth_error_None. congruence.
    + destruct (usable _ i) as [t|] eqn:U; [|discriminate]. apply usable_iff in U as (U & _). cbn [k_services] in U. injection R as <-.
      constructor; cbn [k_services].
      * intros j u H. apply unchanged; [|discriminate]. rewrite nth_set in H. destruct (Nat.eqb i j) eqn:E; [|auto].
        apply Nat.eqb_eq in E. subst j. rewrite U in H. inversion H; subst. cbn [t_blocked]. auto.
      * intros j H. rewrite length_set in H. apply unchanged; [auto|discriminate].
    + destruct (nth_error ts i) as [[t|]|] eqn:U; try discriminate. destruct (t_dropping t); [|discriminate]. injection R as <-.
      constructor; cbn [k_services].
      * intros j u H. apply unchanged; [|discriminate]. rewrite nth_set in H. destruct (Nat.eqb i j) eqn:E; [|auto].
        destruct (nth_error ts j); discriminate.
      * intros j H. rewrite length_set in H. apply unchanged; [auto|discriminate].
Qed.
Definition in_millis (ws : list N) : N := total (map (fun w => w / 1000000)%N ws).
Lemma in_millis_snoc ws w : in_millis (ws ++ [w]) = (in_millis ws + w / 1000000)%N.
Proof.
  unfold in_millis, total. rewrite map_app, fold_right_app. cbn [map fold_right].
  induction (map (fun w => w / 1000000)%N ws) as [|x l IH]; cbn [fold_right]; [lia|]. rewrite IH. lia.
Qed.
Lemma millis es ws : waits es ws -> forall k, track_all untracked es = Some k ->
  m_millis (k_metrics k) = (in_millis ws mod 2 ^ 64)%N.
Proof.
  induction 1 as [|es ws i now r t0 W IH B|es ws i now r W IH B|es ws e W IH N]; intros k R.
  - injection R as <-. reflexivity.
  - rewrite track_snoc in R. destruct (track_all untracked es) as [k0|] eqn:R0; [|discriminate]. specialize (IH _ eq_refl).
    destruct (since_all _ _ R0) as [S _]. destruct k0 as [m n ts]. cbn [track k_metrics k_services] in *.
    destruct (usable _ i) as [t|] eqn:U; [|discriminate]. apply usable_iff in U as (U & _). apply S in U.
    injection R as <-. cbn [k_metrics]. rewrite <- (blocked_det _ _ _ _ B U), in_millis_snoc. unfold add_blocked.
    destruct r; cbn [m_millis]; rewrite IH, wrap_add; reflexivity.
  - rewrite track_snoc in R. destruct (track_all untracked es) as [k0|] eqn:R0; [|discriminate]. specialize (IH _ eq_refl).
    destruct (since_all _ _ R0) as [S _]. destruct k0 as [m n ts]. cbn [track k_metrics k_services] in *.
    destruct (usable _ i) as [t|] eqn:U; [|discriminate]. apply usable_iff in U as (U & _). apply S in U.
    injection R as <-. cbn [k_metrics]. rewrite <- (blocked_det _ _ _ _ B U). unfold add_blocked. destruct r; exact IH.
  - rewrite track_snoc in R. destruct (track_all untracked es) as [k0|] eqn:R0; [|discriminate]. specialize (IH _ eq_refl).
    destruct k0 as [m n ts]. destruct e as [|i|i now r|i|i]; cbn [track k_metrics] in *.
    + injection R as <-. exact IH.
    + destruct (usable _ i); [|discriminate]. injection R as <-. exact IH.
    + destruct (N i now r eq_refl).
    + destruct (usable _ i); [|discriminate]. injection R as <-. cbn. destruct (Nat.eqb _ _); exact IH.
    + destruct (nth_error ts i) as [[t|]|]; try discriminate. destruct (t_dropping t); [|discriminate]. injection R as <-. exact IH.
Qed.
Lemma blocked_total i es : exists b, blocked i es b.
Proof.
  induction es as [|e es (b & IH)] using rev_ind; [exists None; constructor|].
  destruct e as [|j|j now r|j|j]; try (exists b; apply unchanged; [exact IH|discriminate]).
  destruct (Nat.eq_dec j i) as [->|E]; [eexists; apply found|]. exists b. apply unchanged; [exact IH|congruence].
Qed.
Lemma waits_total es : exists ws, waits es ws.
Proof.
  induction es as [|e es (ws & IH)] using rev_ind; [exists []; constructor|].
  destruct e as [|i|i now r|i|i]; try (exists ws; apply other_wait; [exact IH|discriminate]).
  destruct (blocked_total i es) as ([t0|] & B); eexists; [eapply a_wait|eapply no_wait]; eauto.
Qed.
Lemma never_too_long ws : (in_millis ws * 1000000 <= total ws)%N.
Proof.
  unfold in_millis, total. induction ws as [|w ws IH]; cbn [map fold_right]; [lia|].
  pose proof (N.mul_div_le w 1000000 ltac:(discriminate)). lia.
Qed.

(* ---- what the theorems say ---- *)
Lemma all_counts es k : track_all untracked es = Some k ->
  m_create (k_metrics k) = (times is_created es mod 2 ^ 64)%N /\
  m_ready (k_metrics k) = (times is_ready es mod 2 ^ 64)%N /\
  m_not_ready (k_metrics k) = (times is_pending es mod 2 ^ 64)%N /\
  m_error (k_metrics k) = (times is_failed es mod 2 ^ 64)%N.
Proof. intros R. destruct (counted _ _ R). auto. Qed.
Lemma all_dropped es k : serial es -> track_all untracked es = Some k ->
  exists l, NoDup l /\ (forall f, In f l <-> (N.of_nat f < times is_created es)%N /\ ~ lives k f) /\
    m_drop (k_metrics k) = (N.of_nat (length l) mod 2 ^ 64)%N.
Proof.
  intros S R. pose proof (families_created _ _ R) as F. destruct (all_counted _ _ S R) as (l & A & B & C). exists l.
  split; [exact A|]. split; [|exact C]. intros f. rewrite <- F, B. split; intros (X & Y); (split; [lia|exact Y]).
Qed.
Lemma not_too_many es k : track_all untracked es = Some k ->
  exists l, NoDup l /\ (forall f, In f l -> (N.of_nat f < times is_created es)%N /\ ~ in_use k f) /\
    m_drop (k_metrics k) = (N.of_nat (length l) mod 2 ^ 64)%N.
Proof.
  intros R. pose proof (families_created _ _ R) as F. destruct (never_too_many _ _ R) as (l & A & B & C). exists l.
  split; [exact A|]. split; [|exact C]. intros f I. apply B in I as (X & Y). split; [lia|exact Y].
Qed.
Lemma time_counted es ws k : waits es ws -> track_all untracked es = Some k ->
  m_millis (k_metrics k) = (total (map (fun w => w / 1000000) ws) mod 2 ^ 64)%N /\
  (m_millis (k_metrics k) * 1000000 <= total ws)%N.
Proof.
  intros W R. pose proof (millis _ _ W _ R) as M. split; [exact M|]. rewrite M.
  pose proof (never_too_long ws). pose proof (N.mod_le (in_millis ws) (2 ^ 64) ltac:(discriminate)). nia.
Qed.
Lemma rounding : forall n : N, exists es ws k,
  waits es ws /\ track_all untracked es = Some k /\ m_millis (k_metrics k) = 0%N /\ total ws = (n * 999999)%N.
Proof.
  intros n. cut (exists es ws k, waits es ws /\ track_all untracked es = Some k /\ m_millis (k_metrics k) = 0%N /\ total ws = (n * 999999)%N /\
    k_services k = [Some (Tracked 0 (Some (n * 999999)%N) false)]).
  { intros (es & ws & k & A & B & C & D & _). exists es, ws, k. auto. }
  induction n as [|n IH] using N.peano_ind.
  - exists [Created; Asked 0 0 Pending], [], (Tracking (Metrics 1 0 0 1 0 0) 1 [Some (Tracked 0 (Some 0%N) false)]).
    repeat split. apply (no_wait [Created] [] 0 0 Pending).
    + apply (other_wait [] [] Created); [constructor|discriminate].
    + apply (unchanged 0 [] Created); [constructor|discriminate].
  - destruct IH as (es & ws & k & A & B & C & D & E).
    assert (S : blocked 0 es (Some (n * 999999)%N)).
    { destruct (since_all _ _ B) as [S _]. rewrite E in S. exact (S 0 _ eq_refl). }
    assert (T : forall l w, total (l ++ [w]) = (total l + w)%N).
    { intros l w. unfold total. rewrite fold_right_app. cbn [fold_right]. induction l as [|x l IH]; cbn [fold_right]; [lia|]. rewrite IH. lia. }
    destruct k as [m f ts]. cbn [k_services k_metrics] in *. subst ts.
    eexists (es ++ [Asked 0 (N.succ n * 999999) Pending]), (ws ++ [N.succ n * 999999 - n * 999999])%N, _.
    split; [apply (a_wait es ws 0 _ Pending (n * 999999)%N A S)|]. rewrite track_snoc, B. split; [reflexivity|].
    cbn [k_metrics k_services t_blocked add_blocked m_millis set_service t_family].
    replace (N.succ n * 999999 - n * 999999)%N with 999999%N by lia. split; [|split; [|reflexivity]].
    + rewrite C. reflexivity.
    + rewrite T, D. lia.
Qed.
