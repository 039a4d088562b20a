(** Proofs about the store of metrics *)
From Coq Require Import List Arith NArith Bool Lia ZifyBool ZifyNat ZifyN.
From Verif Require Import StoreModel StoreSpec.
Import ListNotations.
Open Scope N_scope.

(** ** Lists *)
Lemma set_nth_length {A} : forall i (x : A) l, length (set_nth i x l) = length l.
Proof. induction i; destruct l; cbn; auto. Qed.
Lemma set_nth_nth {A} : forall i j (x d : A) l, (i < length l)%nat -> nth j (set_nth i x l) d = if Nat.eqb i j then x else nth j l d.
Proof.
  induction i as [|i IH]; intros [|j] x d [|y l] L; cbn in L |- *; try lia; auto. apply IH. lia.
Qed.
Lemma set_nth_split {A} : forall i (x : A) l, (i < length l)%nat -> set_nth i x l = firstn i l ++ x :: skipn (S i) l.
Proof.
  induction i as [|i IH]; intros x [|y l] L; cbn [length] in L; try lia; [reflexivity|].
  cbn [set_nth firstn app]. f_equal. apply IH. lia.
Qed.
Lemma lookup_in : forall l k a, lookup l k = Some a -> In (k, a) l.
Proof.
  intros l k a E. unfold lookup in E. destruct (find _ l) as [[k' a']|] eqn:F; [|discriminate]. cbn in E. injection E as <-.
  apply find_some in F. destruct F as [M F]. cbn in F. apply N.eqb_eq in F. subst. exact M.
Qed.
Lemma in_lookup : forall l k a, NoDup (map fst l) -> In (k, a) l -> lookup l k = Some a.
Proof.
  intros l k a. unfold lookup. induction l as [|[k' a'] l IH]; intros D M; [destruct M|]. cbn [find fst]. cbn in D. inversion D as [|? ? Ni D']; subst.
  destruct (k' =? k) eqn:E.
  - apply N.eqb_eq in E; subst k'. destruct M as [M|M]; [injection M as <-; reflexivity|].
    exfalso. apply Ni. apply (in_map fst) in M. exact M.
  - destruct M as [M|M]; [injection M as -> ->; rewrite N.eqb_refl in E; discriminate|]. apply IH; assumption.
Qed.
Lemma lookup_none : forall l k, lookup l k = None -> ~ In k (map fst l).
Proof.
  intros l k E M. apply in_map_iff in M. destruct M as ([k' a] & K & M). cbn in K; subst k'.
  unfold lookup in E. destruct (find _ l) eqn:F; [discriminate|]. pose proof (find_none _ _ F _ M) as X. cbn in X. rewrite N.eqb_refl in X. discriminate.
Qed.
Lemma snd_inj : forall (l : list (N * nat)) k k' a, NoDup (map snd l) -> In (k, a) l -> In (k', a) l -> k = k'.
Proof.
  induction l as [|[k0 a0] l IH]; intros k k' a D M M'; [destruct M|]. cbn in D. inversion D as [|? ? Ni D']; subst.
  destruct M as [M|M], M' as [M'|M']; try congruence.
  - injection M as -> ->. exfalso. apply Ni. apply (in_map snd) in M'. exact M'.
  - injection M' as -> ->. exfalso. apply Ni. apply (in_map snd) in M. exact M.
  - eapply IH; eassumption.
Qed.
Lemma NoDup_filter_map {A B} : forall (f : A -> B) (p : A -> bool) l, NoDup (map f l) -> NoDup (map f (filter p l)).
Proof.
  intros f p l. induction l as [|x l IH]; intro D; [exact D|]. cbn in D. inversion D as [|? ? Ni D']; subst. cbn [filter].
  destruct (p x); [|auto]. cbn [map]. constructor; [|auto]. intro M. apply Ni. apply in_map_iff in M. destruct M as (y & Y & M).
  apply filter_In in M. rewrite <- Y. apply in_map. apply M.
Qed.
Lemma count_one : forall l k a, NoDup (map snd l) -> In (k, a) l -> length (filter (fun e : N * nat => Nat.eqb (snd e) a) l) = 1%nat.
Proof.
  induction l as [|[k0 a0] l IH]; intros k a D M; [destruct M|]. cbn in D. inversion D as [|? ? Ni D']; subst. cbn [filter snd].
  destruct M as [M|M].
  - injection M as -> ->. rewrite Nat.eqb_refl. cbn [length]. f_equal.
    assert (filter (fun e : N * nat => Nat.eqb (snd e) a) l = []) as ->; [|reflexivity].
    clear IH D D'. induction l as [|[k1 a1] l IH]; [reflexivity|]. cbn [filter snd]. destruct (Nat.eqb a1 a) eqn:E.
    + apply Nat.eqb_eq in E; subst. exfalso. apply Ni. left; reflexivity.
    + apply IH. intro X. apply Ni. right; exact X.
  - destruct (Nat.eqb a0 a) eqn:E; [|apply (IH k a D' M)]. apply Nat.eqb_eq in E; subst. exfalso. apply Ni. apply (in_map snd) in M. exact M.
Qed.
Lemma Forall2_nth {A B} : forall (P : A -> B -> Prop) l l' i x, Forall2 P l l' -> nth_error l i = Some x -> exists y, nth_error l' i = Some y /\ P x y.
Proof.
  intros P l l' i x F. revert i. induction F as [|a b l l' H F IH]; intros [|i] E; cbn in E |- *; try discriminate.
  - injection E as <-. eauto.
  - apply IH. exact E.
Qed.
Lemma Forall2_set {A B} : forall (P : A -> B -> Prop) l l' i x y, Forall2 P l l' -> P x y -> (i < length l)%nat ->
  Forall2 P (set_nth i x l) (firstn i l' ++ y :: skipn (S i) l').
Proof.
  intros P l l' i x y F H. revert i. induction F as [|a b l l' H' F IH]; intros [|i] L; cbn [length] in L; try lia.
  - cbn. constructor; assumption.
  - cbn [set_nth firstn app skipn]. constructor; [assumption|]. apply IH. lia.
Qed.

(** ** The store and the table *)
Definition same_handle (l : list (N * nat)) (h : option nat) (k : option N) : Prop :=
  match h, k with Some a, Some k => In (k, a) l | None, None => True | _, _ => False end.
Definition value (s : state) (k : N) : option (N * N) :=
  match lookup (entries s) k with Some a => Some (recorded (cell_of s a), updated (cell_of s a)) | None => None end.
Definition rel (s : state) (t : table) : Prop :=
  NoDup (map fst (entries s)) /\ NoDup (map snd (entries s)) /\ (forall k a, In (k, a) (entries s) -> (a < length (cells s))%nat) /\
  Forall2 (same_handle (entries s)) (handles s) (held t) /\ forall k, known t k = value s k.

Lemma counted_in_use : forall s t k a, rel s t -> In (k, a) (entries s) -> Nat.ltb 1 (strong_count s a) = in_use t k.
Proof.
  intros s t k a (D1 & D2 & _ & F & _) M. unfold strong_count, in_use. rewrite (count_one _ k a D2 M). revert F. generalize (handles s) (held t).
  intros l l' F. induction F as [|h o l l' H F IH]; [reflexivity|]. cbn [filter existsb].
  destruct h as [b|], o as [k'|]; cbn [same_handle is_arc] in *; try contradiction; [|exact IH].
  destruct (Nat.eqb b a) eqn:E.
  - apply Nat.eqb_eq in E; subst b. assert (k' = k) as -> by (eapply snd_inj; eassumption). rewrite N.eqb_refl. cbn [orb length]. apply Nat.ltb_lt. lia.
  - destruct (k' =? k) eqn:E'; [|exact IH]. apply N.eqb_eq in E'; subst k'.
    pose proof (in_lookup _ _ _ D1 H). pose proof (in_lookup _ _ _ D1 M). apply Nat.eqb_neq in E. congruence.
Qed.
Lemma held_kept : forall s t k, rel s t -> in_use t k = true -> exists a, lookup (entries s) k = Some a.
Proof.
  intros s t k (D1 & _ & _ & F & _) U. unfold in_use in U. apply existsb_exists in U. destruct U as ([k'|] & M & E); [|discriminate].
  apply N.eqb_eq in E; subst k'. revert M. induction F as [|h o l l' H F IH]; intro M; [destruct M|].
  destruct M as [->|M]; [|auto]. destruct h as [a|]; [|contradiction]. exists a. apply in_lookup; assumption.
Qed.

Lemma step_rel : forall retain_idle s t i s' r, rel s t -> step retain_idle s i = Some (s', r) ->
  rel s' (next retain_idle t i) /\ r = match i with Report _ => Some (written s) | _ => None end.
Proof.
  intros retain_idle s t i s' r R E. pose proof R as (D1 & D2 & B & F & K). destruct i as [k u|h|h|h n u|u]; cbn [step] in E.
  - unfold get_or_default in E. destruct (lookup (entries s) k) as [a|] eqn:L; injection E as <- <-; (split; [|reflexivity]).
    + unfold rel. cbn [cells entries handles next held known]. assert (known t k = value s k) as Kk by apply K. unfold value in Kk. rewrite L in Kk.
      rewrite Kk. split; [exact D1|]. split; [exact D2|]. split; [exact B|]. split; [|exact K].
      apply Forall2_app; [exact F|]. constructor; [|constructor]. cbn. apply lookup_in. exact L.
    + unfold rel. cbn [cells entries handles next held known].
      assert (known t k = None) as -> by (rewrite K; unfold value; rewrite L; reflexivity).
      pose proof (lookup_none _ _ L) as Ni.
      assert (forall a, In a (map snd (entries s)) -> (a < length (cells s))%nat) as B'.
      { intros a M. apply in_map_iff in M. destruct M as ([k' a'] & <- & M). eapply B; eassumption. }
      split; [|split; [|split; [|split]]].
      * rewrite map_app. cbn [map fst].
        clear -D1 Ni. induction (map fst (entries s)) as [|x l IH]; cbn; [constructor; [intros []|constructor]|].
        inversion D1; subst. constructor; [|apply IH; auto; intro; apply Ni; right; auto].
        intro M. apply in_app_or in M. destruct M as [M|[M|[]]]; [auto|]. subst. apply Ni; left; reflexivity.
      * rewrite map_app. cbn [map snd]. clear -D2 B'. induction (map snd (entries s)) as [|x l IH]; cbn; [constructor; [intros []|constructor]|].
        inversion D2; subst. constructor; [|apply IH; auto; intros; apply B'; right; auto].
        intro M. apply in_app_or in M. destruct M as [M|[M|[]]]; [auto|]. subst. specialize (B' _ (or_introl eq_refl)). lia.
      * intros k' a M. rewrite app_length. cbn [length]. apply in_app_or in M. destruct M as [M|[M|[]]]; [pose proof (B _ _ M); lia|].
        injection M as <- <-. lia.
      * apply Forall2_app; [|constructor; [|constructor]].
        -- clear -F. induction F as [|h o l l' H F IH]; constructor; [|exact IH].
           destruct h, o; cbn in *; auto. apply in_or_app; left; exact H.
        -- cbn. apply in_or_app. right. left. reflexivity.
      * intro k'. unfold set, value, cell_of. cbn [entries cells].
        assert (lookup (entries s ++ [(k, length (cells s))]) k' = if k' =? k then Some (length (cells s)) else lookup (entries s) k') as ->.
        { unfold lookup. assert (forall (f : N * nat -> bool) l l', find f (l ++ l') = match find f l with Some x => Some x | None => find f l' end) as FA.
          { intros f l l'. induction l as [|x l IH]; cbn; [reflexivity|]. destruct (f x); auto. }
          rewrite FA. cbn [find fst]. destruct (k' =? k) eqn:E.
          - apply N.eqb_eq in E; subst k'. unfold lookup in L. destruct (find _ (entries s)); [discriminate|]. rewrite N.eqb_refl. reflexivity.
          - rewrite N.eqb_sym, E. destruct (find _ (entries s)); reflexivity. }
        destruct (k' =? k) eqn:E.
        -- rewrite app_nth2, Nat.sub_diag by lia. reflexivity.
        -- rewrite K. unfold value, cell_of. destruct (lookup (entries s) k') as [a|] eqn:L'; [|reflexivity].
           apply lookup_in, B in L'. rewrite app_nth1 by exact L'. reflexivity.
  - destruct (nth_error (handles s) h) as [[a|]|] eqn:N; try discriminate. injection E as <- <-. split; [|reflexivity].
    destruct (Forall2_nth _ _ _ _ _ F N) as ([k|] & Nk & H); [|contradiction].
    unfold rel. cbn [cells entries handles next held known]. unfold key_of. rewrite Nk.
    split; [exact D1|]. split; [exact D2|]. split; [exact B|]. split; [|exact K].
    apply Forall2_app; [exact F|]. constructor; [exact H|constructor].
  - destruct (nth_error (handles s) h) as [[a|]|] eqn:N; try discriminate. injection E as <- <-. split; [|reflexivity].
    unfold rel. cbn [cells entries handles next held known].
    split; [exact D1|]. split; [exact D2|]. split; [exact B|]. split; [|exact K].
    apply Forall2_set; [exact F|exact Logic.I|]. apply nth_error_Some. congruence.
  - destruct (nth_error (handles s) h) as [[a|]|] eqn:N; try discriminate. injection E as <- <-. split; [|reflexivity].
    destruct (Forall2_nth _ _ _ _ _ F N) as ([k|] & Nk & H); [|contradiction].
    cbn [next]. unfold key_of. rewrite Nk. cbn [same_handle] in H. pose proof (in_lookup _ _ _ D1 H) as L.
    assert (known t k = value s k) as Kk by apply K. unfold value in Kk. rewrite L in Kk. rewrite Kk.
    unfold rel. cbn [cells entries handles held known]. rewrite set_nth_length.
    split; [exact D1|]. split; [exact D2|]. split; [exact B|]. split; [exact F|].
    intro k'. unfold set, value, cell_of. cbn [entries cells]. destruct (k' =? k) eqn:E.
    + apply N.eqb_eq in E; subst k'. rewrite L, set_nth_nth, Nat.eqb_refl by (eapply B; eassumption). reflexivity.
    + rewrite K. unfold value, cell_of. destruct (lookup (entries s) k') as [a'|] eqn:L'; [|reflexivity].
      rewrite set_nth_nth by (eapply B; eassumption). destruct (Nat.eqb a a') eqn:E'; [|reflexivity].
      apply Nat.eqb_eq in E'; subst a'. apply lookup_in in L'. assert (k' = k) as -> by (eapply snd_inj; eassumption). rewrite N.eqb_refl in E. discriminate.
  - injection E as <- <-. split; [|reflexivity]. unfold rel, retain_since. cbn [cells entries handles next held known].
    set (p := fun e : N * nat => Nat.ltb 1 (strong_count s (snd e)) || (u - retain_idle <=? updated (cell_of s (snd e)))).
    split; [apply NoDup_filter_map; exact D1|]. split; [apply NoDup_filter_map; exact D2|]. split; [|split].
    + intros k a M. apply filter_In in M. eapply B. apply M.
    + assert (forall k a, In (Some k) (held t) -> In (k, a) (entries s) -> In (k, a) (filter p (entries s))) as Keep.
      { intros k a U M. apply filter_In. split; [exact M|]. unfold p. cbn [snd]. rewrite (counted_in_use s t k a R M).
        assert (in_use t k = true) as ->; [|reflexivity]. apply existsb_exists. exists (Some k). split; [exact U|apply N.eqb_refl]. }
      clear -F Keep. induction F as [|h o l l' H F IH]; constructor.
      * destruct h as [a|], o as [k|]; cbn in *; auto.
      * apply IH. intros k a U. apply Keep. right; exact U.
    + intro k. rewrite K. unfold value. cbn [entries]. destruct (lookup (entries s) k) as [a|] eqn:L.
      * pose proof (lookup_in _ _ _ L) as M. rewrite <- (counted_in_use s t k a R M).
        assert ((u <=? updated (cell_of s a) + retain_idle) = (u - retain_idle <=? updated (cell_of s a))) as -> by lia.
        destruct (Nat.ltb 1 (strong_count s a) || (u - retain_idle <=? updated (cell_of s a))) eqn:P.
        -- rewrite (in_lookup _ k a); [reflexivity|apply NoDup_filter_map; exact D1|]. apply filter_In. split; [exact M|exact P].
        -- destruct (lookup (filter p (entries s)) k) as [a'|] eqn:L'; [|reflexivity]. apply lookup_in in L'. apply filter_In in L'. destruct L' as [M' P'].
           pose proof (in_lookup _ _ _ D1 M') as L'. assert (a' = a) as -> by congruence. unfold p in P'. cbn [snd] in P'. congruence.
      * destruct (lookup (filter p (entries s)) k) as [a'|] eqn:L'; [|reflexivity]. apply lookup_in in L'. apply filter_In in L'. destruct L' as [M' _].
        pose proof (in_lookup _ _ _ D1 M'). congruence.
Qed.
Lemma run_rel : forall retain_idle l rs s, run retain_idle l rs s -> rel s (after retain_idle l).
Proof.
  intros retain_idle l rs s R. induction R as [|l rs s i s' r R IH E].
  - unfold rel, after. cbn. split; [constructor|]. split; [constructor|]. split; [intros ? ? []|]. split; [constructor|reflexivity].
  - unfold after. rewrite fold_left_app. cbn [fold_left]. apply (step_rel retain_idle s _ i s' r IH E).
Qed.
Lemma written_says : forall s t, rel s t -> says (written s) t.
Proof.
  intros s t (D1 & _ & _ & _ & K). unfold says, written. split.
  - rewrite map_map. cbn [fst]. exact D1.
  - intros k n. rewrite in_map_iff. split.
    + intros ([k' a] & E & M). cbn in E. injection E as <- <-. rewrite K. unfold value. rewrite (in_lookup _ _ _ D1 M). eauto.
    + intros [u E]. rewrite K in E. unfold value in E. destruct (lookup (entries s) k) as [a|] eqn:L; [|discriminate]. injection E as <- _.
      exists (k, a). split; [reflexivity|]. apply lookup_in. exact L.
Qed.

(** ** The theorems *)
Lemma run_snoc : forall retain_idle l i rs s, run retain_idle (l ++ [i]) rs s ->
  exists rs0 s0 r, run retain_idle l rs0 s0 /\ step retain_idle s0 i = Some (s, r) /\ rs = rs0 ++ match r with Some r => [r] | None => [] end.
Proof.
  intros retain_idle l i rs s R. inversion R as [|l0 rs0 s0 i0 s1 r R0 E0 X Y Z].
  - destruct l; discriminate.
  - apply app_inj_tail in X. destruct X as [-> ->]. exists rs0, s0, r. auto.
Qed.
Lemma run_app : forall retain_idle l' l rs s, run retain_idle (l ++ l') rs s -> exists rs0 s0 rs1, run retain_idle l rs0 s0 /\ rs = rs0 ++ rs1.
Proof.
  intros retain_idle l'. induction l' as [|i l' IH] using rev_ind; intros l rs s R.
  - rewrite app_nil_r in R. exists rs, s, []. rewrite app_nil_r. auto.
  - rewrite app_assoc in R. apply run_snoc in R. destruct R as (rs0 & s0 & r & R & _ & ->).
    destruct (IH l rs0 s0 R) as (rs1 & s1 & rs2 & R1 & ->). exists rs1, s1. rewrite <- app_assoc. eauto.
Qed.
Lemma reported : forall retain_idle l t rs s, run retain_idle (l ++ [Report t]) rs s ->
  exists rs0 r, rs = rs0 ++ [r] /\ says r (after retain_idle l).
Proof.
  intros retain_idle l t rs s R. apply run_snoc in R. destruct R as (rs0 & s0 & r & R & E & ->).
  pose proof (run_rel _ _ _ _ R) as V. destruct (step_rel _ _ _ _ _ _ V E) as [_ ->]. exists rs0, (written s0). split; [reflexivity|].
  apply written_says. exact V.
Qed.
Lemma in_use_known : forall retain_idle l rs s k, run retain_idle l rs s -> in_use (after retain_idle l) k = true ->
  exists v, known (after retain_idle l) k = Some v.
Proof.
  intros retain_idle l rs s k R U. pose proof (run_rel _ _ _ _ R) as V. destruct (held_kept s _ k V U) as [a L].
  destruct V as (_ & _ & _ & _ & K). rewrite K. unfold value. rewrite L. eauto.
Qed.
Lemma always_added : forall retain_idle l s k m u, always_in_use retain_idle s l k = true -> known s k = Some (m, u) ->
  exists u', known (fold_left (next retain_idle) l s) k = Some (m + added retain_idle s l k, u').
Proof.
  induction l as [|i l IH]; intros s k m u A K; [cbn; exists u; rewrite N.add_0_r; exact K|].
  cbn [always_in_use] in A. apply andb_true_iff in A. destruct A as [U A]. cbn [fold_left added].
  destruct i as [k' t|h|h|h n t|t].
  - apply (IH _ k m u A). cbn [next known]. destruct (known s k') eqn:E; [exact K|]. unfold set. destruct (k =? k') eqn:E'; [|exact K].
    apply N.eqb_eq in E'; subst k'. congruence.
  - apply (IH _ k m u A). exact K.
  - apply (IH _ k m u A). exact K.
  - cbn [next] in A |- *. destruct (key_of s h) as [k'|]; [|apply (IH s k m u A K)]. destruct (k' =? k) eqn:E.
    + apply N.eqb_eq in E; subst k'. rewrite K in A |- *. rewrite N.add_assoc. apply (IH _ k (m + n) t A). cbn [known]. unfold set. rewrite N.eqb_refl. reflexivity.
    + cbn [N.add]. apply (IH _ k m u A). cbn [known]. destruct (known s k') as [[? ?]|]; [|exact K]. unfold set. rewrite N.eqb_sym, E. exact K.
  - apply (IH _ k m u A). cbn [next known]. rewrite K, U. reflexivity.
Qed.
Lemma lossless : forall retain_idle l t l' t' rs s k n, run retain_idle (l ++ Report t :: l' ++ [Report t']) rs s ->
  always_in_use retain_idle (after retain_idle l) (Report t :: l') k = true ->
  exists rs0 r rs1 r', rs = rs0 ++ r :: rs1 ++ [r'] /\
    (In (k, n) r -> In (k, n + added retain_idle (after retain_idle l) (Report t :: l') k) r').
Proof.
  intros retain_idle l t l' t' rs s k n R A.
  replace (l ++ Report t :: l' ++ [Report t']) with ((l ++ Report t :: l') ++ [Report t']) in R by (rewrite <- app_assoc; reflexivity).
  pose proof R as R'. apply run_snoc in R'. destruct R' as (rs2 & s2 & o & R2 & E & ->).
  pose proof (run_rel _ _ _ _ R2) as V2. destruct (step_rel _ _ _ _ _ _ V2 E) as [_ ->].
  replace (l ++ Report t :: l') with ((l ++ [Report t]) ++ l') in R2 by (rewrite <- app_assoc; reflexivity).
  destruct (run_app _ _ _ _ _ R2) as (rs3 & s3 & rs4 & R3 & ->). destruct (reported _ _ _ _ _ R3) as (rs0 & r & -> & [_ Sr]).
  exists rs0, r, rs4, (written s2). split; [rewrite <- !app_assoc; reflexivity|]. intro M. apply Sr in M. destruct M as [u M].
  destruct (always_added retain_idle (Report t :: l') _ k n u A M) as [u' G]. destruct (written_says _ _ V2) as [_ Sw]. apply Sw.
  exists u'. unfold after. rewrite fold_left_app. exact G.
Qed.
