From Coq Require Import List Arith NArith ZArith Bool Lia Permutation.
From Verif Require Import P2cModel P2cSpec.
From Verif Require RecoverModel RecoverSpec.
Import ListNotations.
Open Scope nat_scope.

(* --- the cache *)
Lemma set_nth_length : forall (A : Type) (l : list A) i x, length (set_nth i x l) = length l.
Proof. induction l as [|y l IH]; intros [|i] x; cbn; auto. Qed.
Lemma set_nth_perm : forall (A : Type) (l : list A) i x v, nth_error l i = Some v -> Permutation (x :: l) (v :: set_nth i x l).
Proof.
  induction l as [|y l IH]; intros [|i] x v H; cbn in *; try discriminate.
  - injection H as ->. apply perm_swap.
  - specialize (IH i x v H). rewrite perm_swap, IH. apply perm_swap.
Qed.
Lemma swap_remove_perm : forall l i v, nth_error l i = Some v -> Permutation l (v :: swap_remove i l).
Proof.
  intros l i v H. unfold swap_remove. destruct (rev l) as [|z r] eqn:R.
  - apply (f_equal (@rev _)) in R. rewrite rev_involutive in R. subst. destruct i; discriminate.
  - assert (E : l = rev r ++ [z]) by (rewrite <- (rev_involutive l), R; reflexivity). rewrite E, removelast_last.
    assert (L : i < length l) by (apply nth_error_Some; congruence). rewrite E in L. rewrite app_length in *. cbn [length] in *.
    rewrite E in H. destruct (Nat.eqb_spec (S i) (length (rev r) + 1)) as [X|X].
    + rewrite nth_error_app2 in H by lia. replace (i - length (rev r)) with 0 in H by lia. injection H as ->. symmetry. apply Permutation_cons_append.
    + destruct (Nat.ltb_spec i (length (rev r) + 1)) as [_|]; [|lia]. rewrite nth_error_app1 in H by lia.
      rewrite <- Permutation_cons_append. apply set_nth_perm. exact H.
Qed.
Lemma index_of_some : forall a l i, index_of a l = Some i -> exists v, nth_error l i = Some v /\ s_addr v = a.
Proof.
  intros a. induction l as [|w l IH]; intros i H; [discriminate|]. cbn in H. unfold at_addr in H. destruct (N.eqb_spec (s_addr w) a) as [E|E].
  - injection H as <-. exists w. split; [reflexivity|exact E].
  - destruct (index_of a l) as [j|]; [|discriminate]. injection H as <-. apply IH. reflexivity.
Qed.
Lemma index_of_none : forall a l, index_of a l = None -> ~ In a (map s_addr l).
Proof.
  intros a. induction l as [|w l IH]; intros H I; [destruct I|]. cbn in H. unfold at_addr in H. destruct (N.eqb_spec (s_addr w) a) as [E|E]; [discriminate|].
  destruct (index_of a l); [discriminate|]. destruct I as [I|I]; [auto|]. exact (IH eq_refl I).
Qed.
Lemma ready_evict_in : forall a l v, NoDup (map s_addr l) -> (In v (ready_evict a l) <-> In v l /\ s_addr v <> a).
Proof.
  intros a l v ND. unfold ready_evict. destruct (index_of a l) as [i|] eqn:E.
  - destruct (index_of_some a l i E) as [w [W A]]. pose proof (swap_remove_perm l i w W) as P.
    assert (ND' : NoDup (map s_addr (w :: swap_remove i l))) by (apply (Permutation_NoDup (Permutation_map s_addr P)); exact ND).
    cbn in ND'. inversion ND' as [|x y NI ND2]; subst. split.
    + intros I. split; [apply (Permutation_in _ (Permutation_sym P)); right; exact I|]. intros X. apply NI. rewrite <- X. apply in_map. exact I.
    + intros [I X]. apply (Permutation_in _ P) in I. destruct I as [->|I]; [congruence|exact I].
  - apply index_of_none in E. split; [|tauto]. intros I. split; [exact I|]. intros X. apply E. rewrite <- X. apply in_map. exact I.
Qed.
Lemma ready_evict_nodup : forall a l, NoDup (map s_addr l) -> NoDup (map s_addr (ready_evict a l)).
Proof.
  intros a l ND. unfold ready_evict. destruct (index_of a l) as [i|] eqn:E; [|exact ND].
  destruct (index_of_some a l i E) as [w [W A]]. pose proof (swap_remove_perm l i w W) as P.
  pose proof (Permutation_NoDup (Permutation_map s_addr P) ND) as X. inversion X; assumption.
Qed.
Lemma swap_remove_in : forall l i w v, NoDup (map s_addr l) -> nth_error l i = Some w -> (In v (swap_remove i l) <-> In v l /\ s_addr v <> s_addr w).
Proof.
  intros l i w v ND W. pose proof (swap_remove_perm l i w W) as P.
  pose proof (Permutation_NoDup (Permutation_map s_addr P) ND) as ND'. cbn in ND'. inversion ND' as [|x y NI ND2]; subst. split.
  - intros I. split; [apply (Permutation_in _ (Permutation_sym P)); right; exact I|]. intros X. apply NI. rewrite <- X. apply in_map. exact I.
  - intros [I X]. apply (Permutation_in _ P) in I. destruct I as [->|I]; [congruence|exact I].
Qed.
Lemma swap_remove_nodup : forall l i w, NoDup (map s_addr l) -> nth_error l i = Some w -> NoDup (map s_addr (swap_remove i l)).
Proof.
  intros l i w ND W. pose proof (Permutation_NoDup (Permutation_map s_addr (swap_remove_perm l i w W)) ND) as X. inversion X; assumption.
Qed.
Lemma ready_insert_addrs : forall v l, incl (map s_addr (ready_insert v l)) (s_addr v :: map s_addr l).
Proof.
  intros v. induction l as [|w l IH]; intros a I; [exact I|]. cbn in I. destruct (at_addr (s_addr v) w) eqn:E; cbn in I |- *.
  - unfold at_addr in E. apply N.eqb_eq in E. destruct I as [I|I]; auto.
  - destruct I as [I|I]; auto. destruct (IH a I) as [X|X]; auto.
Qed.
Lemma ready_insert_nodup : forall v l, NoDup (map s_addr l) -> NoDup (map s_addr (ready_insert v l)).
Proof.
  intros v. induction l as [|w l IH]; intros ND; cbn; [constructor; [intros []|constructor]|].
  cbn in ND. inversion ND as [|x y NI ND2]; subst. unfold at_addr. destruct (N.eqb_spec (s_addr w) (s_addr v)) as [E|E]; cbn.
  - rewrite <- E. constructor; assumption.
  - constructor; [|apply IH; exact ND2]. intros I. apply ready_insert_addrs in I. destruct I as [I|I]; [congruence|auto].
Qed.
Lemma ready_insert_in : forall v l w, NoDup (map s_addr l) -> (In w (ready_insert v l) <-> w = v \/ (In w l /\ s_addr w <> s_addr v)).
Proof.
  intros v. induction l as [|x l IH]; intros w ND; cbn; [intuition|].
  cbn in ND. inversion ND as [|y z NI ND2]; subst. unfold at_addr. destruct (N.eqb_spec (s_addr x) (s_addr v)) as [E|E]; cbn.
  - split.
    + intros [->|I]; [auto|]. right. split; [auto|]. intros X. apply NI. rewrite E, <- X. apply in_map. exact I.
    + intros [->|[[->|I] X]]; auto. congruence.
  - rewrite (IH w ND2). split.
    + intros [->|[->|[I X]]]; auto.
    + intros [->|[[->|I] X]]; auto.
Qed.
Lemma ready_insert_length : forall v l i, i < length l -> i < length (ready_insert v l).
Proof. intros v. induction l as [|x l IH]; intros i H; cbn in *; [lia|]. destruct (at_addr (s_addr v) x); cbn; [lia|]. destruct i; [lia|]. specialize (IH i). lia. Qed.
Lemma pending_drop_in : forall a l v, In v (pending_drop a l) <-> In v l /\ s_addr v <> a.
Proof. intros. unfold pending_drop, at_addr. rewrite filter_In. destruct (N.eqb_spec (s_addr v) a); cbn; intuition congruence. Qed.
Lemma filter_nodup : forall f l, NoDup (map s_addr l) -> NoDup (map s_addr (filter f l)).
Proof.
  intros f. induction l as [|x l IH]; intros ND; [constructor|]. cbn in *. inversion ND as [|y z NI ND2]; subst. destruct (f x); [|auto].
  cbn. constructor; [|auto]. intros I. apply NI. apply in_map_iff in I. destruct I as [w [E I]]. rewrite <- E. apply in_map. apply filter_In in I. tauto.
Qed.
Lemma pending_push_nodup : forall v l, NoDup (map s_addr l) -> NoDup (map s_addr (pending_push v l)).
Proof.
  intros v l ND. unfold pending_push. cbn. constructor; [|apply filter_nodup; exact ND]. intros I. apply in_map_iff in I. destruct I as [w [E I]]. apply pending_drop_in in I. tauto.
Qed.
Lemma existsb_addr : forall a l, existsb (at_addr a) l = true <-> In a (map s_addr l).
Proof.
  intros. rewrite existsb_exists, in_map_iff. unfold at_addr. split; intros [x [A B]]; exists x; [apply N.eqb_eq in B|apply N.eqb_eq in A]; auto.
Qed.
Lemma pending_back_in : forall v l w, In w (pending_back v l) <-> In w l \/ (w = v /\ ~ In (s_addr v) (map s_addr l)).
Proof.
  intros. unfold pending_back. pose proof (existsb_addr (s_addr v) l) as X. destruct (existsb (at_addr (s_addr v)) l).
  - intuition.
  - cbn. assert (~ In (s_addr v) (map s_addr l)) by (intros I; apply X in I; discriminate). intuition.
Qed.
Lemma pending_back_nodup : forall v l, NoDup (map s_addr l) -> NoDup (map s_addr (pending_back v l)).
Proof.
  intros. unfold pending_back. pose proof (existsb_addr (s_addr v) l) as X. destruct (existsb (at_addr (s_addr v)) l); [assumption|].
  cbn. constructor; [|assumption]. intros I. apply X in I. discriminate.
Qed.
Lemma nodup_addr : forall l v w, NoDup (map s_addr l) -> In v l -> In w l -> s_addr v = s_addr w -> v = w.
Proof.
  induction l as [|x l IH]; intros v w ND I J E; [destruct I|]. cbn in ND. inversion ND as [|y z NI ND2]; subst.
  destruct I as [->|I], J as [->|J]; auto; exfalso; apply NI; [rewrite E|rewrite <- E]; apply in_map; assumption.
Qed.

(* --- maps *)
Lemma get_put : forall a t m b, get b (put a t m) = if (a =? b)%N then Some t else get b m.
Proof.
  intros. unfold get, put, del. cbn [find fst]. destruct (N.eqb_spec a b) as [->|NE]; [reflexivity|]. f_equal.
  induction m as [|e m IH]; [reflexivity|]. cbn. destruct (N.eqb_spec (fst e) a) as [E|E]; cbn.
  - destruct (N.eqb_spec (fst e) b); [congruence|exact IH].
  - destruct (fst e =? b)%N; [reflexivity|exact IH].
Qed.
Lemma get_del : forall a m b, get b (del a m) = if (a =? b)%N then None else get b m.
Proof.
  intros. unfold get, del. destruct (N.eqb_spec a b) as [->|NE].
  - induction m as [|e m IH]; [reflexivity|]. cbn. destruct (N.eqb_spec (fst e) b) as [E|E]; cbn; [exact IH|].
    destruct (N.eqb_spec (fst e) b); [congruence|exact IH].
  - f_equal. induction m as [|e m IH]; [reflexivity|]. cbn. destruct (N.eqb_spec (fst e) a) as [E|E]; cbn.
    + destruct (N.eqb_spec (fst e) b); [congruence|exact IH].
    + destruct (fst e =? b)%N; [reflexivity|exact IH].
Qed.
Lemma del_incl : forall a m, incl (map fst (del a m)) (map fst m).
Proof. intros a m x I. apply in_map_iff in I. destruct I as [e [E I]]. apply filter_In in I. rewrite <- E. apply in_map. tauto. Qed.
Lemma del_nodup : forall a m, NoDup (map fst m) -> NoDup (map fst (del a m)).
Proof.
  intros a. induction m as [|e m IH]; intros ND; [constructor|]. cbn in *. inversion ND as [|y z NI ND2]; subst. destruct (negb (fst e =? a)%N); [|auto].
  cbn. constructor; [|auto]. intros I. apply NI. exact (del_incl a m _ I).
Qed.
Lemma put_nodup : forall a t m, NoDup (map fst m) -> NoDup (map fst (put a t m)).
Proof.
  intros. unfold put. cbn. constructor; [|apply del_nodup; assumption]. intros I. apply in_map_iff in I. destruct I as [e [E I]]. apply filter_In in I.
  destruct I as [_ I]. rewrite E, N.eqb_refl in I. discriminate.
Qed.
Lemma get_none : forall a m, get a m = None <-> ~ In a (map fst m).
Proof.
  intros a m. unfold get. induction m as [|e m IH]; cbn; [tauto|]. destruct (N.eqb_spec (fst e) a) as [E|E]; cbn; [|tauto].
  split; [discriminate|]. intros X. exfalso. auto.
Qed.
Lemma del_length : forall a m, NoDup (map fst m) -> length m = length (del a m) + match get a m with Some _ => 1 | None => 0 end.
Proof.
  intros a. induction m as [|e m IH]; intros ND; [reflexivity|]. cbn in ND. inversion ND as [|y z NI ND2]; subst. specialize (IH ND2).
  unfold get, del in *. cbn [find filter option_map snd fst length]. destruct (N.eqb_spec (fst e) a) as [E|E]; cbn [negb length option_map].
  - assert (G : get a m = None) by (apply get_none; congruence). unfold get in G. rewrite G in IH. lia.
  - lia.
Qed.

(* --- the invariant on services, whatever the map *)
Definition newest_of (b : list svc) (a : N) : option svc := find (fun v => (s_addr v =? a)%N) (rev b).
Lemma newest_snoc : forall b v a, newest_of (b ++ [v]) a = if (s_addr v =? a)%N then Some v else newest_of b a.
Proof. intros. unfold newest_of. rewrite rev_app_distr. reflexivity. Qed.
Lemma newest_in : forall b a v, newest_of b a = Some v -> In v b /\ s_addr v = a.
Proof. intros b a v H. apply find_some in H. destruct H as [I E]. apply N.eqb_eq in E. split; [apply in_rev; exact I|exact E]. Qed.

Record core (M : N -> option N) (b bec : list svc) (r p : list svc) : Prop := Core {
  c_rnd : NoDup (map s_addr r);
  c_pnd : NoDup (map s_addr p);
  c_built : forall v, In v (r ++ p) -> In v b;
  c_ids : forall i v, nth_error b i = Some v -> sid v = i;
  c_bec : incl bec b;
  c_known : forall v, In v (r ++ p) -> M (s_addr v) <> None;
  c_new : forall a t, M a = Some t -> exists w, newest_of b a = Some w /\ s_target w = t /\ In w (r ++ p);
  c_pend : forall v, In v p -> newest_of b (s_addr v) = Some v;
  c_old : forall v w, In v r -> newest_of b (s_addr v) = Some w -> v <> w -> In w p /\ ~ In w bec }.
Lemma ids_unique : forall b v w, (forall i v, nth_error b i = Some v -> sid v = i) -> In v b -> In w b -> sid v = sid w -> v = w.
Proof.
  intros b v w H I J E. apply In_nth_error in I, J. destruct I as [i I], J as [j J]. pose proof (H _ _ I). pose proof (H _ _ J). subst.
  assert (sid v = sid w) by congruence. congruence.
Qed.
Lemma core_ext : forall M M' b bec r p, (forall a, M a = M' a) -> core M b bec r p -> core M' b bec r p.
Proof.
  intros M M' b bec r p E [C1 C2 C3 C4 C5 C6 C7 C8 C9]. constructor; auto.
  - intros v I. rewrite <- E. auto.
  - intros a t H. apply C7. rewrite E. exact H.
Qed.
Definition upd (M : N -> option N) (a : N) (x : option N) (c : N) : option N := if (a =? c)%N then x else M c.
Lemma core_push : forall M b bec r p a t, core M b bec r p ->
  core (upd M a (Some t)) (b ++ [Svc (length b) a t]) bec r (pending_push (Svc (length b) a t) p).
Proof.
  intros M b bec r p a t [C1 C2 C3 C4 C5 C6 C7 C8 C9]. set (v := Svc (length b) a t).
  assert (F : ~ In v b). { intros I. apply In_nth_error in I. destruct I as [i I]. pose proof (C4 _ _ I) as E. cbn in E. assert (i < length b) by (apply nth_error_Some; congruence). lia. }
  assert (IN : forall w, In w (r ++ pending_push v p) -> w = v \/ In w (r ++ p)).
  { intros w I. rewrite in_app_iff in *. destruct I as [I|[I|I]]; auto. apply pending_drop_in in I. tauto. }
  constructor.
  - exact C1.
  - apply pending_push_nodup. exact C2.
  - intros w I. apply in_app_iff. apply IN in I. destruct I as [->|I]; [right; left; reflexivity|left; auto].
  - intros i w H. destruct (Nat.lt_ge_cases i (length b)) as [L|L].
    + rewrite nth_error_app1 in H by exact L. auto.
    + rewrite nth_error_app2 in H by exact L. destruct (i - length b) eqn:D; cbn in H; [|destruct n; discriminate]. injection H as <-. cbn. lia.
  - intros w I. apply in_app_iff. left. auto.
  - intros w I. unfold upd. destruct (N.eqb_spec a (s_addr w)); [discriminate|]. apply IN in I. destruct I as [->|I]; [cbn in *; congruence|auto].
  - intros c x H. rewrite newest_snoc. cbn [s_addr v]. unfold upd in H. destruct (N.eqb_spec a c) as [->|NE].
    + injection H as <-. exists v. split; [reflexivity|]. split; [reflexivity|]. apply in_app_iff. right. left. reflexivity.
    + destruct (C7 c x H) as [w [W1 [W2 W3]]]. exists w. split; [exact W1|]. split; [exact W2|]. apply newest_in in W1. destruct W1 as [_ W1].
      apply in_app_iff in W3. apply in_app_iff. destruct W3 as [W3|W3]; [left; exact W3|right; right; apply pending_drop_in; split; [exact W3|cbn; congruence]].
  - intros w I. rewrite newest_snoc. destruct I as [<-|I]; [cbn; rewrite N.eqb_refl; reflexivity|]. apply pending_drop_in in I. destruct I as [I X]. cbn in X.
    cbn [s_addr v]. destruct (N.eqb_spec a (s_addr w)); [congruence|auto].
  - intros w x I H NE. rewrite newest_snoc in H. cbn [s_addr v] in H. destruct (N.eqb_spec a (s_addr w)) as [E|E].
    + injection H as <-. split; [left; reflexivity|]. intros J. apply F. apply C5. exact J.
    + destruct (C9 w x I H NE) as [P Q]. split; [|exact Q]. right. apply pending_drop_in. split; [exact P|]. apply newest_in in H. cbn. destruct H. congruence.
Qed.
Lemma core_evict : forall M b bec r p a, core M b bec r p -> core (upd M a None) b bec (ready_evict a r) (pending_drop a p).
Proof.
  intros M b bec r p a [C1 C2 C3 C4 C5 C6 C7 C8 C9].
  assert (IN : forall w, In w (ready_evict a r ++ pending_drop a p) <-> In w (r ++ p) /\ s_addr w <> a).
  { intros w. rewrite !in_app_iff, ready_evict_in, pending_drop_in by exact C1. tauto. }
  constructor; auto.
  - apply ready_evict_nodup. exact C1.
  - apply filter_nodup. exact C2.
  - intros v I. apply IN in I. apply C3. tauto.
  - intros v I. apply IN in I. unfold upd. destruct (N.eqb_spec a (s_addr v)); [intuition congruence|]. apply C6. tauto.
  - intros c t H. unfold upd in H. destruct (N.eqb_spec a c); [discriminate|]. destruct (C7 c t H) as [w [W1 [W2 W3]]]. exists w. repeat split; auto.
    apply IN. split; [exact W3|]. apply newest_in in W1. destruct W1. congruence.
  - intros v I. apply pending_drop_in in I. apply C8. tauto.
  - intros v w I H NE. apply ready_evict_in in I; [|exact C1]. destruct I as [I X]. destruct (C9 v w I H NE) as [P Q]. split; [|exact Q].
    apply pending_drop_in. split; [exact P|]. apply newest_in in H. destruct H. congruence.
Qed.
Lemma core_ready : forall M b bec r p v, core M b bec r p -> In v p -> core M b (bec ++ [v]) (ready_insert v r) (pending_drop (s_addr v) p).
Proof.
  intros M b bec r p v [C1 C2 C3 C4 C5 C6 C7 C8 C9] IV.
  assert (IN : forall w, In w (ready_insert v r ++ pending_drop (s_addr v) p) <-> w = v \/ (In w (r ++ p) /\ s_addr w <> s_addr v)).
  { intros w. rewrite !in_app_iff, ready_insert_in, pending_drop_in by exact C1. tauto. }
  assert (IVP : In v (r ++ p)) by (apply in_app_iff; auto).
  constructor.
  - apply ready_insert_nodup. exact C1.
  - apply filter_nodup. exact C2.
  - intros w I. apply IN in I. destruct I as [->|I]; apply C3; tauto.
  - exact C4.
  - intros w I. apply in_app_iff in I. destruct I as [I|[<-|[]]]; auto.
  - intros w I. apply IN in I. destruct I as [->|I]; apply C6; tauto.
  - intros a t H. destruct (C7 a t H) as [w [W1 [W2 W3]]]. exists w. split; [exact W1|]. split; [exact W2|]. apply IN.
    destruct (N.eq_dec (s_addr w) (s_addr v)) as [E|E]; [left|right; auto]. pose proof (C8 v IV) as X. apply newest_in in W1 as W4. destruct W4 as [_ W4]. congruence.
  - intros w I. apply pending_drop_in in I. apply C8. tauto.
  - intros w x I H NE. apply ready_insert_in in I; [|exact C1]. destruct I as [->|[I X]].
    + rewrite (C8 v IV) in H. injection H as H. congruence.
    + destruct (C9 w x I H NE) as [P Q]. split.
      * apply pending_drop_in. split; [exact P|]. apply newest_in in H. destruct H. congruence.
      * intros J. apply in_app_iff in J. destruct J as [J|[J|[]]]; [auto|]. subst x. apply newest_in in H. destruct H. congruence.
Qed.
Lemma core_back : forall M b bec r p i v, core M b bec r p -> nth_error r i = Some v -> core M b bec (swap_remove i r) (pending_back v p).
Proof.
  intros M b bec r p i v [C1 C2 C3 C4 C5 C6 C7 C8 C9] H0. pose proof (nth_error_In _ _ H0) as IV.
  assert (IVP : In v (r ++ p)) by (apply in_app_iff; auto).
  assert (IN : forall w, In w (swap_remove i r ++ pending_back v p) -> In w (r ++ p)).
  { intros w. rewrite !in_app_iff, (swap_remove_in _ _ _ _ C1 H0), pending_back_in. intros [[I _]|[I|[-> _]]]; auto. }
  assert (NW : forall w, newest_of b (s_addr v) = Some w -> ~ In (s_addr v) (map s_addr p) -> v = w).
  { intros w H N. assert (DE : {v = w} + {v <> w}) by (decide equality; [apply N.eq_dec|apply N.eq_dec|apply Nat.eq_dec]). destruct DE as [E|E]; [exact E|]. exfalso. destruct (C9 v w IV H E) as [P _]. apply N. apply newest_in in H. destruct H as [_ H].
    rewrite <- H. apply in_map. exact P. }
  constructor; auto.
  - exact (swap_remove_nodup r i v C1 H0).
  - apply pending_back_nodup. exact C2.
  - intros a t H. destruct (C7 a t H) as [w [W1 [W2 W3]]]. exists w. split; [exact W1|]. split; [exact W2|]. rewrite in_app_iff, (swap_remove_in _ _ _ _ C1 H0), pending_back_in.
    apply in_app_iff in W3. destruct W3 as [W3|W3]; [|auto]. destruct (N.eq_dec (s_addr w) (s_addr v)) as [E|E]; [|auto]. right.
    assert (w = v) by exact (nodup_addr r w v C1 W3 IV E). subst w. pose proof (existsb_addr (s_addr v) p) as X. destruct (existsb (at_addr (s_addr v)) p).
    + destruct X as [X _]. specialize (X eq_refl). apply in_map_iff in X. destruct X as [y [Y1 Y2]]. pose proof (C8 y Y2) as Z. rewrite Y1 in Z.
      apply newest_in in W1 as W4. destruct W4 as [_ W4]. assert (v = y) by congruence. subst y.
      left. exact Y2.
    + right. split; [reflexivity|]. intros I. apply X in I. discriminate.
  - intros w I. apply pending_back_in in I. destruct I as [I|[-> N]]; [auto|].
    destruct (newest_of b (s_addr v)) as [w|] eqn:W; [f_equal; symmetry; auto|]. exfalso.
    pose proof (C6 v IVP) as K. destruct (M (s_addr v)) as [t|] eqn:E; [|congruence]. destruct (C7 _ _ E) as [w [W1 _]]. congruence.
  - intros w x I H NE. apply (swap_remove_in _ _ _ _ C1 H0) in I. destruct I as [I X]. destruct (C9 w x I H NE) as [P Q]. split; [|exact Q]. apply pending_back_in. auto.
Qed.

(* --- updates *)
Definition both (eps rest : list (N * N)) (c : N) : option N := match get c eps with Some t => Some t | None => get c rest end.
Definition disjoint (eps rest : list (N * N)) : Prop := forall c, get c eps <> None -> get c rest = None.
Lemma same_iff : forall o t, same o t = true <-> o = Some t.
Proof. intros [x|] t; cbn; [|split; discriminate]. rewrite N.eqb_eq. split; congruence. Qed.
Lemma move_both : forall a t eps rest c, both (put a t eps) (del a rest) c = upd (both eps rest) a (Some t) c.
Proof. intros. unfold both, upd. rewrite get_put, get_del. destruct (a =? c)%N; reflexivity. Qed.
Lemma move_disjoint : forall a t eps rest, disjoint eps rest -> disjoint (put a t eps) (del a rest).
Proof. intros a t eps rest H c. rewrite get_put, get_del. destruct (a =? c)%N; [reflexivity|apply H]. Qed.
Lemma reset_loop_spec : forall l rest eps p n c rest' eps' p' b' c' b bec r,
  reset_loop l rest eps p n c = (rest', eps', p', b', c') ->
  n = length b -> NoDup (map fst rest) -> NoDup (map fst eps) -> disjoint eps rest -> core (both eps rest) b bec r p ->
  core (both eps' rest') (b ++ b') bec r p' /\ NoDup (map fst rest') /\ NoDup (map fst eps') /\ disjoint eps' rest' /\
  (c' = c /\ b' = [] /\ length rest' + length eps' = length rest + length eps \/ c' = true) /\
  (forall a, get a eps' = target_of a (fold_left RecoverSpec.insert l eps)).
Proof.
  induction l as [|[a t] l IH]; intros rest eps p n c rest' eps' p' b' c' b bec r H EN N1 N2 D C; cbn [reset_loop] in H.
  - injection H as <- <- <- <- <-. rewrite app_nil_r. split; [exact C|]. split; [exact N1|]. split; [exact N2|]. split; [exact D|]. split; [left; auto|reflexivity].
  - destruct (same (get a rest) t) eqn:SM.
    + apply same_iff in SM. apply IH with (b := b) (bec := bec) (r := r) in H; auto using del_nodup, put_nodup, move_disjoint.
      * destruct H as [H1 [H2 [H3 [H4 [H5 H6]]]]]. split; [exact H1|]. split; [exact H2|]. split; [exact H3|]. split; [exact H4|]. split; [|exact H6]. destruct H5 as [[H5 [H7 H8]]|H5]; [left; repeat split; auto|right; auto].
        rewrite H8. unfold put. cbn [length]. pose proof (del_length a rest N1) as X. rewrite SM in X.
        pose proof (del_length a eps N2) as Y. destruct (get a eps) as [x|] eqn:G; [rewrite D in SM by (rewrite G; discriminate); discriminate|]. lia.
      * apply core_ext with (M := both eps rest); [|exact C]. intros x. rewrite move_both. unfold upd. destruct (N.eqb_spec a x) as [->|]; [|reflexivity].
        unfold both. destruct (get x eps) as [y|] eqn:G; [rewrite D in SM by (rewrite G; discriminate); discriminate|exact SM].
    + destruct (reset_loop l (del a rest) (put a t eps) (pending_push (Svc n a t) p) (S n) true) as [[[[rest1 eps1] p1] b1] c1] eqn:L. injection H as <- <- <- <- <-.
      apply IH with (b := b ++ [Svc n a t]) (bec := bec) (r := r) in L; auto using del_nodup, put_nodup, move_disjoint.
      * destruct L as [H1 [H2 [H3 [H4 [H5 H6]]]]]. rewrite <- app_assoc in H1. cbn in H1. split; [exact H1|]. split; [exact H2|]. split; [exact H3|]. split; [exact H4|]. split; [|exact H6]. right. destruct H5 as [[-> _]| ->]; reflexivity.
      * rewrite app_length. cbn. lia.
      * subst n. apply core_ext with (M := upd (both eps rest) a (Some t)); [intros; symmetry; apply move_both|]. apply core_push. exact C.
Qed.
Lemma evict_all : forall (rest : list (N * N)) M b bec r p, core M b bec r p ->
  core (fun c => if existsb (fun e => (fst e =? c)%N) rest then None else M c) b bec
    (fold_left (fun r e => ready_evict (fst e) r) rest r) (fold_left (fun p e => pending_drop (fst e) p) rest p).
Proof.
  induction rest as [|e rest IH]; intros M b bec r p C; cbn [fold_left existsb].
  - exact C.
  - apply core_ext with (M := fun c => if existsb (fun e0 => (fst e0 =? c)%N) rest then None else upd M (fst e) None c).
    + intros c. unfold upd. destruct (fst e =? c)%N, (existsb (fun e0 => (fst e0 =? c)%N) rest); reflexivity.
    + apply IH. apply core_evict. exact C.
Qed.
Lemma get_existsb : forall c (m : list (N * N)), existsb (fun e => (fst e =? c)%N) m = match get c m with Some _ => true | None => false end.
Proof. intros. unfold get. induction m as [|e m IH]; [reflexivity|]. cbn. destruct (fst e =? c)%N; [reflexivity|exact IH]. Qed.
Definition the_map (s : state) : N -> option N := fun c => get c (endpoints s).
Record good (b bec : list svc) (s : state) : Prop := Good {
  g_nodup : NoDup (map fst (endpoints s));
  g_made : made s = length b;
  g_gauge : gauge s = Z.of_nat (length (endpoints s));
  g_core : core (the_map s) b bec (ready s) (pending s);
  g_next : forall i, next_idx s = Some i -> i < length (ready s) }.
Lemma reset_good : forall s l b bec s' b', good b bec s -> reset_pool s l = (s', b') ->
  good (b ++ b') bec s' /\ failed s' = failed s /\ (forall a, get a (endpoints s') = target_of a (fold_left RecoverSpec.insert l [])).
Proof.
  intros s l b bec s' b' [G1 G2 G3 G4 G5] H. unfold reset_pool in H.
  destruct (reset_loop l (endpoints s) [] (pending s) (made s) false) as [[[[rest eps] p] b1] c] eqn:L. injection H as <- <-.
  apply reset_loop_spec with (b := b) (bec := bec) (r := ready s) in L; auto; [|constructor|intros c0 X; exfalso; apply X; reflexivity].
  destruct L as [L1 [L2 [L3 [L4 [L5 L6]]]]]. split; [|split; [reflexivity|exact L6]].
  constructor; cbn [endpoints made gauge ready pending next_idx failed].
  - exact L3.
  - rewrite app_length. lia.
  - destruct L5 as [[-> [-> L5]]| ->]; [|reflexivity]. destruct rest as [|e rest]; [|reflexivity]. cbn in L5 |- *. rewrite G3. f_equal. lia.
  - apply (core_ext (fun c => if existsb (fun e => (fst e =? c)%N) rest then None else both eps rest c)).
    + intros c0. unfold both, the_map. cbn [endpoints]. rewrite get_existsb. pose proof (L4 c0) as X. destruct (get c0 eps) as [t|] eqn:E1; [rewrite X by discriminate; reflexivity|].
      destruct (get c0 rest); reflexivity.
    + apply evict_all. exact L1.
  - intros i. destruct (c || match rest with [] => false | _ => true end) eqn:E; [discriminate|].
    apply orb_false_iff in E. destruct E as [_ E]. destruct rest; [|discriminate]. cbn. apply G5.
Qed.
Lemma add_good : forall s e b bec s' b', good b bec s -> add_endpoint s e = (s', b') ->
  good (b ++ b') bec s' /\ failed s' = failed s /\ ready s' = ready s /\ (forall a, get a (endpoints s') = upd (the_map s) (fst e) (Some (snd e)) a).
Proof.
  intros s [a t] b bec s' b' [G1 G2 G3 G4 G5] H. unfold add_endpoint in H. cbn [fst snd]. destruct (same (get a (endpoints s)) t) eqn:SM.
  - injection H as <- <-. rewrite app_nil_r. split; [constructor; assumption|]. repeat split. intros c. unfold upd, the_map. apply same_iff in SM. destruct (N.eqb_spec a c) as [<-|]; [exact SM|reflexivity].
  - injection H as <- <-. assert (GP : forall c, get c (put a t (endpoints s)) = upd (the_map s) a (Some t) c) by (intros; apply get_put). split; [|repeat split; exact GP].
    constructor; cbn [endpoints made gauge ready pending next_idx failed].
    + apply put_nodup. exact G1.
    + rewrite app_length. cbn. lia.
    + unfold put. cbn [length]. pose proof (del_length a (endpoints s) G1) as X. destruct (get a (endpoints s)); lia.
    + rewrite G2. apply (core_ext (upd (the_map s) a (Some t))); [intros; symmetry; apply GP|]. apply core_push. exact G4.
    + exact G5.
Qed.
Lemma target_insert : forall v e a, target_of a (RecoverSpec.insert v e) = upd (fun c => target_of c v) (fst e) (Some (snd e)) a.
Proof. intros v [x y] a. exact (get_put x y v a). Qed.
Lemma insert_ext : forall l v w a, (forall c, target_of c v = target_of c w) -> target_of a (fold_left RecoverSpec.insert l v) = target_of a (fold_left RecoverSpec.insert l w).
Proof. induction l as [|e l IH]; intros v w a H; [apply H|]. cbn. apply IH. intros c. rewrite !target_insert. unfold upd. destruct (fst e =? c)%N; [reflexivity|apply H]. Qed.
Lemma add_all_good : forall l s b bec s' b' v, good b bec s -> add_all s l = (s', b') -> (forall a, get a (endpoints s) = target_of a v) ->
  good (b ++ b') bec s' /\ failed s' = failed s /\ ready s' = ready s /\ (forall a, get a (endpoints s') = target_of a (fold_left RecoverSpec.insert l v)).
Proof.
  induction l as [|e l IH]; intros s b bec s' b' v G H E; cbn in H.
  - injection H as <- <-. rewrite app_nil_r. auto.
  - destruct (add_endpoint s e) as [s1 b1] eqn:A. destruct (add_all s1 l) as [s2 b2] eqn:B. injection H as <- <-.
    destruct (add_good _ _ _ _ _ _ G A) as [G1 [F1 [R1 E1]]]. destruct (IH s1 (b ++ b1) bec s2 b2 (RecoverSpec.insert v e) G1 B) as [G2 [F2 [R2 E2]]].
    + intros a. rewrite E1, target_insert. unfold upd, the_map. destruct (fst e =? a)%N; [reflexivity|apply E].
    + rewrite app_assoc. split; [exact G2|]. split; [congruence|]. split; [congruence|exact E2].
Qed.
Lemma remove_good : forall s a b bec, good b bec s ->
  good b bec (remove_endpoint s a) /\ failed (remove_endpoint s a) = failed s /\ (forall c, get c (endpoints (remove_endpoint s a)) = upd (the_map s) a None c).
Proof.
  intros s a b bec G. destruct G as [G1 G2 G3 G4 G5]. unfold remove_endpoint. destruct (get a (endpoints s)) as [t|] eqn:E.
  - cbn [endpoints failed]. assert (GD : forall c, get c (del a (endpoints s)) = upd (the_map s) a None c) by (intros; apply get_del). split; [|split; [reflexivity|exact GD]].
    constructor; cbn [endpoints made gauge ready pending next_idx failed]; auto using del_nodup.
    + pose proof (del_length a (endpoints s) G1) as X. rewrite E in X. lia.
    + apply (core_ext (upd (the_map s) a None)); [intros; symmetry; apply GD|]. apply core_evict. exact G4.
    + discriminate.
  - split; [constructor; assumption|]. split; [reflexivity|]. intros c. unfold upd, the_map. destruct (N.eqb_spec a c) as [<-|]; auto.
Qed.
Lemma remove_all_good : forall l s b bec, good b bec s ->
  good b bec (fold_left remove_endpoint l s) /\ failed (fold_left remove_endpoint l s) = failed s /\
  (forall c, get c (endpoints (fold_left remove_endpoint l s)) = if existsb (N.eqb c) l then None else get c (endpoints s)).
Proof.
  induction l as [|a l IH]; intros s b bec G; cbn [fold_left existsb]; [auto|].
  destruct (remove_good s a b bec G) as [G1 [F1 E1]]. destruct (IH _ _ _ G1) as [G2 [F2 E2]]. split; [exact G2|]. split; [congruence|].
  intros c. rewrite E2, E1. unfold upd, the_map. rewrite (N.eqb_sym c a). destruct (a =? c)%N, (existsb (N.eqb c) l); reflexivity.
Qed.
Lemma target_filter : forall l v a, target_of a (filter (fun x => negb (existsb (N.eqb (fst x)) l)) v) = if existsb (N.eqb a) l then None else target_of a v.
Proof.
  intros l v a. unfold target_of. induction v as [|e v IH]; [destruct (existsb (N.eqb a) l); reflexivity|]. cbn.
  destruct (N.eqb_spec (fst e) a) as [<-|NE].
  - destruct (existsb (N.eqb (fst e)) l); cbn; [exact IH|]. rewrite N.eqb_refl. reflexivity.
  - destruct (existsb (N.eqb (fst e)) l); cbn; [exact IH|]. destruct (N.eqb_spec (fst e) a); [congruence|exact IH].
Qed.
Lemma reset_ready_incl : forall s l, incl (ready (fst (reset_pool s l))) (ready s).
Proof.
  intros s l. unfold reset_pool. destruct (reset_loop l (endpoints s) [] (pending s) (made s) false) as [[[[rest eps] p] b1] c]. cbn [fst ready].
  generalize (ready s). induction rest as [|e rest IH]; intros r; cbn; [apply incl_refl|]. eapply incl_tran; [apply IH|]. intros v.
  unfold ready_evict. destruct (index_of (fst e) r) as [i|] eqn:E; [|auto]. destruct (index_of_some _ _ _ E) as [w [W _]]. intros I.
  apply (Permutation_in _ (Permutation_sym (swap_remove_perm r i w W))). right. exact I.
Qed.
Lemma ready_evict_incl : forall a r, incl (ready_evict a r) r.
Proof.
  intros a r v. unfold ready_evict. destruct (index_of a r) as [i|] eqn:E; [|auto]. destruct (index_of_some _ _ _ E) as [w [W _]]. intros I.
  apply (Permutation_in _ (Permutation_sym (swap_remove_perm r i w W))). right. exact I.
Qed.
Lemma remove_ready_incl : forall l s, incl (ready (fold_left remove_endpoint l s)) (ready s).
Proof.
  induction l as [|a l IH]; intros s; cbn; [apply incl_refl|]. eapply incl_tran; [apply IH|]. unfold remove_endpoint. destruct (get a (endpoints s)); cbn; [apply ready_evict_incl|apply incl_refl].
Qed.
Lemma update_good : forall s u b bec s' b' v, good b bec s -> on_update s u = (s', b') -> (forall a, get a (endpoints s) = target_of a v) ->
  good (b ++ b') bec s' /\ failed s' = failed s /\ incl (ready s') (ready s) /\ (forall a, get a (endpoints s') = target_of a (RecoverSpec.apply v u)).
Proof.
  intros s u b bec s' b' v G H E. destruct u as [l|l|l|]; cbn [on_update RecoverSpec.apply] in *.
  - destruct (reset_good _ _ _ _ _ _ G H) as [G1 [F1 E1]]. split; [exact G1|]. split; [exact F1|]. split; [|exact E1]. pose proof (reset_ready_incl s l) as X. rewrite H in X. exact X.
  - destruct (add_all_good _ _ _ _ _ _ v G H E) as [G1 [F1 [R1 E1]]]. split; [exact G1|]. split; [exact F1|]. split; [rewrite R1; apply incl_refl|exact E1].
  - injection H as <- <-. rewrite app_nil_r. destruct (remove_all_good l s b bec G) as [G1 [F1 E1]]. split; [exact G1|]. split; [exact F1|]. split; [apply remove_ready_incl|].
    intros a. rewrite E1, target_filter, E. reflexivity.
  - destruct (reset_good _ _ _ _ _ _ G H) as [G1 [F1 E1]]. split; [exact G1|]. split; [exact F1|]. split; [|exact E1]. pose proof (reset_ready_incl s []) as X. rewrite H in X. exact X.
Qed.

(* --- runs *)
Definition became (l : list event) : list svc := flat_map (fun e => match e with Became_ready v => [v] | _ => [] end) l.
Lemma became_in : forall l v, In v (became l) <-> In (Became_ready v) l.
Proof.
  intros. unfold became. rewrite in_flat_map. split.
  - intros [e [I J]]. destruct e; try destruct J. subst. exact I. destruct H.
  - intros I. exists (Became_ready v). split; [exact I|left; reflexivity].
Qed.
Lemma discovered_snoc : forall l e, discovered (l ++ [e]) = match e with Updated u _ => RecoverSpec.apply (discovered l) u | _ => discovered l end.
Proof. intros. unfold discovered. rewrite fold_left_app. reflexivity. Qed.
Lemma built_snoc : forall l e, built (l ++ [e]) = built l ++ match e with Updated _ b => b | _ => [] end.
Proof. intros. unfold built. rewrite flat_map_app. cbn. rewrite app_nil_r. reflexivity. Qed.
Lemma became_snoc : forall l e, became (l ++ [e]) = became l ++ match e with Became_ready v => [v] | _ => [] end.
Proof. intros. unfold became. rewrite flat_map_app. cbn. rewrite app_nil_r. reflexivity. Qed.
Lemma snoc_split : forall (l : list event) e l1 l2, l ++ [e] = l1 ++ l2 -> l2 = [] /\ l1 = l ++ [e] \/ exists l3, l2 = l3 ++ [e] /\ l = l1 ++ l3.
Proof.
  intros l e l1 l2 H. destruct l2 as [|x l2] using rev_ind; [left; rewrite app_nil_r in H; auto|]. right. exists l2. rewrite app_assoc in H. apply app_inj_tail in H. destruct H as [-> ->]. auto.
Qed.
Lemma fresh_keep : forall l v e, fresh l v -> (forall r, e <> Sent r v) -> e <> Answered v Is_pending -> fresh (l ++ [e]) v.
Proof.
  intros l v e [l1 [x [l2 [-> [X [A B]]]]]] NS NP. exists l1, x, (l2 ++ [e]). rewrite <- app_assoc. split; [reflexivity|]. split; [exact X|]. split.
  - intros r I. apply in_app_iff in I. destruct I as [I|[I|[]]]; [exact (A r I)|exact (NS r I)].
  - intros I. apply in_app_iff in I. destruct I as [I|[I|[]]]; auto.
Qed.
Lemma fresh_now : forall l v e, e = Became_ready v \/ e = Answered v Is_ready -> fresh (l ++ [e]) v.
Proof. intros l v e H. exists l, e, []. split; [reflexivity|]. split; [exact H|]. split; [intros r []|intros []]. Qed.
Record inv (l : list event) (s : state) : Prop := Inv {
  v_view : forall a, get a (endpoints s) = target_of a (discovered l);
  v_ends : NoDup (map fst (endpoints s)) /\ gauge s = Z.of_nat (length (endpoints s));
  v_good : failed s = false -> good (built l) (became l) s;
  v_fresh : forall v, In v (ready s) -> fresh l v;
  v_hist : failed s = false -> forall v l1 l2, In v (pool s) -> l = l1 ++ l2 -> In v (built l1) -> target_of (s_addr v) (discovered l1) <> None }.
Lemma good_back : forall b bec s i v, good b bec s -> nth_error (ready s) i = Some v ->
  good b bec (State (endpoints s) (swap_remove i (ready s)) (pending_back v (pending s)) None (gauge s) (made s) false).
Proof.
  intros b bec s i v [G1 G2 G3 G4 G5] N. constructor; cbn [endpoints made gauge ready pending next_idx failed]; auto; [|discriminate].
  exact (core_back _ _ _ _ _ _ _ G4 N).
Qed.
Lemma index_range : forall r da db load i, (forall n, n = length r -> 1 < n -> da < n /\ S db < n) -> p2c_ready_index r da db load = Some i -> i < length r.
Proof.
  intros r da db load i H E. destruct r as [|x [|y r]]; cbn in E; try discriminate; [injection E as <-; cbn; lia|].
  specialize (H _ eq_refl ltac:(cbn; lia)). cbn [length] in *. destruct (Nat.leb_spec da db); injection E as <-; destruct (_ <=? _)%N; cbn [length]; lia.
Qed.
Lemma poll_guard : forall n da db, negb (da <? n) && (1 <? n) || negb (S db <? n) && (1 <? n) = false -> 1 < n -> da < n /\ S db < n.
Proof. intros n da db H L. apply Nat.ltb_lt in L. rewrite L in H. destruct (Nat.ltb_spec da n), (Nat.ltb_spec (S db) n); try discriminate; lia. Qed.
Lemma reset_loop_incl : forall l rest eps p n c rest' eps' p' b' c', reset_loop l rest eps p n c = (rest', eps', p', b', c') -> incl p' (p ++ b').
Proof.
  induction l as [|[a t] l IH]; intros rest eps p n c rest' eps' p' b' c' H; cbn [reset_loop] in H.
  - injection H as <- <- <- <- <-. rewrite app_nil_r. apply incl_refl.
  - destruct (same (get a rest) t); [exact (IH _ _ _ _ _ _ _ _ _ _ H)|].
    destruct (reset_loop l (del a rest) (put a t eps) (pending_push (Svc n a t) p) (S n) true) as [[[[rest1 eps1] p1] b1] c1] eqn:L. injection H as <- <- <- <- <-.
    intros v I. apply (IH _ _ _ _ _ _ _ _ _ _ L) in I. apply in_app_iff in I. apply in_app_iff. destruct I as [[<-|I]|I]; [right; left; reflexivity| |right; right; exact I].
    apply pending_drop_in in I. tauto.
Qed.
Lemma reset_incl : forall s l s' b', reset_pool s l = (s', b') -> incl (pending s') (pending s ++ b').
Proof.
  intros s l s1 b1 E. unfold reset_pool in E. destruct (reset_loop l (endpoints s) [] (pending s) (made s) false) as [[[[rest eps] p] b2] c] eqn:L. injection E as <- <-.
  apply reset_loop_incl in L. cbn [pending]. eapply incl_tran; [|exact L]. clear. revert p. induction rest as [|e rest IH]; intros p; cbn; [apply incl_refl|].
  eapply incl_tran; [apply IH|]. intros v I. apply pending_drop_in in I. tauto.
Qed.
Lemma update_incl : forall s u s' b', on_update s u = (s', b') -> incl (pending s') (pending s ++ b').
Proof.
  intros s u s' b' H. destruct u as [l|l|l|]; cbn [on_update] in H.
  - exact (reset_incl _ _ _ _ H).
  - revert s s' b' H. induction l as [|e l IH]; intros s s' b' H; cbn in H.
    + injection H as <- <-. apply incl_appl, incl_refl.
    + destruct (add_endpoint s e) as [s1 b1] eqn:A. destruct (add_all s1 l) as [s2 b2] eqn:B. injection H as <- <-.
      intros v I. pose proof (IH s1 s2 b2 B v I) as X.
      unfold add_endpoint in A. destruct e as [a t]. rewrite !in_app_iff in *. destruct (same (get a (endpoints s)) t); injection A as <- <-; [tauto|].
      cbn [pending] in X. destruct X as [[<-|X]|X]; [right; left; left; reflexivity| |auto]. apply pending_drop_in in X. tauto.
  - injection H as <- <-. rewrite app_nil_r. revert s. induction l as [|a l IH]; intros s; cbn; [apply incl_refl|]. eapply incl_tran; [apply IH|].
    unfold remove_endpoint. destruct (get a (endpoints s)); cbn; [|apply incl_refl]. intros v I. apply pending_drop_in in I. tauto.
  - exact (reset_incl _ _ _ _ H).
Qed.
Lemma built_new : forall b b' v, (forall i w, nth_error (b ++ b') i = Some w -> sid w = i) -> In v b' -> ~ In v b.
Proof.
  intros b b' v H I J. apply In_nth_error in I, J. destruct I as [i I], J as [j J].
  assert (LJ : j < length b) by (apply nth_error_Some; congruence).
  pose proof (H j v) as HJ. rewrite nth_error_app1 in HJ by exact LJ. specialize (HJ J).
  pose proof (H (length b + i) v) as HI. rewrite nth_error_app2 in HI by lia. replace (length b + i - length b) with i in HI by lia. specialize (HI I). lia.
Qed.
Lemma hist_snoc : forall l e s s', (failed s = false -> forall v l1 l2, In v (pool s) -> l = l1 ++ l2 -> In v (built l1) -> target_of (s_addr v) (discovered l1) <> None) ->
  failed s = false -> good (built (l ++ [e])) (became (l ++ [e])) s' -> (forall a, get a (endpoints s') = target_of a (discovered (l ++ [e]))) ->
  (forall v, In v (pool s') -> In v (pool s) \/ ~ In v (built l)) ->
  forall v l1 l2, In v (pool s') -> l ++ [e] = l1 ++ l2 -> In v (built l1) -> target_of (s_addr v) (discovered l1) <> None.
Proof.
  intros l e s s' IH F G V P v l1 l2 I E B. apply snoc_split in E. destruct E as [[-> ->]|[l3 [-> ->]]].
  - rewrite <- V. destruct G as [_ _ _ [_ _ _ _ _ C6 _ _ _] _]. exact (C6 v I).
  - destruct (P v I) as [J|J]; [exact (IH F v l1 l3 J eq_refl B)|]. exfalso. apply J. unfold built. rewrite flat_map_app. apply in_app_iff. left. exact B.
Qed.
Lemma find_addr : forall a p v, find (at_addr a) p = Some v -> In v p /\ s_addr v = a.
Proof. intros a p v H. apply find_some in H. destruct H as [I E]. apply N.eqb_eq in E. auto. Qed.
Lemma swap_remove_incl : forall l i v, nth_error l i = Some v -> incl (swap_remove i l) l.
Proof. intros l i v H w I. apply (Permutation_in _ (Permutation_sym (swap_remove_perm l i v H))). right. exact I. Qed.
Lemma inv_run : forall l s, run l s -> inv l s.
Proof.
  intros l s H. induction H as [|l s i s' e H [V1 V2 V3 V4 V5] E].
  - constructor; cbn; auto; try tauto.
    + split; [constructor|reflexivity].
    + intros _. constructor; cbn; auto; [constructor| |discriminate]. constructor; cbn; try tauto; try (constructor; fail); try discriminate; [intros [|i] v; discriminate|apply incl_refl].
  - unfold step in E. destruct (failed s) eqn:F; [discriminate|]. specialize (V3 eq_refl). pose proof (g_core _ _ _ V3) as C. rewrite <- F in V5 at 1.
    destruct i as [u|a|a|da db load an|r].
    + destruct (on_update s u) as [s1 b1] eqn:U. injection E as <- <-.
      destruct (update_good _ _ _ _ _ _ _ V3 U V1) as [G1 [F1 [R1 E1]]]. pose proof (update_incl _ _ _ _ U) as PI.
      assert (G2 : good (built (l ++ [Updated u b1])) (became (l ++ [Updated u b1])) s1) by (rewrite built_snoc, became_snoc, app_nil_r; exact G1).
      assert (D2 : forall a, get a (endpoints s1) = target_of a (discovered (l ++ [Updated u b1]))) by (rewrite discovered_snoc; exact E1).
      constructor.
      * exact D2.
      * split; [apply (g_nodup _ _ _ G1)|apply (g_gauge _ _ _ G1)].
      * intros _. exact G2.
      * intros v I. apply fresh_keep; [apply V4, R1, I|discriminate|discriminate].
      * intros F2. apply (hist_snoc l (Updated u b1) s s1); auto.
        intros v I. unfold pool in *. rewrite in_app_iff in *. destruct I as [I|I]; [left; left; apply R1, I|].
        apply PI in I. apply in_app_iff in I. destruct I as [I|I]; [auto|]. right. apply (built_new (built l) b1); [exact (c_ids _ _ _ _ _ (g_core _ _ _ G1))|exact I].
    + destruct (find (at_addr a) (pending s)) as [v|] eqn:FD; [|discriminate]. injection E as <- <-. apply find_addr in FD. destruct FD as [IV <-].
      assert (G2 : good (built (l ++ [Became_ready v])) (became (l ++ [Became_ready v])) (State (endpoints s) (ready_insert v (ready s)) (pending_drop (s_addr v) (pending s)) (next_idx s) (gauge s) (made s) false)).
      { rewrite built_snoc, app_nil_r, became_snoc. destruct V3 as [G1 G2 G3 G4 G5]. constructor; cbn [endpoints made gauge ready pending next_idx failed]; auto.
        - exact (core_ready _ _ _ _ _ _ G4 IV).
        - intros i X. apply ready_insert_length. auto. }
      assert (D2 : forall c, get c (endpoints s) = target_of c (discovered (l ++ [Became_ready v]))) by (rewrite discovered_snoc; exact V1).
      constructor; cbn [endpoints gauge ready failed]; auto.
      * intros w I. apply ready_insert_in in I; [|exact (c_rnd _ _ _ _ _ C)]. destruct I as [->|[I X]]; [apply fresh_now; auto|]. apply fresh_keep; [auto|discriminate|discriminate].
      * intros _. apply (hist_snoc l (Became_ready v) s); auto. intros w I. left. unfold pool in *. cbn [ready pending] in I. rewrite in_app_iff in *.
        rewrite ready_insert_in, pending_drop_in in I by exact (c_rnd _ _ _ _ _ C). destruct I as [[->|I]|I]; tauto.
    + destruct (find (at_addr a) (pending s)) as [v|] eqn:FD; [|discriminate]. injection E as <- <-.
      constructor; cbn [endpoints gauge ready failed]; auto; try discriminate.
      * rewrite discovered_snoc. exact V1.
      * intros w I. apply fresh_keep; [auto|discriminate|discriminate].
    + destruct (negb (da <? length (ready s)) && (1 <? length (ready s)) || negb (S db <? length (ready s)) && (1 <? length (ready s))) eqn:GD; [discriminate|].
      destruct (match next_idx s with Some i => Some i | None => p2c_ready_index (ready s) da db load end) as [i|] eqn:IX.
      * destruct (nth_error (ready s) i) as [v|] eqn:NV; [|discriminate]. destruct an; injection E as <- <-.
        -- assert (G2 : good (built (l ++ [Answered v Is_ready])) (became (l ++ [Answered v Is_ready])) (State (endpoints s) (ready s) (pending s) (Some i) (gauge s) (made s) false)).
           { rewrite built_snoc, became_snoc, !app_nil_r. destruct V3 as [G1 G2 G3 G4 G5]. constructor; cbn [endpoints made gauge ready pending next_idx failed]; auto.
             intros j X. injection X as <-. apply nth_error_Some. congruence. }
           assert (D2 : forall c, get c (endpoints s) = target_of c (discovered (l ++ [Answered v Is_ready]))) by (rewrite discovered_snoc; exact V1).
           constructor; cbn [endpoints gauge ready failed]; auto.
           ++ intros w I. apply fresh_keep; [auto|discriminate|discriminate].
           ++ intros _. apply (hist_snoc l (Answered v Is_ready) s); auto.
        -- assert (G2 : good (built (l ++ [Answered v Is_pending])) (became (l ++ [Answered v Is_pending])) (State (endpoints s) (swap_remove i (ready s)) (pending_back v (pending s)) None (gauge s) (made s) false)).
           { rewrite built_snoc, became_snoc, !app_nil_r. apply good_back; assumption. }
           assert (D2 : forall c, get c (endpoints s) = target_of c (discovered (l ++ [Answered v Is_pending]))) by (rewrite discovered_snoc; exact V1).
           constructor; cbn [endpoints gauge ready failed]; auto.
           ++ intros w I. apply (swap_remove_in _ _ _ _ (c_rnd _ _ _ _ _ C) NV) in I. apply fresh_keep; [apply V4; tauto|discriminate|]. intros X. injection X as X. subst. tauto.
           ++ intros _. apply (hist_snoc l (Answered v Is_pending) s); auto. intros w I. left. unfold pool in *. cbn [ready pending] in I. rewrite in_app_iff in *.
              rewrite (swap_remove_in _ _ _ _ (c_rnd _ _ _ _ _ C) NV), pending_back_in in I. destruct I as [I|[I|[-> _]]]; [tauto|tauto|]. left. apply (nth_error_In _ _ NV).
        -- constructor; cbn [endpoints gauge ready failed]; auto; try discriminate.
           ++ rewrite discovered_snoc. exact V1.
           ++ intros w I. apply (swap_remove_in _ _ _ _ (c_rnd _ _ _ _ _ C) NV) in I. apply fresh_keep; [apply V4; tauto|discriminate|discriminate].
      * injection E as <- <-. constructor; auto.
        -- rewrite discovered_snoc. exact V1.
        -- rewrite built_snoc, became_snoc, !app_nil_r. auto.
        -- intros w I. apply fresh_keep; [auto|discriminate|discriminate].
        -- intros _. apply (hist_snoc l None_ready s); auto; [rewrite built_snoc, became_snoc, !app_nil_r; exact V3|rewrite discovered_snoc; exact V1].
    + destruct (next_idx s) as [i|]; [|discriminate]. destruct (nth_error (ready s) i) as [v|] eqn:NV; [|discriminate]. injection E as <- <-.
      assert (G2 : good (built (l ++ [Sent r v])) (became (l ++ [Sent r v])) (State (endpoints s) (swap_remove i (ready s)) (pending_back v (pending s)) None (gauge s) (made s) false)).
      { rewrite built_snoc, became_snoc, !app_nil_r. apply good_back; assumption. }
      assert (D2 : forall c, get c (endpoints s) = target_of c (discovered (l ++ [Sent r v]))) by (rewrite discovered_snoc; exact V1).
      constructor; cbn [endpoints gauge ready failed]; auto.
      * intros w I. apply (swap_remove_in _ _ _ _ (c_rnd _ _ _ _ _ C) NV) in I. apply fresh_keep; [apply V4; tauto| |discriminate]. intros r' X. injection X as X1 X2. subst. tauto.
      * intros _. apply (hist_snoc l (Sent r v) s); auto. intros w I. left. unfold pool in *. cbn [ready pending] in I. rewrite in_app_iff in *.
        rewrite (swap_remove_in _ _ _ _ (c_rnd _ _ _ _ _ C) NV), pending_back_in in I. destruct I as [I|[I|[-> _]]]; [tauto|tauto|]. left. apply (nth_error_In _ _ NV).
Qed.

(* --- the properties *)
Lemma run_split : forall l s, run l s -> forall l1 e l2, l = l1 ++ e :: l2 -> exists s1 i s2, run l1 s1 /\ step s1 i = Next s2 e.
Proof.
  intros l s H. induction H as [|l s i s' e H IH E]; intros l1 x l2 EQ; [destruct l1; discriminate|].
  apply snoc_split in EQ. destruct EQ as [[X _]|[l3 [X ->]]]; [discriminate|]. destruct l3 as [|y l3].
  - cbn in X. injection X as -> ->. rewrite app_nil_r in H. exists s, i, s'. auto.
  - cbn in X. injection X as -> ->. exact (IH l1 y l3 eq_refl).
Qed.
Lemma not_failed : forall s i s' e, step s i = Next s' e -> failed s = false.
Proof. intros s i s' e H. unfold step in H. destruct (failed s); [discriminate|reflexivity]. Qed.
Lemma exact : forall l s, run l s -> failed s = false ->
  NoDup (map s_addr (ready s)) /\ NoDup (map s_addr (pending s)) /\ forall a, In a (map s_addr (pool s)) <-> target_of a (discovered l) <> None.
Proof.
  intros l s H F. destruct (inv_run l s H) as [V1 V2 V3 V4 V5]. specialize (V3 F). destruct V3 as [_ _ _ [C1 C2 C3 C4 C5 C6 C7 C8 C9] _]. split; [exact C1|]. split; [exact C2|].
  intros a. rewrite <- V1. split.
  - intros I. apply in_map_iff in I. destruct I as [v [<- I]]. exact (C6 v I).
  - intros X. destruct (get a (endpoints s)) as [t|] eqn:G; [|congruence]. destruct (C7 a t G) as [w [W1 [_ W2]]]. apply newest_in in W1. destruct W1 as [_ <-]. apply in_map. exact W2.
Qed.
Lemma latest : forall l s a t, run l s -> failed s = false -> target_of a (discovered l) = Some t -> exists w, newest l a = Some w /\ s_target w = t /\ In w (pool s).
Proof.
  intros l s a t H F X. destruct (inv_run l s H) as [V1 V2 V3 V4 V5]. specialize (V3 F). destruct V3 as [_ _ _ [C1 C2 C3 C4 C5 C6 C7 C8 C9] _]. apply C7. unfold the_map. rewrite V1. exact X.
Qed.
Lemma svc_eq_dec : forall v w : svc, {v = w} + {v <> w}.
Proof. decide equality; [apply N.eq_dec|apply N.eq_dec|apply Nat.eq_dec]. Qed.
Lemma step_sent : forall s i s' r v, step s i = Next s' (Sent r v) -> In v (ready s).
Proof.
  intros s i s' r v H. unfold step in H. destruct (failed s); [discriminate|]. destruct i as [u|a|a|da db load an|q].
  - destruct (on_update s u); discriminate.
  - destruct (find (at_addr a) (pending s)); discriminate.
  - destruct (find (at_addr a) (pending s)); discriminate.
  - destruct (_ || _); [discriminate|]. destruct (match next_idx s with Some i => Some i | None => p2c_ready_index (ready s) da db load end); [|discriminate].
    destruct (nth_error (ready s) n); [|discriminate]. destruct an; discriminate.
  - destruct (next_idx s) as [i|]; [|discriminate]. destruct (nth_error (ready s) i) as [w|] eqn:N; [|discriminate]. injection H as _ _ <-. exact (nth_error_In _ _ N).
Qed.
Lemma sent : forall l1 r v l2 s, run (l1 ++ Sent r v :: l2) s ->
  exists t w, target_of (s_addr v) (discovered l1) = Some t /\ newest l1 (s_addr v) = Some w /\ s_target w = t /\
    In v (built l1) /\ (v = w \/ ~ In (Became_ready w) l1) /\ fresh l1 v.
Proof.
  intros l1 r v l2 s H. destruct (run_split _ _ H l1 (Sent r v) l2 eq_refl) as [s1 [i [s2 [H1 E]]]]. pose proof (not_failed _ _ _ _ E) as F. apply step_sent in E.
  destruct (inv_run l1 s1 H1) as [V1 V2 V3 V4 V5]. specialize (V3 F). destruct V3 as [_ _ _ [C1 C2 C3 C4 C5 C6 C7 C8 C9] _].
  assert (IP : In v (ready s1 ++ pending s1)) by (apply in_app_iff; auto). pose proof (C6 v IP) as K. unfold the_map in K. destruct (get (s_addr v) (endpoints s1)) as [t|] eqn:G; [|congruence].
  destruct (C7 _ _ G) as [w [W1 [W2 W3]]]. exists t, w. split; [rewrite <- V1; exact G|]. split; [exact W1|]. split; [exact W2|]. split; [exact (C3 v IP)|]. split; [|exact (V4 v E)].
  destruct (svc_eq_dec v w) as [->|NE]; [auto|]. right. destruct (C9 v w E W1 NE) as [_ X]. rewrite became_in in X. exact X.
Qed.
Lemma removed : forall l1 l2 r v l3 s, run (l1 ++ l2 ++ Sent r v :: l3) s -> In v (built l1) -> target_of (s_addr v) (discovered l1) = None -> False.
Proof.
  intros l1 l2 r v l3 s H B D. rewrite app_assoc in H. destruct (run_split _ _ H (l1 ++ l2) (Sent r v) l3 eq_refl) as [s1 [i [s2 [H1 E]]]]. pose proof (not_failed _ _ _ _ E) as F. apply step_sent in E.
  destruct (inv_run _ s1 H1) as [V1 V2 V3 V4 V5]. apply (V5 F v l1 l2); auto. apply in_app_iff. auto.
Qed.
Lemma length_same : forall (m m' : list (N * N)), NoDup (map fst m) -> NoDup (map fst m') -> (forall a, get a m = get a m') -> length m = length m'.
Proof.
  assert (H : forall m m' : list (N * N), NoDup (map fst m) -> (forall a, get a m = get a m') -> length m <= length m').
  { intros m m' N E. rewrite <- (map_length fst m), <- (map_length fst m'). apply NoDup_incl_length; [exact N|]. intros a I.
    destruct (get a m') as [t|] eqn:G; [|exfalso; rewrite <- E in G; apply get_none in G; auto].
    destruct (in_dec N.eq_dec a (map fst m')) as [J|J]; [exact J|]. apply get_none in J. congruence. }
  intros m m' N1 N2 E. apply Nat.le_antisymm; apply H; auto.
Qed.
Lemma insert_nodup : forall l v, NoDup (map fst v) -> NoDup (map fst (fold_left RecoverSpec.insert l v)).
Proof. induction l as [|[a t] l IH]; intros v N; [exact N|]. cbn. apply IH. exact (put_nodup a t v N). Qed.
Lemma discovered_nodup : forall l, NoDup (map fst (discovered l)).
Proof.
  induction l as [|e l IH] using rev_ind; [constructor|]. rewrite discovered_snoc. destruct e as [u b| | | | | ]; auto. destruct u as [m|m|m|]; cbn.
  - apply insert_nodup. constructor.
  - apply insert_nodup. exact IH.
  - clear -IH. induction (discovered l) as [|x q J]; [constructor|]. cbn in *. inversion IH as [|y z NI ND]; subst. destruct (negb _); [|auto]. cbn. constructor; [|auto].
    intros I. apply NI. apply in_map_iff in I. destruct I as [e [E I]]. apply filter_In in I. rewrite <- E. apply in_map. tauto.
  - constructor.
Qed.
Lemma gauge_is : forall l s, run l s -> gauge s = Z.of_nat (length (discovered l)).
Proof.
  intros l s H. destruct (inv_run l s H) as [V1 [V2 V2'] V3 V4 V5]. rewrite V2'. f_equal. apply length_same; [exact V2|apply discovered_nodup|]. exact V1.
Qed.
Lemma no_panic : forall l s i, run l s -> step s i = Panic -> (exists r, i = Call r) /\ next_idx s = None.
Proof.
  intros l s i H E. pose proof (inv_run l s H) as [V1 V2 V3 V4 V5]. unfold step in E. destruct (failed s) eqn:F; [discriminate|]. specialize (V3 eq_refl).
  destruct i as [u|a|a|da db load an|r].
  - destruct (on_update s u); discriminate.
  - destruct (find (at_addr a) (pending s)); discriminate.
  - destruct (find (at_addr a) (pending s)); discriminate.
  - destruct (_ || _) eqn:GD; [discriminate|].
    destruct (match next_idx s with Some i => Some i | None => p2c_ready_index (ready s) da db load end) as [i|] eqn:IX; [|discriminate].
    assert (L : i < length (ready s)).
    { destruct (next_idx s) as [j|] eqn:NX; [injection IX as <-; exact (g_next _ _ _ V3 _ NX)|]. apply (index_range _ _ _ _ _ (fun n X Y => poll_guard n da db (eq_trans (f_equal _ X) GD) Y) IX) || (apply (index_range (ready s) da db load i); [|exact IX]; intros n -> Y; exact (poll_guard _ _ _ GD Y)). }
    apply nth_error_Some in L. destruct (nth_error (ready s) i); [|congruence]. destruct an; discriminate.
  - split; [exists r; reflexivity|]. destruct (next_idx s) as [i|] eqn:NX; [|reflexivity]. pose proof (g_next _ _ _ V3 _ NX) as L. apply nth_error_Some in L. destruct (nth_error (ready s) i); [discriminate|congruence].
Qed.
Lemma call_after : forall l v s r, run (l ++ [Answered v Is_ready]) s -> exists s', step s (Call r) = Next s' (Sent r v).
Proof.
  intros l v s r H. inversion H as [A|l0 s0 i s1 e H0 E A]; [destruct l; discriminate|]. apply app_inj_tail in A. destruct A as [-> ->]. subst s1.
  unfold step in E. destruct (failed s0) eqn:F; [discriminate|]. destruct i as [u|a|a|da db load an|q].
  - destruct (on_update s0 u); discriminate.
  - destruct (find (at_addr a) (pending s0)); discriminate.
  - destruct (find (at_addr a) (pending s0)); discriminate.
  - destruct (_ || _); [discriminate|]. destruct (match next_idx s0 with Some i => Some i | None => p2c_ready_index (ready s0) da db load end) as [i|]; [|discriminate].
    destruct (nth_error (ready s0) i) as [w|] eqn:N; [|discriminate]. destruct an; try discriminate. injection E as <- <-. eexists. unfold step. cbn [failed next_idx ready]. rewrite N. reflexivity.
  - destruct (next_idx s0) as [i|]; [|discriminate]. destruct (nth_error (ready s0) i) as [w|]; discriminate.
Qed.
Lemma pick : forall s da db load an s' v, step s (Poll da db load an) = Next s' (Answered v an) -> NoDup (map s_addr (ready s)) -> next_idx s = None -> 1 < length (ready s) ->
  In v (ready s) /\ exists w, In w (ready s) /\ w <> v /\ (load v <= load w)%N.
Proof.
  intros s da db load an s' v H ND NX L. unfold step in H. destruct (failed s); [discriminate|]. destruct (_ || _) eqn:GD; [discriminate|]. destruct (poll_guard _ _ _ GD L) as [LA LB]. rewrite NX in H.
  destruct (p2c_ready_index (ready s) da db load) as [i|] eqn:IX; [|discriminate]. destruct (nth_error (ready s) i) as [w|] eqn:NW; [|discriminate].
  assert (w = v) by (destruct an; injection H as _ <-; reflexivity). subst w. split; [exact (nth_error_In _ _ NW)|].
  destruct (ready s) as [|d [|d2 q]] eqn:RS; [cbn in L; lia|cbn in L; lia|]. unfold p2c_ready_index, gen_pair in IX. set (r := d :: d2 :: q) in *.
  set (j := if da <=? db then S db else db) in *. assert (LJ : j < length r) by (unfold j; destruct (Nat.leb_spec da db); lia). assert (NE : da <> j) by (unfold j; destruct (Nat.leb_spec da db); lia).
  assert (DIFF : forall x y, x < length r -> y < length r -> x <> y -> nth x r d <> nth y r d).
  { intros x y X Y N E. apply N. apply (NoDup_nth (map s_addr r) (s_addr d)); rewrite ?map_length; auto. rewrite !map_nth. congruence. }
  destruct (N.leb_spec (load (nth da r d)) (load (nth j r d))); injection IX as <-; apply (nth_error_nth _ _ d) in NW; subst v.
  - exists (nth j r d). split; [apply nth_In; exact LJ|]. split; [apply DIFF; auto|assumption].
  - exists (nth da r d). split; [apply nth_In; exact LA|]. split; [apply DIFF; auto|lia].
Qed.
Lemma pick_run : forall l s da db load an s' v, run l s -> step s (Poll da db load an) = Next s' (Answered v an) -> next_idx s = None -> 1 < length (ready s) ->
  In v (ready s) /\ exists w, In w (ready s) /\ w <> v /\ (load v <= load w)%N.
Proof. intros l s da db load an s' v H E NX L. pose proof (not_failed _ _ _ _ E) as F. destruct (exact l s H F) as [ND _]. exact (pick _ _ _ _ _ _ _ E ND NX L). Qed.
Lemma pairs : forall n i j, i < n -> j < n -> i <> j -> exists da db, da < n /\ S db < n /\ gen_pair da db = (i, j) /\ forall da' db', gen_pair da' db' = (i, j) -> da' = da /\ db' = db.
Proof.
  intros n i j LI LJ NE. unfold gen_pair. destruct (Nat.lt_ge_cases i j) as [L|L].
  - exists i, (j - 1). split; [exact LI|]. split; [lia|]. split; [destruct (Nat.leb_spec i (j - 1)); [f_equal; lia|lia]|].
    intros da' db' E. injection E as -> E. destruct (Nat.leb_spec i db'); lia.
  - exists i, j. split; [exact LI|]. split; [lia|]. split; [destruct (Nat.leb_spec i j); [lia|reflexivity]|].
    intros da' db' E. injection E as -> E. destruct (Nat.leb_spec i db'); lia.
Qed.
Lemma pairs_in : forall n da db, da < n -> S db < n -> fst (gen_pair da db) < n /\ snd (gen_pair da db) < n /\ fst (gen_pair da db) <> snd (gen_pair da db).
Proof. intros n da db A B. unfold gen_pair. cbn [fst snd]. destruct (Nat.leb_spec da db); lia. Qed.
Lemma idle : forall s da db load an s', step s (Poll da db load an) = Next s' None_ready -> s' = s /\ ready s = [].
Proof.
  intros s da db load an s' H. unfold step in H. destruct (failed s); [discriminate|]. destruct (_ || _); [discriminate|].
  destruct (next_idx s) as [i|]; [destruct (nth_error (ready s) i); [destruct an; discriminate|discriminate]|].
  destruct (ready s) as [|x [|y q]] eqn:R.
  - injection H as <-. auto.
  - cbn in H. destruct an; discriminate.
  - cbn [p2c_ready_index] in H. destruct (gen_pair da db) as [i j]. destruct (nth_error _ _); [destruct an; discriminate|discriminate].
Qed.
(* what is rebuilt *)
Lemma reset_loop_built : forall l rest eps p n c rest' eps' p' b' c', reset_loop l rest eps p n c = (rest', eps', p', b', c') -> NoDup (map fst l) ->
  NoDup (map s_addr b') /\ forall a t, (exists v, In v b' /\ s_addr v = a /\ s_target v = t) <-> In (a, t) l /\ get a rest <> Some t.
Proof.
  induction l as [|[a t] l IH]; intros rest eps p n c rest' eps' p' b' c' H ND; cbn [reset_loop] in H.
  - injection H as <- <- <- <- <-. split; [constructor|]. intros a t. split; [intros [v [[] _]]|intros [[] _]].
  - cbn in ND. inversion ND as [|x y NI ND2]; subst.
    assert (OTHER : forall c x, In (c, x) l -> get c (del a rest) = get c rest).
    { intros x y I. rewrite get_del. destruct (N.eqb_spec a x) as [->|]; [|reflexivity]. exfalso. apply NI. apply in_map_iff. exists (x, y). auto. }
    destruct (same (get a rest) t) eqn:SM.
    + apply same_iff in SM. destruct (IH _ _ _ _ _ _ _ _ _ _ H ND2) as [N1 E1]. split; [exact N1|]. intros x y. rewrite E1. cbn. split.
      * intros [I X]. rewrite (OTHER x y I) in X. auto.
      * intros [[E|I] X]; [injection E as <- <-; congruence|]. rewrite (OTHER x y I). auto.
    + destruct (reset_loop l (del a rest) (put a t eps) (pending_push (Svc n a t) p) (S n) true) as [[[[rest1 eps1] p1] b1] c1] eqn:L. injection H as <- <- <- <- <-.
      destruct (IH _ _ _ _ _ _ _ _ _ _ L ND2) as [N1 E1]. split.
      * cbn. constructor; [|exact N1]. intros I. apply in_map_iff in I. destruct I as [w [W I]]. apply NI. assert (X : exists v, In v b1 /\ s_addr v = a /\ s_target v = s_target w) by (exists w; auto).
        apply E1 in X. apply in_map_iff. exists (a, s_target w). tauto.
      * intros x y. cbn. split.
        -- intros [v [[<-|I] [A B]]].
           ++ cbn in A, B. subst. split; [auto|]. intros X. apply same_iff in X. congruence.
           ++ assert (X : exists v, In v b1 /\ s_addr v = x /\ s_target v = y) by (exists v; auto). apply E1 in X. destruct X as [X Y]. rewrite (OTHER x y X) in Y. auto.
        -- intros [[E|I] X].
           ++ injection E as <- <-. exists (Svc n a t). auto.
           ++ rewrite <- (OTHER x y I) in X. destruct (proj2 (E1 x y) (conj I X)) as [v [V1 V2]]. exists v. auto.
Qed.
Lemma add_all_built : forall l s s' b', add_all s l = (s', b') -> NoDup (map fst l) ->
  NoDup (map s_addr b') /\ forall a t, (exists v, In v b' /\ s_addr v = a /\ s_target v = t) <-> In (a, t) l /\ get a (endpoints s) <> Some t.
Proof.
  induction l as [|[a t] l IH]; intros s s' b' H ND; cbn [add_all] in H.
  - injection H as <- <-. split; [constructor|]. intros a t. split; [intros [v [[] _]]|intros [[] _]].
  - cbn in ND. inversion ND as [|x y NI ND2]; subst. destruct (add_endpoint s (a, t)) as [s1 b1] eqn:A. destruct (add_all s1 l) as [s2 b2] eqn:B. injection H as <- <-.
    destruct (IH _ _ _ B ND2) as [N1 E1]. unfold add_endpoint in A. destruct (same (get a (endpoints s)) t) eqn:SM; injection A as <- <-.
    + apply same_iff in SM. cbn [app]. split; [exact N1|]. intros x y. rewrite E1. cbn. split; [tauto|]. intros [[E|I] X]; [injection E as <- <-; congruence|auto].
    + cbn [endpoints] in E1. assert (OTHER : forall c x, In (c, x) l -> get c (put a t (endpoints s)) = get c (endpoints s)).
      { intros x y I. rewrite get_put. destruct (N.eqb_spec a x) as [->|]; [|reflexivity]. exfalso. apply NI. apply in_map_iff. exists (x, y). auto. }
      split.
      * cbn. constructor; [|exact N1]. intros I. apply in_map_iff in I. destruct I as [w [W I]]. apply NI. assert (X : exists v, In v b2 /\ s_addr v = a /\ s_target v = s_target w) by (exists w; auto).
        apply E1 in X. apply in_map_iff. exists (a, s_target w). tauto.
      * intros x y. cbn. split.
        -- intros [v [[<-|I] [A' B']]].
           ++ cbn in A', B'. subst. split; [auto|]. intros X. apply same_iff in X. congruence.
           ++ assert (X : exists v, In v b2 /\ s_addr v = x /\ s_target v = y) by (exists v; auto). apply E1 in X. destruct X as [X Y]. rewrite (OTHER x y X) in Y. auto.
        -- intros [[E|I] X].
           ++ injection E as <- <-. exists (Svc (made s) a t). auto.
           ++ rewrite <- (OTHER x y I) in X. destruct (proj2 (E1 x y) (conj I X)) as [v [V1 V2]]. exists v. auto.
Qed.
Lemma rebuilt : forall l1 u b l2 s, run (l1 ++ Updated u b :: l2) s -> NoDup (addresses u) ->
  NoDup (map s_addr b) /\ forall a t, (exists v, In v b /\ s_addr v = a /\ s_target v = t) <-> says u a t /\ target_of a (discovered l1) <> Some t.
Proof.
  intros l1 u b l2 s H ND. destruct (run_split _ _ H l1 (Updated u b) l2 eq_refl) as [s1 [i [s2 [H1 E]]]]. destruct (inv_run l1 s1 H1) as [V1 V2 V3 V4 V5].
  assert (U : on_update s1 u = (s2, b)).
  { unfold step in E. destruct (failed s1); [discriminate|]. destruct i as [u'|a|a|da db load an|q].
    - destruct (on_update s1 u') eqn:X. injection E as <- <- <-. exact X.
    - destruct (find (at_addr a) (pending s1)); discriminate.
    - destruct (find (at_addr a) (pending s1)); discriminate.
    - destruct (_ || _); [discriminate|]. destruct (match next_idx s1 with Some i => Some i | None => p2c_ready_index (ready s1) da db load end); [|discriminate].
      destruct (nth_error (ready s1) n); [|discriminate]. destruct an; discriminate.
    - destruct (next_idx s1) as [i|]; [|discriminate]. destruct (nth_error (ready s1) i); discriminate. }
  assert (RS : forall l, reset_pool s1 l = (s2, b) -> NoDup (map fst l) -> NoDup (map s_addr b) /\ forall a t, (exists v, In v b /\ s_addr v = a /\ s_target v = t) <-> In (a, t) l /\ target_of a (discovered l1) <> Some t).
  { intros l X N. unfold reset_pool in X. destruct (reset_loop l (endpoints s1) [] (pending s1) (made s1) false) as [[[[rest eps] p] b1] c] eqn:L. injection X as _ <-.
    destruct (reset_loop_built _ _ _ _ _ _ _ _ _ _ _ L N) as [A B]. split; [exact A|]. intros a t. rewrite <- V1. apply B. }
  destruct u as [l|l|l|]; cbn [on_update addresses says] in *.
  - auto.
  - destruct (add_all_built _ _ _ _ U ND) as [A B]. split; [exact A|]. intros a t. rewrite <- V1. apply B.
  - injection U as _ <-. split; [constructor|]. intros a t. split; [intros [v [[] _]]|intros [[] _]].
  - destruct (RS [] U ltac:(constructor)) as [A B]. split; [exact A|]. exact B.
Qed.
