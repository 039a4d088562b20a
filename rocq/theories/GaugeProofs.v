From Coq Require Import List Arith ZArith Bool Lia.
From Verif Require Import GaugeModel GaugeSpec.
Import ListNotations.

Lemma set_length : forall l i x, length (set i x l) = length l.
Proof. induction l as [|y l IH]; intros [|i] x; cbn; auto. Qed.
Lemma set_same : forall l i x, i < length l -> nth_error (set i x l) i = Some x.
Proof. induction l as [|y l IH]; intros [|i] x H; cbn in *; try lia; [reflexivity|]. apply IH. lia. Qed.
Lemma set_other : forall l i j x, i <> j -> nth_error (set i x l) j = nth_error l j.
Proof. induction l as [|y l IH]; intros [|i] [|j] x H; cbn; try congruence; auto. Qed.
Definition is_ready (e : option (option known)) : bool := match e with Some (Some Known_ready) => true | _ => false end.
Definition is_pending (e : option (option known)) : bool := match e with Some (Some Known_pending) => true | _ => false end.
Definition count (f : option (option known) -> bool) (l : list (option (option known))) : Z := Z.of_nat (length (filter f l)).
Definition b2z (b : bool) : Z := if b then 1%Z else 0%Z.
Lemma count_set : forall f l i x y, nth_error l i = Some y -> count f (set i x l) = (count f l - b2z (f y) + b2z (f x))%Z.
Proof.
  intros f. unfold count. induction l as [|z l IH]; intros [|i] x y H; cbn in H |- *; try discriminate.
  - injection H as ->. unfold b2z. destruct (f y), (f x); cbn [length]; lia.
  - specialize (IH i x y H). destruct (f z); cbn [length]; lia.
Qed.
Lemma count_snoc : forall f l x, count f (l ++ [x]) = (count f l + b2z (f x))%Z.
Proof. intros. unfold count, b2z. rewrite filter_app, app_length. cbn. destruct (f x); cbn; lia. Qed.
Lemma created_snoc : forall l o, created (l ++ [o]) = created l + match o with New => 1 | _ => 0 end.
Proof. intros. unfold created. rewrite filter_app, app_length. destruct o; reflexivity. Qed.
Lemma said_snoc : forall l o i, said (l ++ [o]) i = match o with
    | Poll j Ready => if Nat.eqb i j then Some Ready else said l i
    | Poll j Pending => if Nat.eqb i j then Some Pending else said l i
    | _ => said l i end.
Proof. intros. unfold said. rewrite fold_left_app. reflexivity. Qed.
Definition dropped (l : list op) (i : nat) : bool := existsb (fun o => match o with Drop j => Nat.eqb i j | _ => false end) l.
Lemma dropped_snoc : forall l o i, dropped (l ++ [o]) i = dropped l i || match o with Drop j => Nat.eqb i j | _ => false end.
Proof. intros. unfold dropped. rewrite existsb_app. cbn. rewrite orb_false_r. reflexivity. Qed.
Definition expected (l : list op) (i : nat) : option (option known) :=
  if dropped l i then None else Some (match said l i with Some Ready => Some Known_ready | Some Pending => Some Known_pending | _ => None end).
Record inv (l : list op) (s : state) : Prop := Inv {
  i_len : length (endpoints s) = created l;
  i_each : forall i, i < created l -> nth_error (endpoints s) i = Some (expected l i);
  i_late : forall i, created l <= i -> dropped l i = false /\ said l i = None;
  i_ready : g_ready s = count is_ready (endpoints s);
  i_pending : g_pending s = count is_pending (endpoints s) }.
Lemma inv_run : forall l s, run l s -> inv l s.
Proof.
  intros l s H. induction H as [|l s o s' H [I1 I2 I3 I4 I5] E]; [constructor; cbn; auto; lia|].
  destruct o as [|i a|i]; cbn in E.
  - injection E as <-. constructor; cbn [endpoints g_ready g_pending]; rewrite ?created_snoc.
    + rewrite app_length. cbn. lia.
    + intros i L. unfold expected. rewrite dropped_snoc, said_snoc, orb_false_r. destruct (Nat.eq_dec i (created l)) as [->|N].
      * rewrite nth_error_app2, I1, Nat.sub_diag by lia. destruct (I3 (created l) (le_n _)) as [-> ->]. reflexivity.
      * rewrite nth_error_app1 by lia. apply I2. lia.
    + intros i L. rewrite dropped_snoc, said_snoc, orb_false_r. apply I3. lia.
    + rewrite count_snoc. cbn. lia.
    + rewrite count_snoc. cbn. lia.
  - destruct (nth_error (endpoints s) i) as [[k|]|] eqn:N; try discriminate. assert (L : i < created l) by (rewrite <- I1; apply nth_error_Some; congruence).
    pose proof (I2 i L) as X. rewrite N in X. injection X as X. unfold expected in X. destruct (dropped l i) eqn:D; [discriminate|]. injection X as X.
    destruct (poll_ready k a) as [[k' r] p] eqn:P. injection E as <-.
    assert (EX : forall j, expected (l ++ [Poll i a]) j = if Nat.eqb j i then Some k' else expected l j).
    { intros j. unfold expected. rewrite dropped_snoc, said_snoc, orb_false_r. destruct (Nat.eqb_spec j i) as [->|]; [|destruct a; reflexivity]. rewrite D.
      subst k. destruct (said l i) as [[]|], a; cbn in P; injection P as <- <- <-; reflexivity. }
    constructor; cbn [endpoints g_ready g_pending]; rewrite ?created_snoc, ?Nat.add_0_r.
    + rewrite set_length. exact I1.
    + intros j LJ. rewrite EX. destruct (Nat.eqb_spec j i) as [->|NE]; [apply set_same; lia|]. rewrite set_other by congruence. apply I2. exact LJ.
    + intros j LJ. rewrite dropped_snoc, said_snoc, orb_false_r. destruct (I3 j LJ) as [-> ->]. split; [reflexivity|]. destruct (Nat.eqb_spec j i); [lia|]. destruct a; reflexivity.
    + rewrite (count_set is_ready _ _ _ _ N), I4. destruct k as [[]|], a; cbn in P; injection P as <- <- <-; cbn; lia.
    + rewrite (count_set is_pending _ _ _ _ N), I5. destruct k as [[]|], a; cbn in P; injection P as <- <- <-; cbn; lia.
  - destruct (nth_error (endpoints s) i) as [[k|]|] eqn:N; try discriminate. assert (L : i < created l) by (rewrite <- I1; apply nth_error_Some; congruence).
    destruct (on_drop k) as [r p] eqn:P. injection E as <-.
    assert (EX : forall j, expected (l ++ [Drop i]) j = if Nat.eqb j i then None else expected l j).
    { intros j. unfold expected. rewrite dropped_snoc, said_snoc. destruct (Nat.eqb_spec j i) as [->|]; [rewrite orb_true_r|rewrite orb_false_r]; reflexivity. }
    constructor; cbn [endpoints g_ready g_pending]; rewrite ?created_snoc, ?Nat.add_0_r.
    + rewrite set_length. exact I1.
    + intros j LJ. rewrite EX. destruct (Nat.eqb_spec j i) as [->|NE]; [apply set_same; lia|]. rewrite set_other by congruence. apply I2. exact LJ.
    + intros j LJ. rewrite dropped_snoc, said_snoc. destruct (I3 j LJ) as [-> ->]. split; [|reflexivity]. destruct (Nat.eqb_spec j i); [lia|reflexivity].
    + rewrite (count_set is_ready _ _ _ _ N), I4. destruct k as [[]|]; cbn in P; injection P as <- <-; cbn; lia.
    + rewrite (count_set is_pending _ _ _ _ N), I5. destruct k as [[]|]; cbn in P; injection P as <- <-; cbn; lia.
Qed.
Lemma count_seq : forall (f : option (option known) -> bool) l g n, (forall i, i < length l -> nth_error l i = Some (g (n + i))) ->
  count f l = Z.of_nat (length (filter (fun i => f (g i)) (seq n (length l)))).
Proof.
  intros f. unfold count. induction l as [|x l IH]; intros g n H; [reflexivity|]. cbn [length seq filter].
  pose proof (H 0 ltac:(cbn; lia)) as X. cbn in X. rewrite Nat.add_0_r in X. injection X as ->.
  specialize (IH g (S n)). assert (H' : forall i, i < length l -> nth_error l i = Some (g (S n + i))).
  { intros i L. specialize (H (S i) ltac:(cbn; lia)). cbn in H. rewrite H. f_equal. f_equal. lia. }
  specialize (IH H'). destruct (f (g n)); cbn [length]; lia.
Qed.
Lemma filter_ext_in : forall (f g : nat -> bool) l, (forall x, In x l -> f x = g x) -> filter f l = filter g l.
Proof. intros f g l H. induction l as [|x l IH]; [reflexivity|]. cbn. rewrite (H x) by (left; reflexivity). rewrite IH by (intros; apply H; right; assumption). reflexivity. Qed.
Lemma gauges : forall l s, run l s -> g_ready s = Z.of_nat (ready_endpoints l) /\ g_pending s = Z.of_nat (pending_endpoints l).
Proof.
  intros l s H. destruct (inv_run l s H) as [I1 I2 I3 I4 I5]. rewrite I4, I5.
  rewrite (count_seq is_ready (endpoints s) (expected l) 0), (count_seq is_pending (endpoints s) (expected l) 0) by (intros i L; apply I2; lia).
  rewrite I1. unfold ready_endpoints, pending_endpoints. split; f_equal; f_equal; apply filter_ext_in; intros i I; apply in_seq in I; unfold live, expected; fold (dropped l i);
    (destruct (Nat.ltb_spec i (created l)); [|lia]); destruct (dropped l i); [reflexivity| |reflexivity|]; destruct (said l i) as [[]|]; reflexivity.
Qed.
Lemma all_dropped : forall l s, run l s -> (forall i, i < created l -> In (Drop i) l) -> g_ready s = 0%Z /\ g_pending s = 0%Z.
Proof.
  intros l s H D. destruct (gauges l s H) as [-> ->]. unfold ready_endpoints, pending_endpoints.
  assert (L : forall i, In i (seq 0 (created l)) -> live l i = false).
  { intros i I. apply in_seq in I. unfold live. replace (existsb (fun o => match o with Drop j => Nat.eqb i j | _ => false end) l) with true; [apply andb_false_r|].
    symmetry. apply existsb_exists. exists (Drop i). split; [apply D; lia|apply Nat.eqb_refl]. }
  assert (Z0 : forall g : nat -> bool, filter (fun i => live l i && g i) (seq 0 (created l)) = []).
  { intros g. induction (seq 0 (created l)) as [|x q IH]; [reflexivity|]. cbn. rewrite (L x) by (left; reflexivity). apply IH. intros i I. apply L. right. exact I. }
  rewrite !Z0. split; reflexivity.
Qed.
