(** Proofs about the counters of connections *)
From Coq Require Import List Arith NArith Bool Lia ZifyBool ZifyNat ZifyN.
From Verif Require ReqMetricsProofs.
From Verif Require Import ConnMetricsModel ConnMetricsSpec.
Import ListNotations.
Open Scope N_scope.

Lemma eos_eqb_eq : forall a b, eos_eqb a b = true <-> a = b.
Proof. intros [a|] [b|]; cbn; rewrite ?N.eqb_eq; split; intro E; congruence || (injection E; auto). Qed.
Lemma eos_eqb_sym : forall a b, eos_eqb a b = eos_eqb b a.
Proof. intros [a|] [b|]; cbn; auto using N.eqb_sym. Qed.
Lemma find_incr_close : forall l c c',
  match find (fun x : option N * N => eos_eqb (fst x) c') (incr_close l c) with Some (_, n) => n | None => 0 end =
  let n := match find (fun x : option N * N => eos_eqb (fst x) c') l with Some (_, n) => n | None => 0 end in
  if eos_eqb c c' then add n 1 else n.
Proof.
  induction l as [|[k n] l IH]; intros c c'; cbn [incr_close find fst].
  - destruct (eos_eqb c c') eqn:E; reflexivity.
  - destruct (eos_eqb k c) eqn:E; cbn [find fst].
    + apply eos_eqb_eq in E; subst k. destruct (eos_eqb c c'); reflexivity.
    + destruct (eos_eqb k c') eqn:E'; [|apply IH]. cbn zeta.
      apply eos_eqb_eq in E'; subst k. rewrite eos_eqb_sym, E. reflexivity.
Qed.
Lemma add_mod : forall n k, add (n mod 2 ^ 64) k = (n + k) mod 2 ^ 64.
Proof. intros. unfold add. rewrite N.add_mod_idemp_l; [reflexivity|]. vm_compute. discriminate. Qed.
Lemma decr_mod : forall n, (0 < n)%nat -> decr (N.of_nat n mod 2 ^ 64) = N.of_nat (n - 1) mod 2 ^ 64.
Proof.
  intros n P. unfold decr. rewrite N.add_mod_idemp_l by (vm_compute; discriminate).
  replace (N.of_nat n + (2 ^ 64 - 1)) with (N.of_nat (n - 1) + 1 * 2 ^ 64).
  - apply N.mod_add. vm_compute. discriminate.
  - assert (0 < 2 ^ 64) by (vm_compute; reflexivity). lia.
Qed.
Lemma sum_app {A} : forall (f : A -> N) l l', sum f (l ++ l') = sum f l + sum f l'.
Proof. intros f l l'. unfold sum. induction l as [|x l IH]; cbn [app fold_right]; [reflexivity|]. rewrite IH. lia. Qed.
Lemma sum_ext {A} : forall (f g : A -> N) l, (forall x, In x l -> g x = f x) -> sum g l = sum f l.
Proof.
  intros f g l. unfold sum. induction l as [|x l IH]; intro E; [reflexivity|]. cbn [fold_right].
  rewrite (E x (or_introl eq_refl)), IH; [reflexivity|]. intros y M. apply E. right; exact M.
Qed.
Lemma sum_at : forall (f g : nat -> N) id d n a, (forall j, j <> id -> g j = f j) -> g id = f id + d -> (a <= id < a + n)%nat ->
  sum g (seq a n) = sum f (seq a n) + d.
Proof.
  intros f g id d n. induction n as [|n IH]; intros a E M B; [lia|]. cbn [seq]. unfold sum. cbn [fold_right].
  change (g a + sum g (seq (S a) n) = f a + sum f (seq (S a) n) + d). destruct (Nat.eq_dec a id) as [->|D].
  - rewrite (sum_ext f g (seq (S id) n)) by (intros j J; apply in_seq in J; apply E; lia). lia.
  - rewrite (E a D), (IH (S a) E M) by lia. lia.
Qed.
Lemma until_app : forall f l l', until f (l ++ l') = match find f l with Some _ => until f l | None => l ++ until f l' end.
Proof.
  intros f l l'. induction l as [|x l IH]; cbn [until find app]; [reflexivity|]. destruct (f x); [reflexivity|]. rewrite IH. destruct (find f l); reflexivity.
Qed.
Lemma until_all : forall f l, find f l = None -> until f l = l.
Proof. intros f l. induction l as [|x l IH]; cbn; [reflexivity|]. destruct (f x); [discriminate|]. intro E. rewrite (IH E). reflexivity. Qed.

(** ** The connection an input is about *)
Definition about (i : input) : option nat := match i with Open _ => None | Io id _ _ _ | Drop id _ => Some id end.
Lemma not_about : forall i id, about i <> Some id -> ends id i = false /\ is_read id i = 0 /\ is_write id i = 0.
Proof.
  intros i id A. destruct i as [t|j o r t|j t]; cbn in A |- *; auto;
    (assert (Nat.eqb j id = false) as E by (apply Nat.eqb_neq; congruence)); rewrite ?E; auto.
  destruct o, r as [|n|[|] e]; auto.
Qed.
Lemma opened_app : forall h h', opened (h ++ h') = (opened h + opened h')%nat.
Proof. intros. unfold opened. rewrite filter_app, app_length. reflexivity. Qed.
Lemma opened_about : forall h i id, about i = Some id -> opened (h ++ [i]) = opened h.
Proof. intros h i id A. rewrite opened_app. destruct i; try discriminate; cbn; lia. Qed.
Lemma code_named e : code e = named e.
Proof.
  unfold code, named. destruct (e =? 0) eqn:A, (131 <? e) eqn:B, (e =? 41) eqn:C, (e =? 58) eqn:D, (1 <=? e) eqn:F, (e <=? 131) eqn:G; try reflexivity; cbn; lia.
Qed.
Lemma ending_app : forall h h' id, ending (h ++ h') id = match ending h id with Some e => Some e | None => ending h' id end.
Proof.
  intros h h' id. unfold ending. rewrite ReqMetricsProofs.find_app. destruct (find (ends id) h) as [x|]; [|reflexivity].
  destruct x as [t|j o [|n|b [e|]] t|j t]; reflexivity.
Qed.
Lemma ending_none : forall h id, ending h id = None <-> find (ends id) h = None.
Proof. intros h id. unfold ending. destruct (find (ends id) h) as [[t|j o [|n|b [e|]] t|j t]|]; split; congruence. Qed.
Lemma others_same : forall h i j, about i <> Some j ->
  ending (h ++ [i]) j = ending h j /\ bytes_read (h ++ [i]) j = bytes_read h j /\ bytes_written (h ++ [i]) j = bytes_written h j.
Proof.
  intros h i j A. destruct (not_about i j A) as (E & Rd & Wr). split; [|split].
  - rewrite ending_app. destruct (ending h j); [reflexivity|]. unfold ending. cbn [find]. rewrite E. reflexivity.
  - unfold bytes_read. rewrite until_app. destruct (find (ends j) h) eqn:F; [reflexivity|]. rewrite (until_all _ _ F), sum_app.
    cbn [until]. rewrite E. unfold sum at 2. cbn [fold_right]. rewrite Rd. lia.
  - unfold bytes_written. rewrite until_app. destruct (find (ends j) h) eqn:F; [reflexivity|]. rewrite (until_all _ _ F), sum_app.
    cbn [until]. rewrite E. unfold sum at 2. cbn [fold_right]. rewrite Wr. lia.
Qed.

(** ** The counters match the history *)
Definition ended (h : list input) (id : nat) : bool := negb (still_open h id).
Definition counts (h : list input) (m : metrics) : Prop :=
  open_total m = N.of_nat (opened h) mod 2 ^ 64 /\
  open_connections m = N.of_nat (opened h - length (filter (ended h) (ids h))) mod 2 ^ 64 /\
  read_bytes m = sum (bytes_read h) (ids h) mod 2 ^ 64 /\ write_bytes m = sum (bytes_written h) (ids h) mod 2 ^ 64 /\
  forall e, close_total m e = N.of_nat (length (filter (ended_with h e) (ids h))) mod 2 ^ 64.
Definition inv (h : list input) (s : state) : Prop :=
  length (conns s) = opened h /\
  (forall i id, In i h -> about i = Some id -> (id < opened h)%nat) /\
  (forall id c, nth_error (conns s) id = Some c -> match c with Conn has => has = still_open h id | Dropped => still_open h id = false end) /\
  counts h (counters s).

Lemma open_count : forall h, (length (filter (still_open h) (ids h)) = opened h - length (filter (ended h) (ids h)))%nat.
Proof.
  intro h. assert (length (ids h) = length (filter (still_open h) (ids h)) + length (filter (ended h) (ids h)))%nat as E.
  { unfold ended. induction (ids h) as [|x l IH]; [reflexivity|]. cbn [filter]. destruct (still_open h x); cbn [negb length]; lia. }
  unfold ids in E at 1. rewrite seq_length in E. lia.
Qed.
Lemma inv_step : forall h s i id m c0 c, inv h s -> about i = Some id -> nth_error (conns s) id = Some c0 ->
  match c with Conn has => has = still_open (h ++ [i]) id | Dropped => still_open (h ++ [i]) id = false end -> counts (h ++ [i]) m ->
  inv (h ++ [i]) (State m (set_nth id c (conns s))).
Proof.
  intros h s i id m c0 c (L & B & T & _) A E Tr C. unfold inv. cbn [conns counters].
  assert (forall l, length (set_nth id c l) = length l) as SL by (clear; induction id; destruct l; cbn; auto). rewrite SL, (opened_about h i id A).
  split; [exact L|]. split; [|split; [|exact C]].
  - intros i' id' M A'. apply in_app_or in M. destruct M as [M|[<-|[]]]; [apply (B i' id' M A')|].
    assert (id' = id) as -> by congruence. rewrite <- L. apply nth_error_Some. congruence.
  - intros j cj Ej. assert (forall l j, nth_error (set_nth id c l) j = if Nat.eqb id j then match nth_error l id with Some _ => Some c | None => None end else nth_error l j) as SG.
    { clear. induction id as [|i IH]; intros [|y l] [|j]; cbn; try reflexivity; [destruct (Nat.eqb i j); reflexivity|apply IH]. }
    rewrite SG in Ej. destruct (Nat.eqb id j) eqn:D.
    + apply Nat.eqb_eq in D; subst j. rewrite E in Ej. injection Ej as <-. exact Tr.
    + apply Nat.eqb_neq in D. assert (about i <> Some j) as A' by congruence. destruct (others_same h i j A') as (S & _).
      specialize (T j cj Ej). unfold still_open in *. rewrite S. exact T.
Qed.
(** How an input about a connection changes the counters *)
Lemma counts_snoc : forall h i id m m', about i = Some id -> (id < opened h)%nat -> counts h m ->
  open_total m' = open_total m ->
  open_connections m' = (if still_open h id && negb (still_open (h ++ [i]) id) then decr (open_connections m) else open_connections m) ->
  read_bytes m' = add (read_bytes m) (if still_open h id && negb (ends id i) then is_read id i else 0) ->
  write_bytes m' = add (write_bytes m) (if still_open h id && negb (ends id i) then is_write id i else 0) ->
  (forall e, close_total m' e = if still_open h id && ended_with (h ++ [i]) e id then add (close_total m e) 1 else close_total m e) ->
  counts (h ++ [i]) m'.
Proof.
  intros h i id m m' A B (C1 & C2 & C3 & C4 & C5) T1 T2 T3 T4 T5. unfold counts, ids. rewrite (opened_about h i id A).
  assert (forall j, j <> id -> about i <> Some j) as Ne by congruence.
  split; [congruence|]. split; [|split; [|split]].
  - rewrite T2, C2. unfold ids. rewrite (ReqMetricsProofs.count_at (ended h) (ended (h ++ [i])) id); [| | |lia].
    + unfold ended. rewrite negb_involutive. destruct (still_open h id && negb (still_open (h ++ [i]) id)) eqn:X; [|rewrite Nat.add_0_r; reflexivity].
      rewrite decr_mod; [f_equal; f_equal; lia|].
      pose proof (open_count h) as O. unfold ended, ids in O. rewrite <- O.
      apply andb_true_iff in X. destruct X as [X _].
      assert (In id (filter (still_open h) (seq 0 (opened h)))) as M by (apply filter_In; split; [apply in_seq; lia|exact X]).
      destruct (filter (still_open h) (seq 0 (opened h))); [destruct M|cbn; lia].
    + intros j J. unfold ended, still_open. destruct (others_same h i j (Ne j J)) as (-> & _). reflexivity.
    + unfold ended, still_open. rewrite ending_app. destruct (ending h id); [auto|discriminate].
  - rewrite T3, C3, add_mod. f_equal. unfold ids. symmetry. apply (sum_at _ _ id); [| |lia].
    + intros j J. apply (others_same h i j (Ne j J)).
    + unfold bytes_read, still_open. rewrite until_app. destruct (ending h id) eqn:X.
      * destruct (find (ends id) h) eqn:F; [cbn; lia|]. apply ending_none in F. congruence.
      * apply ending_none in X. rewrite X, (until_all _ _ X), sum_app. cbn [until andb]. destruct (ends id i); cbn [negb]; unfold sum at 2; cbn [fold_right]; lia.
  - rewrite T4, C4, add_mod. f_equal. unfold ids. symmetry. apply (sum_at _ _ id); [| |lia].
    + intros j J. apply (others_same h i j (Ne j J)).
    + unfold bytes_written, still_open. rewrite until_app. destruct (ending h id) eqn:X.
      * destruct (find (ends id) h) eqn:F; [cbn; lia|]. apply ending_none in F. congruence.
      * apply ending_none in X. rewrite X, (until_all _ _ X), sum_app. cbn [until andb]. destruct (ends id i); cbn [negb]; unfold sum at 2; cbn [fold_right]; lia.
  - intro e. rewrite T5, C5. unfold ids. rewrite (ReqMetricsProofs.count_at (ended_with h e) (ended_with (h ++ [i]) e) id); [| | |lia].
    + unfold still_open, ended_with. rewrite ending_app. destruct (ending h id) as [e'|].
      * cbn [andb]. destruct (eos_eqb e' e); cbn [negb andb]; rewrite Nat.add_0_r; reflexivity.
      * cbn [andb negb]. destruct (ending [i] id) as [e'|]; [|rewrite Nat.add_0_r; reflexivity].
        destruct (eos_eqb e' e); [|rewrite Nat.add_0_r; reflexivity]. rewrite add_mod, Nat2N.inj_add. reflexivity.
    + intros j J. unfold ended_with. destruct (others_same h i j (Ne j J)) as (-> & _). reflexivity.
    + unfold ended_with. rewrite ending_app. destruct (ending h id); [auto|discriminate].
Qed.
Lemma close_close : forall m e t e', close_total (record_close m true e t) e' = if eos_eqb e e' then add (close_total m e') 1 else close_total m e'.
Proof. intros. unfold close_total, record_close. cbn [closes]. apply find_incr_close. Qed.

Lemma add_0 : forall n, add (n mod 2 ^ 64) 0 = n mod 2 ^ 64.
Proof. intro n. rewrite add_mod, N.add_0_r. reflexivity. Qed.
Lemma step_inv : forall h s i s', inv h s -> step s i = Some s' -> inv (h ++ [i]) s'.
Proof.
  intros h s i s' V E. pose proof V as (L & B & T & C). pose proof C as (C1 & C2 & C3 & C4 & C5).
  destruct i as [t|id o r t|id t]; cbn [step] in E.
  - injection E as <-. unfold inv. cbn [conns counters].
    assert (opened (h ++ [Open t]) = S (opened h)) as Eo by (rewrite opened_app; cbn; lia).
    assert (forall j, ending (h ++ [Open t]) j = ending h j /\ bytes_read (h ++ [Open t]) j = bytes_read h j /\ bytes_written (h ++ [Open t]) j = bytes_written h j) as Same
      by (intro j; apply others_same; discriminate).
    assert (find (ends (opened h)) h = None) as Fn.
    { destruct (find (ends (opened h)) h) as [x|] eqn:F; [|reflexivity]. apply find_some in F. destruct F as [M F].
      destruct (about x) as [j|] eqn:A; [|destruct x; discriminate]. destruct (Nat.eq_dec j (opened h)) as [->|D].
      - pose proof (B x _ M A). lia.
      - destruct (not_about x (opened h)) as (X & _); [congruence|]. congruence. }
    assert (forall f : nat -> input -> N, (forall id i, about i <> Some id -> f id i = 0) -> sum (f (opened h)) h = 0) as Fz.
    { intros f N. assert (forall x, In x h -> f (opened h) x = 0) as Z.
      { intros x M. apply N. intro A. pose proof (B x _ M A). lia. }
      revert Z. generalize (f (opened h)). intro g. clear. unfold sum. induction h as [|x h IH]; intro Z; [reflexivity|].
      cbn [fold_right]. rewrite (Z x (or_introl eq_refl)), IH; [reflexivity|]. intros y M. apply Z. right; exact M. }
    assert (ids (h ++ [Open t]) = ids h ++ [opened h]) as Ei.
    { unfold ids. rewrite Eo. replace (S (opened h)) with (opened h + 1)%nat by lia. rewrite seq_app. reflexivity. }
    split; [rewrite app_length, Eo, L; cbn; lia|]. split; [|split].
    + intros i id M A. rewrite Eo. apply in_app_or in M. destruct M as [M|[<-|[]]]; [|discriminate]. pose proof (B i id M A). lia.
    + intros id c E. unfold still_open. destruct (Same id) as (-> & _). destruct (Nat.lt_ge_cases id (length (conns s))) as [J|J].
      * rewrite nth_error_app1 in E by exact J. apply (T id c E).
      * rewrite nth_error_app2 in E by exact J. destruct (id - length (conns s))%nat as [|k] eqn:K; [|destruct k; discriminate].
        injection E as <-. assert (id = opened h) as -> by lia. rewrite (proj2 (ending_none h (opened h)) Fn). reflexivity.
    + unfold counts. rewrite Eo, Ei. cbn [open open_total open_connections read_bytes write_bytes].
      assert (ended (h ++ [Open t]) (opened h) = false) as X1.
      { unfold ended, still_open. destruct (Same (opened h)) as (-> & _). rewrite (proj2 (ending_none h (opened h)) Fn). reflexivity. }
      split; [rewrite C1, add_mod; f_equal; lia|]. split; [|split; [|split]].
      * rewrite filter_app, app_length. cbn [filter]. rewrite X1. cbn [length]. rewrite Nat.add_0_r.
        rewrite (filter_ext_in (ended (h ++ [Open t])) (ended h)) by (intros j _; unfold ended, still_open; destruct (Same j) as (-> & _); reflexivity).
        rewrite C2, add_mod. f_equal.
        assert (length (filter (ended h) (ids h)) <= opened h)%nat.
        { unfold ids. rewrite <- (seq_length (opened h) 0) at 2. induction (seq 0 (opened h)) as [|x l IH]; [auto|]. cbn [filter].
          destruct (ended h x); cbn [length]; lia. }
        lia.
      * rewrite sum_app. unfold sum at 2. cbn [fold_right]. destruct (Same (opened h)) as (_ & -> & _). unfold bytes_read at 2.
        rewrite (until_all _ _ Fn), (Fz is_read) by (intros ? ? A; apply not_about in A; tauto).
        rewrite !N.add_0_r, C3. f_equal. symmetry. apply sum_ext. intros j _. apply Same.
      * rewrite sum_app. unfold sum at 2. cbn [fold_right]. destruct (Same (opened h)) as (_ & _ & ->). unfold bytes_written at 2.
        rewrite (until_all _ _ Fn), (Fz is_write) by (intros ? ? A; apply not_about in A; tauto).
        rewrite !N.add_0_r, C4. f_equal. symmetry. apply sum_ext. intros j _. apply Same.
      * intro e. change (close_total (open (counters s) t) e) with (close_total (counters s) e). rewrite C5. f_equal. f_equal.
        rewrite filter_app, app_length. cbn [filter].
        assert (ended_with (h ++ [Open t]) e (opened h) = false) as ->.
        { unfold ended_with. destruct (Same (opened h)) as (-> & _). rewrite (proj2 (ending_none h (opened h)) Fn). reflexivity. }
        cbn [length]. rewrite Nat.add_0_r. f_equal. apply filter_ext_in. intros j _. unfold ended_with. destruct (Same j) as (-> & _). reflexivity.
  - destruct (nth_error (conns s) id) as [[has|]|] eqn:N; try discriminate. pose proof (T id _ N) as Th. cbn in Th.
    assert (id < opened h)%nat as J by (rewrite <- L; apply nth_error_Some; congruence).
    destruct (io (counters s) has o r t) as [m has'] eqn:P. injection E as <-.
    set (i := Io id o r t) in *.
    assert (still_open (h ++ [i]) id = has && negb (ends id i)) as So.
    { unfold still_open in *. rewrite ending_app, Th. destruct (ending h id); [reflexivity|]. unfold ending. cbn [find].
      destruct (ends id i); [|reflexivity]. unfold i. destruct r as [|?|b [e|]]; reflexivity. }
    refine (inv_step h s i id _ _ _ V eq_refl N _ _).
    + rewrite So. unfold i. destruct o, r as [|n|[|] e]; cbn in P |- *; rewrite ?Nat.eqb_refl; injection P as <- <-; rewrite ?andb_true_r, ?andb_false_r; reflexivity.
    + apply (counts_snoc h i id (counters s) m eq_refl J C).
      * destruct o, r as [|n|[|] e], has; cbn in P; injection P as <- <-; reflexivity.
      * rewrite So, <- Th. unfold i. destruct o, r as [|n|[|] e], has; cbn in P |- *; rewrite ?Nat.eqb_refl; injection P as <- <-; reflexivity.
      * rewrite <- Th. unfold i. destruct o, r as [|n|[|] e], has; cbn in P; injection P as <- <-; cbn [ends is_read negb andb read_bytes record_read];
          rewrite ?Nat.eqb_refl; cbn [negb andb]; rewrite ?C3, ?add_0; reflexivity.
      * rewrite <- Th. unfold i. destruct o, r as [|n|[|] e], has; cbn in P; injection P as <- <-; cbn [ends is_write negb andb write_bytes record_write];
          rewrite ?Nat.eqb_refl; cbn [negb andb]; rewrite ?C4, ?add_0; reflexivity.
      * intro e. rewrite <- Th. destruct has.
        2:{ destruct o, r as [|n|[|] e']; cbn in P; injection P as <- <-; reflexivity. }
        assert (ending h id = None) as En by (unfold still_open in Th; destruct (ending h id); [discriminate|reflexivity]).
        unfold ended_with. rewrite ending_app, En. unfold ending, i. cbn [find andb].
        destruct r as [|n|[|] e'].
        -- destruct o; cbn in P |- *; injection P as <- <-; reflexivity.
        -- destruct o; cbn in P |- *; injection P as <- <-; reflexivity.
        -- destruct o; cbn in P |- *; injection P as <- <-; reflexivity.
        -- assert (m = record_close (counters s) true (option_map code e') t) as -> by (destruct o; cbn in P; injection P as <- <-; reflexivity).
           cbn [ends]. rewrite Nat.eqb_refl, close_close. destruct e' as [e'|]; [cbn [option_map]; rewrite code_named|]; reflexivity.
  - destruct (nth_error (conns s) id) as [[has|]|] eqn:N; try discriminate. pose proof (T id _ N) as Th. cbn in Th.
    assert (id < opened h)%nat as J by (rewrite <- L; apply nth_error_Some; congruence). injection E as <-.
    set (i := Drop id t) in *.
    assert (still_open (h ++ [i]) id = false) as So.
    { unfold still_open in *. rewrite ending_app. destruct (ending h id); [reflexivity|]. unfold ending, i. cbn. rewrite Nat.eqb_refl. reflexivity. }
    refine (inv_step h s i id _ _ Dropped V eq_refl N So _).
    apply (counts_snoc h i id (counters s) _ eq_refl J C).
    + destruct has; reflexivity.
    + rewrite So, <- Th. destruct has; reflexivity.
    + unfold i. cbn [ends]. rewrite Nat.eqb_refl, andb_false_r. destruct has; cbn [record_close read_bytes]; rewrite C3, add_0; reflexivity.
    + unfold i. cbn [ends]. rewrite Nat.eqb_refl, andb_false_r. destruct has; cbn [record_close write_bytes]; rewrite C4, add_0; reflexivity.
    + intro e. rewrite <- Th. destruct has; [|reflexivity].
      assert (ending h id = None) as En by (unfold still_open in Th; destruct (ending h id); [discriminate|reflexivity]).
      unfold ended_with. rewrite ending_app, En, close_close. unfold ending, i. cbn. rewrite Nat.eqb_refl. reflexivity.
Qed.
Lemma run_inv : forall t0 h s, run t0 h s -> inv h s.
Proof.
  intros t0 h s R. induction R as [|h s i s' R IH E]; [|exact (step_inv h s i s' IH E)].
  unfold inv, counts. cbn. split; [reflexivity|]. split; [intros ? ? []|]. split; [intros [|?] ? X; discriminate|]. auto 10.
Qed.

(** ** The theorems *)
Lemma run_opened : forall t0 h s, run t0 h s -> open_total (counters s) = N.of_nat (opened h) mod 2 ^ 64.
Proof. intros t0 h s R. apply (run_inv t0 h s R). Qed.
Lemma run_open : forall t0 h s, run t0 h s -> open_connections (counters s) = N.of_nat (length (filter (still_open h) (ids h))) mod 2 ^ 64.
Proof. intros t0 h s R. rewrite open_count. apply (run_inv t0 h s R). Qed.
Lemma run_closed : forall t0 h s e, run t0 h s -> close_total (counters s) e = N.of_nat (length (filter (ended_with h e) (ids h))) mod 2 ^ 64.
Proof. intros t0 h s e R. apply (run_inv t0 h s R). Qed.
Lemma run_bytes : forall t0 h s, run t0 h s ->
  read_bytes (counters s) = sum (bytes_read h) (ids h) mod 2 ^ 64 /\ write_bytes (counters s) = sum (bytes_written h) (ids h) mod 2 ^ 64.
Proof. intros t0 h s R. split; apply (run_inv t0 h s R). Qed.
Lemma step_updated : forall s i s', step s i = Some s' -> counters s' = counters s \/ last_update (counters s') = time i.
Proof.
  intros s i s' E. destruct i as [t|id o r t|id t]; cbn in E.
  - injection E as <-. auto.
  - destruct (nth_error (conns s) id) as [[has|]|]; try discriminate. destruct o, r as [|n|[|] e], has; cbn in E; injection E as <-; auto.
  - destruct (nth_error (conns s) id) as [[has|]|]; try discriminate. destruct has; injection E as <-; auto.
Qed.
Lemma dropped_ended : forall h id t, In (Drop id t) h -> still_open h id = false.
Proof.
  intros h id t M. unfold still_open. destruct (ending h id) eqn:E; [reflexivity|]. apply ending_none in E.
  pose proof (find_none _ _ E _ M) as X. cbn in X. rewrite Nat.eqb_refl in X. discriminate.
Qed.
Lemma ending_kept : forall h h' id e, ending h id = Some e -> ending (h ++ h') id = Some e.
Proof. intros h h' id e E. rewrite ending_app, E. reflexivity. Qed.
