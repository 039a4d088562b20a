From Coq Require Import List Arith Lia.
From Verif Require Import LockModel LockSpec.
Import ListNotations.

(** A thread with [p] left to do holds [h] references, at most [d] at a time; as a writer it has
    done nothing (0), claimed the lock (1), or has it to itself (2). *)
Inductive fine (d : nat) : nat -> nat -> program -> Prop :=
| f_nil : fine d 0 0 []
| f_read h p : h < d -> fine d (S h) 0 p -> fine d h 0 (Read :: p)
| f_unread h p : fine d h 0 p -> fine d (S h) 0 (Unread :: p)
| f_claim p : fine d 0 1 p -> fine d 0 0 (Claim :: p)
| f_drain p : fine d 0 2 p -> fine d 0 1 (Drain :: p)
| f_unclaim p : fine d 0 0 p -> fine d 0 2 (Unclaim :: p).

Lemma fine_app d h ph p q : fine d h ph p -> fine d 0 0 q -> fine d h ph (p ++ q).
Proof. intros H Hq. induction H; cbn; [exact Hq|constructor; assumption..]. Qed.
Lemma fine_flat {A} d (f : A -> program) l : (forall t, In t l -> fine d 0 0 (f t)) -> fine d 0 0 (flat_map f l).
Proof.
  induction l as [|t l IH]; cbn; intros H; [constructor|].
  apply fine_app; [apply H; now left|]. apply IH. intros u Hu. apply H. now right.
Qed.
Ltac fines := repeat (constructor; try lia).
Lemma simple_fine t : ~ nested t -> fine 1 0 0 (program_of t).
Proof.
  intros H. destruct t as [[]|[]|[]| |]; cbn; try (exfalso; apply H; constructor); fines.
Qed.
Lemma any_fine t : fine 2 0 0 (program_of t).
Proof. destruct t as [[]|[]|[]| |]; cbn; fines. Qed.
Lemma fine_held d h ph p : fine d h ph p -> occurs Unread p = occurs Read p + h.
Proof. induction 1; unfold occurs in *; cbn in *; lia. Qed.
Lemma fine_is_held d h ph p : fine d h ph p -> held p = h.
Proof. intros H. unfold held. rewrite (fine_held _ _ _ _ H). lia. Qed.

Definition sum (hs : list (nat * nat)) : nat := list_sum (map fst hs).
Definition claims (hs : list (nat * nat)) : nat := list_sum (map (fun x => if snd x =? 0 then 0 else 1) hs).
Definition shape (d : nat) (x : nat * nat) (p : program) : Prop := fine d (fst x) (snd x) p.
Definition inv (d : nat) (w : world) : Prop :=
  exists hs, Forall2 (shape d) hs (w_threads w) /\ l_readers (w_lock w) = sum hs /\
    claims hs = (if l_claimed (w_lock w) then 1 else 0) /\
    (forall h, In (h, 2) hs -> l_readers (w_lock w) = 0).

Lemma sum_app a b : sum (a ++ b) = sum a + sum b.
Proof. unfold sum. now rewrite map_app, list_sum_app. Qed.
Lemma claims_app a b : claims (a ++ b) = claims a + claims b.
Proof. unfold claims. now rewrite map_app, list_sum_app. Qed.
Lemma sum_cons x a : sum (x :: a) = fst x + sum a.
Proof. reflexivity. Qed.
Lemma claims_cons x a : claims (x :: a) = (if snd x =? 0 then 0 else 1) + claims a.
Proof. reflexivity. Qed.
Lemma put_app l1 p q l2 : put (List.length l1) q (l1 ++ p :: l2) = l1 ++ q :: l2.
Proof. induction l1 as [|x l1 IH]; cbn; [reflexivity|now rewrite IH]. Qed.
Lemma phase_le d h ph p : fine d h ph p -> ph <= 2.
Proof. destruct 1; lia. Qed.

(** One step from the middle of the list. *)
Lemma inv_step d w i : inv d w -> inv d (step w i).
Proof.
  intros I. unfold step. destruct (nth_error (w_threads w) i) as [[|a p]|] eqn:E; [exact I| |exact I].
  destruct (act a (w_lock w)) as [l|] eqn:A; [|exact I].
  apply nth_error_split in E as (l1 & l2 & E & L). destruct I as (hs & F & R & C & D).
  destruct w as [[cl rd] ts]. cbn [w_threads w_lock l_readers l_claimed] in *. subst ts i.
  apply Forall2_app_inv_r in F as (h1 & hr & F1 & F2 & ->).
  destruct hr as [|[h ph] h2]; [inversion F2|]. inversion_clear F2 as [|? ? ? ? Sh F3].
  unfold shape in Sh. cbn [fst snd] in Sh.
  rewrite put_app. rewrite sum_app, sum_cons, <- (Nat.add_0_r rd) in R. rewrite claims_app, claims_cons in C.
  cbn [fst snd] in R, C.
  assert (D' : forall h', In (h', 2) h1 \/ In (h', 2) h2 -> rd = 0).
  { intros h' H. apply (D h'). apply in_app_iff. destruct H; [now left|right; now right]. }
  assert (Two : ph = 2 -> rd = 0).
  { intros ->. apply (D h). apply in_elt. }
  inversion Sh; subst; cbn [act l_readers l_claimed] in A.
  - destruct cl; [discriminate|]. injection A as <-. exists (h1 ++ (S h, 0) :: h2).
    split; [apply Forall2_app; [exact F1|]; constructor; [assumption|exact F3]|].
    cbn [w_lock l_readers l_claimed]. rewrite sum_app, sum_cons, claims_app, claims_cons. cbn [fst snd] in *.
    split; [lia|]. split; [exact C|]. intros h' H.
    assert (claims h1 = 0 /\ claims h2 = 0) as [C1 C2] by (cbn in C; lia). exfalso.
    assert (Z : forall hs', claims hs' = 0 -> ~ In (h', 2) hs').
    { induction hs' as [|x hs' IH]; [easy|]. rewrite claims_cons. intros Z [->|K]; [cbn in Z; lia|].
      apply IH; [lia|exact K]. }
    apply in_app_iff in H as [H|[H|H]]; [now apply (Z h1)|discriminate|now apply (Z h2)].
  - injection A as <-. exists (h1 ++ (h0, 0) :: h2).
    split; [apply Forall2_app; [exact F1|]; constructor; [assumption|exact F3]|].
    cbn [w_lock l_readers l_claimed]. rewrite sum_app, sum_cons, claims_app, claims_cons. cbn [fst snd] in *.
    split; [lia|]. split; [exact C|]. intros h' H.
    apply in_app_iff in H as [H|[H|H]]; [|discriminate|].
    + pose proof (D' h' (or_introl H)). lia.
    + pose proof (D' h' (or_intror H)). lia.
  - destruct cl; [discriminate|]. injection A as <-. exists (h1 ++ (0, 1) :: h2).
    split; [apply Forall2_app; [exact F1|]; constructor; [assumption|exact F3]|].
    cbn [w_lock l_readers l_claimed]. rewrite sum_app, sum_cons, claims_app, claims_cons. cbn [fst snd] in *.
    split; [lia|]. split; [cbn in *; lia|]. intros h' H.
    apply in_app_iff in H as [H|[H|H]]; [|discriminate|]; apply (D' h'); auto.
  - destruct (rd =? 0) eqn:Z; [|discriminate]. apply Nat.eqb_eq in Z. injection A as <-. exists (h1 ++ (0, 2) :: h2).
    split; [apply Forall2_app; [exact F1|]; constructor; [assumption|exact F3]|].
    cbn [w_lock l_readers l_claimed]. rewrite sum_app, sum_cons, claims_app, claims_cons. cbn [fst snd] in *.
    split; [lia|]. split; [cbn in *; lia|]. intros _ _. exact Z.
  - injection A as <-. exists (h1 ++ (0, 0) :: h2).
    split; [apply Forall2_app; [exact F1|]; constructor; [assumption|exact F3]|].
    cbn [w_lock l_readers l_claimed]. rewrite sum_app, sum_cons, claims_app, claims_cons. cbn [fst snd] in *.
    split; [lia|]. split; [destruct cl; cbn in *; lia|]. intros _ _. now apply Two.
Qed.
Lemma inv_run d w sched : inv d w -> inv d (run w sched).
Proof.
  revert w; induction sched as [|i s IH]; intros w I; [exact I|]. cbn. apply IH. now apply inv_step.
Qed.
Lemma inv_start d workers : (forall ts t, In ts workers -> In t ts -> fine d 0 0 (program_of t)) ->
  inv d (start workers).
Proof.
  intros H. exists (map (fun _ => (0, 0)) workers). cbn [start w_threads w_lock l_readers l_claimed].
  split; [|split; [|split]].
  - induction workers as [|ts l IH]; cbn; constructor.
    + apply fine_flat. intros t Ht. apply (H ts t); [now left|exact Ht].
    + apply IH. intros ts' t Hl Ht. apply (H ts' t); [now right|exact Ht].
  - clear H. induction workers as [|ts l IH]; [reflexivity|exact IH].
  - clear H. induction workers as [|ts l IH]; [reflexivity|exact IH].
  - intros h F. apply in_map_iff in F as (x & F & _). discriminate.
Qed.

Lemma sum_pos hs : sum hs > 0 -> exists x, In x hs /\ fst x > 0.
Proof.
  induction hs as [|x hs IH]; [cbn; lia|]. rewrite sum_cons. intros H.
  destruct (fst x) as [|n] eqn:E.
  - destruct IH as (y & Hy & Hp); [lia|]. exists y. split; [now right|exact Hp].
  - exists x. split; [now left|lia].
Qed.
Lemma claims_pos hs : claims hs > 0 -> exists x, In x hs /\ snd x > 0.
Proof.
  induction hs as [|x hs IH]; [cbn; lia|]. rewrite claims_cons. intros H.
  destruct (snd x) as [|n] eqn:E.
  - destruct IH as (y & Hy & Hp); [cbn in H; lia|]. exists y. split; [now right|exact Hp].
  - exists x. split; [now left|lia].
Qed.
Lemma Forall2_in_l {A B} (P : A -> B -> Prop) l l' x : Forall2 P l l' -> In x l ->
  exists i y, nth_error l' i = Some y /\ P x y.
Proof.
  intros F. induction F as [|a b l l' H F IH]; [easy|]. intros [->|Hx].
  - now exists 0, b.
  - destruct (IH Hx) as (i & y & E & Hy). now exists (S i), y.
Qed.
Lemma Forall2_in_r {A B} (P : A -> B -> Prop) l l' y : Forall2 P l l' -> In y l' ->
  exists i x, nth_error l i = Some x /\ nth_error l' i = Some y /\ P x y.
Proof.
  intros F. induction F as [|a b l l' H F IH]; [easy|]. intros [->|Hx].
  - now exists 0, a.
  - destruct (IH Hx) as (i & x & E & E' & Hy). now exists (S i), x.
Qed.
Lemma put_length i p l : List.length (put i p l) = List.length l.
Proof. revert i; induction l as [|x l IH]; intros [|i]; cbn; auto. Qed.
Lemma put_same i p l : i < List.length l -> nth_error (put i p l) i = Some p.
Proof. revert i; induction l as [|x l IH]; intros [|i] H; cbn in *; try lia; auto. apply IH. lia. Qed.
Lemma put_other i j p l : i <> j -> nth_error (put i p l) j = nth_error l j.
Proof.
  revert i j; induction l as [|x l IH]; intros [|i] [|j] H; cbn; auto; try congruence.
Qed.
Lemma step_moves w i a p l : nth_error (w_threads w) i = Some (a :: p) -> act a (w_lock w) = Some l ->
  step w i <> w.
Proof.
  intros E A F. unfold step in F. rewrite E, A in F.
  assert (G : nth_error (put i p (w_threads w)) i = Some (a :: p)) by (rewrite <- E; f_equal; now rewrite <- F at 2).
  rewrite put_same in G.
  - injection G as G. assert (H : List.length p = List.length (a :: p)) by now rewrite <- G. cbn in H. lia.
  - apply nth_error_Some. now rewrite E.
Qed.
Lemma finished_dec w : finished w \/ exists p a, In (a :: p) (w_threads w).
Proof.
  unfold finished. induction (w_threads w) as [|[|a p] l IH].
  - left. easy.
  - destruct IH as [IH|(p & a & H)]; [|right; exists p, a; now right].
    left. intros q [<-|Hq]; [reflexivity|now apply IH].
  - right. exists p, a. now left.
Qed.
(** Where it can stop. *)
Lemma inv_progress d w : inv d w -> finished w \/ goes_on w \/
  exists i j p q, l_claimed (w_lock w) = true /\ l_readers (w_lock w) > 0 /\
    nth_error (w_threads w) i = Some (Read :: p) /\ (exists h, h > 0 /\ fine d h 0 (Read :: p)) /\
    nth_error (w_threads w) j = Some (Drain :: q).
Proof.
  intros (hs & F & R & C & D). destruct (finished_dec w) as [Z|(p & a & Hp)]; [now left|].
  destruct (l_claimed (w_lock w)) eqn:Cl.
  - destruct (claims_pos hs) as ([h ph] & Hin & Hph); [lia|]. cbn in Hph.
    destruct (Forall2_in_l _ _ _ _ F Hin) as (j & q & Ej & Sh). unfold shape in Sh. cbn in Sh.
    inversion Sh; subst; try lia.
    + destruct (l_readers (w_lock w)) as [|n] eqn:Er.
      * right; left. exists j. eapply step_moves; [exact Ej|]. cbn. rewrite Er. reflexivity.
      * destruct (sum_pos hs) as ([h ph] & Hin' & Hh); [lia|]. cbn in Hh.
        destruct (Forall2_in_l _ _ _ _ F Hin') as (i & r & Ei & S'). unfold shape in S'. cbn in S'.
        pose proof S' as S''. inversion S'; subst; try lia.
        -- right; right. exists i, j, p1, p0. repeat split; try assumption; [lia|]. exists h. now split.
        -- right; left. exists i. eapply step_moves; [exact Ei|]. reflexivity.
    + right; left. exists j. eapply step_moves; [exact Ej|]. reflexivity.
  - destruct (Forall2_in_r _ _ _ _ F Hp) as (i & [h ph] & Ex & Ei & Sh). unfold shape in Sh. cbn in Sh.
    right; left. exists i. inversion Sh; subst.
    + eapply step_moves; [exact Ei|]. cbn. rewrite Cl. reflexivity.
    + eapply step_moves; [exact Ei|]. reflexivity.
    + eapply step_moves; [exact Ei|]. cbn. rewrite Cl. reflexivity.
    + exfalso. apply nth_error_In in Ex.
      assert (X : claims hs > 0); [|lia]. clear -Ex. induction hs as [|y hs IH]; [easy|]. rewrite claims_cons.
      destruct Ex as [->|Ex]; [cbn; lia|]. specialize (IH Ex). lia.
    + eapply step_moves; [exact Ei|]. reflexivity.
Qed.

Lemma no_deadlock workers w : (forall ts t, In ts workers -> In t ts -> ~ nested t) -> reachable workers w ->
  finished w \/ goes_on w.
Proof.
  intros H (s & ->). assert (I : inv 1 (run (start workers) s)).
  { apply inv_run, inv_start. intros ts t Hts Ht. apply simple_fine. now apply (H ts t). }
  destruct (inv_progress _ _ I) as [Z|[Z|(i & j & p & q & _ & _ & _ & (h & Hh & Fh) & _)]]; [now left|now right|].
  exfalso. inversion Fh; subst. lia.
Qed.
Lemma inv_any workers s : inv 2 (run (start workers) s).
Proof. apply inv_run, inv_start. intros ts t _ _. apply any_fine. Qed.
Lemma only_nested workers w : reachable workers w -> stuck w -> exists i j, wedged i j w.
Proof.
  intros (s & ->) [NF NG]. destruct (inv_progress _ _ (inv_any workers s)) as [Z|[Z|(i & j & p & q & Cl & R & Ei & (h & Hh & Fh) & Ej)]];
    [contradiction|contradiction|].
  exists i, j. split; [exact Cl|]. split; [exact R|]. split.
  - exists p. split; [exact Ei|]. rewrite (fine_is_held _ _ _ _ Fh). exact Hh.
  - now exists q.
Qed.

(** ** Without updates *)
Definition no_claim (w : world) : Prop :=
  l_claimed (w_lock w) = false /\ forall p, In p (w_threads w) -> ~ In Claim p.
Lemma In_put q i p l : In q (put i p l) -> q = p \/ In q l.
Proof.
  revert i; induction l as [|x l IH]; intros [|i]; cbn; [tauto..| |]; intros [H|H]; auto.
  destruct (IH _ H); auto.
Qed.
Lemma no_claim_step w i : no_claim w -> no_claim (step w i).
Proof.
  intros [C N]. unfold step. destruct (nth_error (w_threads w) i) as [[|a p]|] eqn:E; [now split| |now split].
  apply nth_error_In in E as E'. destruct (act a (w_lock w)) as [l|] eqn:A; [|now split]. split.
  - cbn [w_lock]. destruct a; cbn in A.
    + rewrite C in A. now injection A as <-.
    + now injection A as <-.
    + exfalso. apply (N _ E'). now left.
    + destruct (_ =? 0); [|discriminate]. now injection A as <-.
    + now injection A as <-.
  - cbn [w_threads]. intros q Hq. apply In_put in Hq as [->|Hq]; [|now apply N].
    intros F. apply (N _ E'). now right.
Qed.
Lemma no_claim_run w s : no_claim w -> no_claim (run w s).
Proof. revert w; induction s as [|i s IH]; intros w H; [exact H|]. cbn. apply IH, no_claim_step, H. Qed.
Lemma no_updates workers w : (forall ts, In ts workers -> ~ In Update ts) -> reachable workers w ->
  finished w \/ goes_on w.
Proof.
  intros H (s & ->). destruct (inv_progress _ _ (inv_any workers s)) as [Z|[Z|(i & j & p & q & Cl & _)]];
    [now left|now right|].
  exfalso. assert (NC : no_claim (run (start workers) s)); [|destruct NC; congruence].
  apply no_claim_run. split; [reflexivity|]. cbn [start w_threads]. intros r Hr F.
  apply in_map_iff in Hr as (ts & <- & Hts). apply in_flat_map in F as (t & Ht & F).
  destruct t as [[]|[]|[]| |]; cbn in F; try (intuition discriminate). now apply (H ts).
Qed.

(** ** Some schedule ends well *)
Definition total (w : world) : nat := list_sum (map (@List.length action) (w_threads w)).
Lemma total_put i p a l : nth_error l i = Some (a :: p) ->
  S (list_sum (map (@List.length action) (put i p l))) = list_sum (map (@List.length action) l).
Proof.
  revert i; induction l as [|x l IH]; intros [|i] H; try discriminate.
  - cbn in H. injection H as ->. reflexivity.
  - cbn in H. cbn [put map]. change (S (List.length x + list_sum (map (@List.length action) (put i p l))) =
      List.length x + list_sum (map (@List.length action) l)). rewrite <- (IH i H). lia.
Qed.
Lemma total_step w i : step w i <> w -> total (step w i) < total w.
Proof.
  unfold step. intros H. destruct (nth_error (w_threads w) i) as [[|a p]|] eqn:E; [congruence| |congruence].
  destruct (act a (w_lock w)) as [l|] eqn:A; [|congruence]. unfold total. cbn [w_threads].
  rewrite <- (total_put _ _ _ _ E). lia.
Qed.
Lemma reachable_step workers w i : reachable workers w -> reachable workers (step w i).
Proof. intros (s & ->). exists (s ++ [i]). unfold run. now rewrite fold_left_app. Qed.
Lemma finishes workers w : (forall ts t, In ts workers -> In t ts -> ~ nested t) -> reachable workers w ->
  exists s, finished (run w s).
Proof.
  intros H. remember (total w) as n eqn:E. revert w E.
  induction n as [n IH] using lt_wf_ind. intros w -> R.
  destruct (no_deadlock _ _ H R) as [Z|(i & Z)]; [now exists []|].
  destruct (IH _ (total_step _ _ Z) (step w i) eq_refl (reachable_step _ _ _ R)) as (s & F).
  exists (i :: s). exact F.
Qed.

(** ** The deadlock *)
Lemma nth_start workers i ts : nth_error workers i = Some ts ->
  nth_error (w_threads (start workers)) i = Some (flat_map program_of ts).
Proof. intros H. cbn. now apply map_nth_error. Qed.
Lemma step_eq cl rd (ts : list program) i a (p : program) l : nth_error ts i = Some (a :: p) -> act a (Lock cl rd) = Some l ->
  step (World (Lock cl rd) ts) i = World l (put i p ts).
Proof. intros E A. unfold step. cbn [w_threads w_lock]. now rewrite E, A. Qed.
Lemma put_put i p q l : put i p (put i q l) = put i p l.
Proof. revert i; induction l as [|x l IH]; intros [|i]; cbn; auto. now rewrite IH. Qed.
Lemma borrow_steps (ts : list program) i (q : program) : nth_error ts i = Some (Read :: Unread :: q) ->
  step (step (World (Lock false 0) ts) i) i = World (Lock false 0) (put i q ts).
Proof.
  intros E. assert (L : i < List.length ts) by (apply nth_error_Some; now rewrite E).
  rewrite (step_eq false 0 _ _ _ _ (Lock false 1) E eq_refl).
  rewrite (step_eq false 1 _ i Unread q (Lock false 0) (put_same i (Unread :: q) ts L) eq_refl).
  now rewrite put_put.
Qed.
Lemma wedge (ts : list program) i j (p q : program) : i <> j -> nth_error ts i = Some (Read :: Read :: p) -> held (Read :: p) > 0 ->
  nth_error ts j = Some (Claim :: Drain :: q) ->
  wedged i j (step (step (World (Lock false 0) ts) i) j).
Proof.
  intros Hij Ei Hh Ej. rewrite (step_eq false 0 _ _ _ _ (Lock false 1) Ei eq_refl).
  assert (Ej' : nth_error (put i (Read :: p) ts) j = Some (Claim :: Drain :: q)) by now rewrite put_other.
  rewrite (step_eq false 1 _ _ _ _ (Lock true 1) Ej' eq_refl). split; [reflexivity|]. split; [cbn; lia|]. split.
  - exists p. split; [|exact Hh]. cbn [w_threads]. rewrite put_other by congruence.
    apply put_same, nth_error_Some. now rewrite Ei.
  - exists q. cbn [w_threads]. apply put_same, nth_error_Some. now rewrite Ej'.
Qed.
Lemma held_app d p q : fine d (held p) 0 p -> fine d 0 0 q -> held (p ++ q) = held p.
Proof. intros H Hq. apply (fine_is_held d _ 0). now apply fine_app. Qed.
Lemma flat_fine ts : fine 2 0 0 (flat_map program_of ts).
Proof. apply fine_flat. intros t _. apply any_fine. Qed.
Lemma deadlock workers i j t ts us : nested t -> i <> j -> nth_error workers i = Some (t :: ts) ->
  nth_error workers j = Some (Update :: us) -> exists w, reachable workers w /\ wedged i j w.
Proof.
  intros N Hij Ei Ej. apply nth_start in Ei, Ej. cbn [start w_threads flat_map program_of app] in Ei, Ej.
  assert (Run : forall s, reachable workers (run (start workers) s)) by (intros s; now exists s).
  destruct N.
  - cbn [program_of recheck meta server_label borrow app] in Ei.
    exists (run (start workers) [i; j]). split; [apply Run|]. unfold start. cbn [run fold_left].
    eapply wedge; [exact Hij|exact Ei| |exact Ej].
    change (Read :: Unread :: Read :: Unread :: Unread :: flat_map program_of ts)
      with ((borrow ++ borrow ++ [Unread]) ++ flat_map program_of ts).
    rewrite (held_app 2); [cbn; lia| |apply flat_fine]. cbn. fines.
  - cbn [program_of http_call check_rate_limit ratelimit_label routes meta server_label borrow app] in Ei.
    exists (run (start workers) [i; i; i; i; i; j]). split; [apply Run|]. unfold start. cbn [run fold_left].
    rewrite (borrow_steps _ _ _ Ei).
    assert (L : i < List.length (map (flat_map program_of) workers)).
    { apply nth_error_Some. intros Z. discriminate (eq_trans (eq_sym Ei) Z). }
    rewrite (borrow_steps _ i _ (put_same _ _ _ L)). rewrite put_put.
    eapply wedge; [exact Hij|apply (put_same _ _ _ L)| |rewrite put_other by exact Hij; exact Ej].
    change (Read :: Unread :: Read :: Unread :: Unread :: flat_map program_of ts)
      with ((borrow ++ borrow ++ [Unread]) ++ flat_map program_of ts).
    rewrite (held_app 2); [cbn; lia| |apply flat_fine]. cbn. fines.
Qed.

Lemma claims_one hs1 x hs2 y hs3 : claims (hs1 ++ x :: hs2 ++ y :: hs3) <= 1 -> snd x > 0 -> snd y = 0.
Proof.
  rewrite claims_app, claims_cons, claims_app, claims_cons. intros H Hx.
  destruct (snd x); [lia|]. destruct (snd y); [reflexivity|]. cbn in H. lia.
Qed.
Lemma claims_two hs a b x y : claims hs <= 1 -> a <> b -> nth_error hs a = Some x -> nth_error hs b = Some y ->
  snd x > 0 -> snd y = 0.
Proof.
  revert a b; induction hs as [|z hs IH]; intros [|a] [|b] H Hab Ha Hb Hx; try discriminate; try congruence.
  - cbn in Ha, Hb. injection Ha as ->. rewrite claims_cons in H.
    destruct (snd x); [lia|]. cbn in H. destruct (snd y) eqn:Ey; [reflexivity|]. exfalso.
    assert (claims hs > 0); [|lia]. clear -Hb Ey. apply nth_error_In in Hb.
    induction hs as [|w hs IH]; [easy|]. rewrite claims_cons. destruct Hb as [->|Hb]; [rewrite Ey; cbn; lia|].
    specialize (IH Hb). lia.
  - cbn in Ha, Hb. injection Hb as ->. rewrite claims_cons in H.
    destruct (snd y) eqn:Ey; [reflexivity|]. exfalso. cbn in H.
    assert (claims hs > 0); [|lia]. clear -Ha Hx. apply nth_error_In in Ha.
    induction hs as [|w hs IH]; [easy|]. rewrite claims_cons. destruct Ha as [->|Ha]; [destruct (snd x); cbn; lia|].
    specialize (IH Ha). lia.
  - cbn in Ha, Hb. rewrite claims_cons in H. apply (IH a b); try assumption; [lia|congruence].
Qed.
Lemma Forall2_nth {A B} (P : A -> B -> Prop) l l' i y : Forall2 P l l' -> nth_error l' i = Some y ->
  exists x, nth_error l i = Some x /\ P x y.
Proof.
  intros F. revert i. induction F as [|a b l l' H F IH]; intros [|i] E; try discriminate.
  - cbn in E. injection E as <-. now exists a.
  - now apply IH.
Qed.
Lemma sum_nth hs i x : nth_error hs i = Some x -> fst x <= sum hs.
Proof.
  revert i; induction hs as [|y hs IH]; intros [|i] H; try discriminate; rewrite sum_cons.
  - cbn in H. injection H as ->. lia.
  - specialize (IH _ H). lia.
Qed.
(** A wedge stays, and no thread gets to read or to update. *)
Lemma wedged_step d w i j k : inv d w -> wedged i j w ->
  wedged i j (step w k) /\ nth_error (w_threads (step w k)) i = nth_error (w_threads w) i /\
  nth_error (w_threads (step w k)) j = nth_error (w_threads w) j /\
  (forall m a p, nth_error (w_threads w) m = Some (a :: p) -> a = Read \/ a = Claim ->
     nth_error (w_threads (step w k)) m = Some (a :: p)).
Proof.
  intros I (Cl & R & (p & Ei & Hp) & (q & Ej)).
  assert (Stay : step w k = w -> wedged i j (step w k) /\
    nth_error (w_threads (step w k)) i = nth_error (w_threads w) i /\
    nth_error (w_threads (step w k)) j = nth_error (w_threads w) j /\
    (forall m a p, nth_error (w_threads w) m = Some (a :: p) -> a = Read \/ a = Claim ->
       nth_error (w_threads (step w k)) m = Some (a :: p))).
  { intros ->. split; [|now repeat split]. split; [exact Cl|]. split; [exact R|]. split; [now exists p|now exists q]. }
  pose proof (inv_step d w k I) as I'.
  destruct I as (hs & F & Rs & C & D). rewrite Cl in C.
  destruct (Forall2_nth _ _ _ _ _ F Ei) as ([hi phi] & Xi & Si). unfold shape in Si. cbn in Si.
  destruct (Forall2_nth _ _ _ _ _ F Ej) as ([hj phj] & Xj & Sj). unfold shape in Sj. cbn in Sj.
  unfold step in *. destruct (nth_error (w_threads w) k) as [[|a r]|] eqn:Ek; [now apply Stay| |now apply Stay].
  destruct (act a (w_lock w)) as [l|] eqn:A; [|now apply Stay].
  destruct (Forall2_nth _ _ _ _ _ F Ek) as ([hk phk] & Xk & Sk). unfold shape in Sk. cbn in Sk.
  assert (a = Unread) as ->.
  { destruct a; cbn in A; try reflexivity.
    - rewrite Cl in A. discriminate.
    - rewrite Cl in A. discriminate.
    - destruct (l_readers (w_lock w)); [lia|discriminate].
    - exfalso. inversion Sk; subst. inversion Sj; subst.
      destruct (Nat.eq_dec j k) as [->|Hjk]; [congruence|].
      pose proof (claims_two hs j k _ _ ltac:(lia) Hjk Xj Xk) as Z. cbn in Z. lia. }
  cbn in A. injection A as <-.
  assert (Hki : k <> i) by (intros ->; congruence). assert (Hkj : k <> j) by (intros ->; congruence).
  cbn [w_threads]. rewrite !put_other by assumption. split; [|split; [reflexivity|split; [reflexivity|]]].
  - split; [exact Cl|]. cbn [w_lock l_readers w_threads]. split.
    + destruct I' as (hs' & F' & Rs' & _). cbn [w_lock l_readers w_threads] in *.
      assert (Ei' : nth_error (put k r (w_threads w)) i = Some (Read :: p)) by now rewrite put_other.
      destruct (Forall2_nth _ _ _ _ _ F' Ei') as ([h' ph'] & X' & S'). unfold shape in S'. cbn in S'.
      apply sum_nth in X'. cbn in X'. rewrite (fine_is_held _ _ _ _ S') in Hp. lia.
    + rewrite !put_other by assumption. split; [now exists p|now exists q].
  - intros m a p' Em Ha. rewrite put_other; [exact Em|]. intros ->. rewrite Ek in Em. injection Em as <- _.
    destruct Ha; discriminate.
Qed.
Lemma forever workers w i j s : reachable workers w -> wedged i j w ->
  let w' := run w s in
  nth_error (w_threads w') i = nth_error (w_threads w) i /\
  nth_error (w_threads w') j = nth_error (w_threads w) j /\
  (forall m a p, nth_error (w_threads w) m = Some (a :: p) -> a = Read \/ a = Claim ->
     nth_error (w_threads w') m = Some (a :: p)).
Proof.
  intros (s0 & E). assert (I : inv 2 w) by (rewrite E; apply inv_any). clear E s0. cbn.
  revert w I; induction s as [|k s IH]; intros w I W; [now repeat split|]. cbn [run fold_left].
  destruct (wedged_step 2 w i j k I W) as (W' & Hi & Hj & Hm).
  destruct (IH (step w k) (inv_step _ _ _ I) W') as (Ji & Jj & Jm). cbn in Ji, Jj, Jm.
  change (fold_left step s (step w k)) with (run (step w k) s).
  rewrite Ji, Jj, Hi, Hj. split; [reflexivity|]. split; [reflexivity|].
  intros m a p Em Ha. apply Jm; [|exact Ha]. now apply Hm.
Qed.
