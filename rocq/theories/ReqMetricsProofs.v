(** Proofs about the counters of requests and responses *)
From Coq Require Import List Arith NArith Bool Lia ZifyBool ZifyNat ZifyN Permutation.
From Verif Require Import ReqMetricsModel ReqMetricsSpec.
Import ListNotations.
Open Scope N_scope.

Lemma status_eqb_eq : forall a b, status_eqb a b = true <-> a = b.
Proof. intros [a|] [b|]; cbn; rewrite ?N.eqb_eq; split; intro E; congruence || (injection E; auto). Qed.
Lemma status_eqb_refl : forall a, status_eqb a a = true.
Proof. intro a. apply status_eqb_eq; reflexivity. Qed.
Lemma status_eqb_sym : forall a b, status_eqb a b = status_eqb b a.
Proof. intros [a|] [b|]; cbn; auto using N.eqb_sym. Qed.

(** ** The counters *)
Lemma find_at_status : forall l s f s',
  option_map snd (find (fun e : option N * status_metrics => status_eqb (fst e) s') (at_status l s f)) =
  if status_eqb s s'
  then Some (f (match option_map snd (find (fun e => status_eqb (fst e) s') l) with Some m => m | None => Status_metrics [] [] end))
  else option_map snd (find (fun e => status_eqb (fst e) s') l).
Proof.
  induction l as [|[k m] l IH]; intros s f s'; cbn [at_status find fst option_map snd].
  - destruct (status_eqb s s'); reflexivity.
  - destruct (status_eqb k s) eqn:E; cbn [find fst].
    + apply status_eqb_eq in E; subst k. destruct (status_eqb s s'); reflexivity.
    + destruct (status_eqb k s') eqn:E'; [|apply IH].
      apply status_eqb_eq in E'; subst k. rewrite status_eqb_sym, E. reflexivity.
Qed.
Lemma find_incr_class : forall l c c',
  match find (fun e : N * N => fst e =? c') (incr_class l c) with Some (_, n) => n | None => 0 end =
  let n := match find (fun e : N * N => fst e =? c') l with Some (_, n) => n | None => 0 end in
  if c =? c' then incr n else n.
Proof.
  induction l as [|[k n] l IH]; intros c c'; cbn [incr_class find fst].
  - destruct (c =? c') eqn:E; reflexivity.
  - destruct (k =? c) eqn:E; cbn [find fst].
    + apply N.eqb_eq in E; subst k. destruct (c =? c'); reflexivity.
    + destruct (k =? c') eqn:E'; [|apply IH]. cbn zeta.
      apply N.eqb_eq in E'; subst k. rewrite N.eqb_sym, E. reflexivity.
Qed.
Lemma responses_class : forall m c s t s' c',
  responses (measure_class m c s t) s' c' =
  if status_eqb s s' && (c =? c') then incr (responses m s' c') else responses m s' c'.
Proof.
  intros. unfold responses, find_status, measure_class. cbn [by_status]. rewrite find_at_status.
  destruct (status_eqb s s'); cbn [andb]; [|reflexivity]. cbn [by_class]. rewrite find_incr_class. cbn zeta.
  destruct (option_map _ _); reflexivity.
Qed.
Lemma latencies_class : forall m c s t s', latencies (measure_class m c s t) s' = latencies m s'.
Proof.
  intros. unfold latencies, find_status, measure_class. cbn [by_status]. rewrite find_at_status.
  destruct (status_eqb s s'); [|reflexivity]. cbn [latency]. destruct (option_map _ _); reflexivity.
Qed.
Lemma responses_latency : forall m s e t s' c', responses (add_latency m s e t) s' c' = responses m s' c'.
Proof.
  intros. unfold responses, find_status, add_latency. cbn [by_status]. rewrite find_at_status.
  destruct (status_eqb _ s'); [|reflexivity]. cbn [by_class]. destruct (option_map _ _); reflexivity.
Qed.
Lemma latencies_latency : forall m s e t s',
  latencies (add_latency m s e t) s' = if status_eqb (Some s) s' then latencies m s' ++ [e] else latencies m s'.
Proof.
  intros. unfold latencies, find_status, add_latency. cbn [by_status]. rewrite find_at_status.
  destruct (status_eqb _ s'); [|reflexivity]. cbn [latency]. destruct (option_map _ _); reflexivity.
Qed.

(** ** Lists *)
Lemma find_app {A} : forall (f : A -> bool) l l',
  find f (l ++ l') = match find f l with Some x => Some x | None => find f l' end.
Proof. intros f l l'. induction l as [|x l IH]; cbn; [reflexivity|]. destruct (f x); auto. Qed.
Lemma set_nth_length {A} : forall i (x : A) l, length (set_nth i x l) = length l.
Proof. induction i; destruct l; cbn; auto. Qed.
Lemma set_nth_get {A} : forall i j (x : A) l,
  nth_error (set_nth i x l) j = if Nat.eqb i j then match nth_error l i with Some _ => Some x | None => None end else nth_error l j.
Proof.
  induction i as [|i IH]; intros [|j] x [|y l]; cbn; try reflexivity.
  - destruct (Nat.eqb i j); reflexivity.
  - rewrite IH. reflexivity.
Qed.
Lemma count_same : forall (f g : nat -> bool) a n, (forall j, (a <= j < a + n)%nat -> g j = f j) ->
  length (filter g (seq a n)) = length (filter f (seq a n)).
Proof.
  intros f g a n E. f_equal. apply filter_ext_in. intros j J. apply E. apply in_seq in J. lia.
Qed.
Lemma count_at : forall (f g : nat -> bool) id n a,
  (forall j, j <> id -> g j = f j) -> (f id = true -> g id = true) -> (a <= id < a + n)%nat ->
  length (filter g (seq a n)) = (length (filter f (seq a n)) + if negb (f id) && g id then 1 else 0)%nat.
Proof.
  intros f g id n. induction n as [|n IH]; intros a E M B; [lia|]. cbn [seq filter].
  destruct (Nat.eq_dec a id) as [->|D].
  - pose proof (count_same f g (S id) n ltac:(intros j J; apply E; lia)) as Eq.
    destruct (f id) eqn:F; cbn [negb andb]; [rewrite (M eq_refl); cbn [length]; lia|].
    destruct (g id); cbn [length]; lia.
  - rewrite (E a D). specialize (IH (S a) E M ltac:(lia)). destruct (f a); cbn [length]; rewrite IH; lia.
Qed.
Lemma flat_map_same {A} : forall (f g : nat -> list A) l, (forall j, In j l -> g j = f j) -> flat_map g l = flat_map f l.
Proof.
  intros f g l. induction l as [|x l IH]; intro E; [reflexivity|]. cbn [flat_map].
  rewrite (E x (or_introl eq_refl)), IH; [reflexivity|]. intros j J. apply E. right; exact J.
Qed.
Lemma flat_map_at {A} : forall (f g : nat -> list A) id x n a,
  (forall j, j <> id -> g j = f j) -> g id = f id ++ x -> (a <= id < a + n)%nat ->
  Permutation (flat_map f (seq a n) ++ x) (flat_map g (seq a n)).
Proof.
  intros f g id x n. induction n as [|n IH]; intros a E M B; [lia|]. cbn [seq flat_map].
  destruct (Nat.eq_dec a id) as [->|D].
  - rewrite M. rewrite (flat_map_same f g (seq (S id) n)) by (intros j J; apply in_seq in J; apply E; lia).
    rewrite <- !app_assoc. apply Permutation_app_head. apply Permutation_app_comm.
  - rewrite (E a D), <- app_assoc. apply Permutation_app_head. apply IH; auto; lia.
Qed.

Section Proofs.
  Variables (classifier eos_classifier : Type)
    (start : classifier -> head -> eos_classifier) (fail : classifier -> N -> N)
    (eos : eos_classifier -> option N -> N) (eos_error : eos_classifier -> N -> N).
  Notation input := (input classifier).
  Notation state := (state classifier eos_classifier).
  Notation step := (step classifier eos_classifier start fail eos eos_error).
  Notation run := (run classifier eos_classifier start fail eos eos_error).
  Notation calls := (calls classifier).
  Notation call_of := (call_of classifier).
  Notation ids := (ids classifier).
  Notation sent := (sent classifier).
  Notation head_of := (head_of classifier).
  Notation outcome := (outcome classifier eos_classifier start fail eos eos_error).
  Notation waited := (waited classifier).
  Notation number_sent := (number_sent classifier).
  Notation has_outcome := (has_outcome classifier eos_classifier start fail eos eos_error).
  Notation number_with := (number_with classifier eos_classifier start fail eos eos_error).
  Notation waits := (waits classifier).
  Notation body_read := (body_read classifier).
  Notation responded := (responded classifier).
  Notation first_byte := (first_byte classifier).
  Notation settles := (settles classifier).

  (** ** The request an input is about *)
  Definition about (i : input) : option nat :=
    match i with
    | Call _ _ _ _ => None
    | Poll_request _ id _ _ | Respond _ id _ _ | Cancel _ id | Poll_response _ id _ _ | Drop_response _ id _ => Some id
    end.
  Lemma not_about : forall i id, about i <> Some id ->
    body_read id i = false /\ responded id i = false /\ first_byte id i = false /\ settles id i = false.
  Proof.
    intros i id A. destruct i as [ended c t|j [|] t|j [hd|e] t|j|j p t|j t]; cbn in A |- *;
      try (assert (Nat.eqb j id = false) as -> by (apply Nat.eqb_neq; congruence)); try destruct p; auto.
  Qed.
  Lemma calls_app : forall h h', calls (h ++ h') = calls h ++ calls h'.
  Proof. intros. unfold calls. apply flat_map_app. Qed.
  Lemma calls_about : forall h i id, about i = Some id -> calls (h ++ [i]) = calls h.
  Proof. intros h i id A. rewrite calls_app. destruct i; cbn in A |- *; try discriminate; apply app_nil_r. Qed.
  Lemma call_app : forall h h' id x, call_of h id = Some x -> call_of (h ++ h') id = Some x.
  Proof.
    intros h h' id x C. unfold call_of in *. rewrite calls_app, nth_error_app1; [exact C|].
    apply nth_error_Some. rewrite C. discriminate.
  Qed.
  Lemma head_app : forall h h' id x, head_of h id = Some x -> head_of (h ++ h') id = Some x.
  Proof.
    intros h h' id x C. unfold head_of in *. rewrite find_app. destruct (find (responded id) h); [exact C|discriminate].
  Qed.
  Lemma sent_app : forall h h' id, sent h id = true -> sent (h ++ h') id = true.
  Proof.
    intros h h' id C. unfold sent in *. destruct (call_of h id) as [[[e c] t]|] eqn:E; [|discriminate].
    rewrite (call_app h h' id _ E). rewrite existsb_app. destruct e; [reflexivity|]. cbn [orb] in *. rewrite C. reflexivity.
  Qed.
  Lemma outcome_app : forall h h' id v, outcome h id = Some v -> outcome (h ++ h') id = Some v.
  Proof.
    intros h h' id v O. unfold outcome in *. destruct (call_of h id) as [[[e c] t]|] eqn:E; [|discriminate].
    rewrite (call_app h h' id _ E). rewrite find_app. destruct (find (settles id) h) as [x|]; [|discriminate].
    destruct (head_of h id) as [hd|] eqn:Hd; [rewrite (head_app h h' id _ Hd); exact O|].
    destruct x as [?|?|? [?|?] ?|?|? [] ?|?]; discriminate || exact O.
  Qed.
  Lemma waited_app : forall h h' id v, waited h id = Some v -> waited (h ++ h') id = Some v.
  Proof.
    intros h h' id v O. unfold waited in *. destruct (call_of h id) as [[[e c] t]|] eqn:E; [|discriminate].
    rewrite (call_app h h' id _ E). destruct (head_of h id) as [hd|] eqn:Hd; [|discriminate].
    rewrite (head_app h h' id _ Hd), find_app. destruct (find (first_byte id) h); [exact O|discriminate].
  Qed.
  (** Inputs about other requests change nothing *)
  Lemma others_same : forall h i j id, about i = Some id -> j <> id ->
    sent (h ++ [i]) j = sent h j /\ outcome (h ++ [i]) j = outcome h j /\ waited (h ++ [i]) j = waited h j /\ head_of (h ++ [i]) j = head_of h j.
  Proof.
    intros h i j id A D. assert (about i <> Some j) as A' by congruence.
    destruct (not_about i j A') as (B & R & F & T).
    assert (head_of (h ++ [i]) j = head_of h j) as Hd.
    { unfold head_of. rewrite find_app. cbn [find]. rewrite R. destruct (find (responded j) h); reflexivity. }
    unfold sent, outcome, waited. rewrite Hd. unfold call_of. rewrite (calls_about h i id A), existsb_app, !find_app. cbn [find existsb].
    rewrite B, F, T. cbn [orb]. rewrite orb_false_r.
    repeat split; destruct (nth_error (calls h) j) as [[[? ?] ?]|]; auto.
    - destruct (find (settles j) h); reflexivity.
    - destruct (find (first_byte j) h); reflexivity.
  Qed.

  (** ** The counters match the history *)
  Definition counts (h : list input) (m : metrics) : Prop :=
    total m = N.of_nat (number_sent h) mod 2 ^ 64 /\
    (forall st class, responses m st class = N.of_nat (number_with h st class) mod 2 ^ 64) /\
    forall st, Permutation (latencies m (Some st)) (waits h st).
  Lemma incr_mod : forall n, incr (N.of_nat n mod 2 ^ 64) = N.of_nat (n + 1) mod 2 ^ 64.
  Proof.
    intro n. unfold incr. rewrite Nat2N.inj_add, N.add_mod_idemp_l; [reflexivity|]. vm_compute. discriminate.
  Qed.
  Lemma counts_snoc : forall h i id m m', about i = Some id -> (id < length (calls h))%nat -> counts h m ->
    total m' = (if negb (sent h id) && sent (h ++ [i]) id then incr (total m) else total m) ->
    (forall st class, responses m' st class =
      if negb (has_outcome h st class id) && has_outcome (h ++ [i]) st class id then incr (responses m st class) else responses m st class) ->
    (forall st, latencies m' (Some st) =
      latencies m (Some st) ++ match waited h id, waited (h ++ [i]) id with
                               | None, Some (st', d) => if st' =? st then [d] else []
                               | _, _ => []
                               end) ->
    counts (h ++ [i]) m'.
  Proof.
    intros h i id m m' A B (T & R & L) T' R' L'. unfold counts, number_sent, number_with, waits, ids. rewrite (calls_about h i id A).
    split; [|split].
    - rewrite T', T. unfold number_sent, ids.
      rewrite (count_at (sent h) (sent (h ++ [i])) id); [|intros j J; apply (others_same h i j id A J)|apply sent_app|lia].
      destruct (negb (sent h id) && sent (h ++ [i]) id); [apply incr_mod|rewrite Nat.add_0_r; reflexivity].
    - intros st class. rewrite R', R. unfold number_with, ids.
      rewrite (count_at (has_outcome h st class) (has_outcome (h ++ [i]) st class) id); [| | |lia].
      + destruct (negb (has_outcome h st class id) && has_outcome (h ++ [i]) st class id); [apply incr_mod|rewrite Nat.add_0_r; reflexivity].
      + intros j J. unfold has_outcome. destruct (others_same h i j id A J) as (_ & -> & _). reflexivity.
      + unfold has_outcome. destruct (outcome h id) as [v|] eqn:O; [|discriminate]. rewrite (outcome_app h [i] id v O). auto.
    - intro st. rewrite L'. specialize (L st). rewrite L. unfold waits, ids.
      apply flat_map_at with (id := id); [| |lia].
      + intros j J. destruct (others_same h i j id A J) as (_ & _ & -> & _). reflexivity.
      + destruct (waited h id) as [v|] eqn:W; [rewrite (waited_app h [i] id v W), app_nil_r; reflexivity|reflexivity].
  Qed.

  (** ** Each request's state and its history *)
  Definition tracks (h : list input) (id : nat) (r : request classifier eos_classifier) : Prop :=
    exists ended c t0, call_of h id = Some (ended, c, t0) /\ r_metrics _ _ r = negb (sent h id) /\
    match r_response _ _ r with
    | Waiting _ _ c' open_at => c' = c /\ open_at = t0 /\ find (responded id) h = None /\ find (settles id) h = None /\ find (first_byte id) h = None
    | Streaming _ _ st k has open_at lat => open_at = t0 /\ exists hd, head_of h id = Some hd /\ st = status hd /\
        (find (settles id) h = None <-> has = true) /\ k = (if has then Some (start c hd) else None) /\
        (find (first_byte id) h = None <-> has = true /\ lat = false)
    | Gone _ _ => True
    end.
  Definition inv (h : list input) (s : state) : Prop :=
    length (requests _ _ s) = length (calls h) /\
    (forall i id, In i h -> about i = Some id -> (id < length (calls h))%nat) /\
    (forall id r, nth_error (requests _ _ s) id = Some r -> tracks h id r) /\
    counts h (counters _ _ s).

  (** A step about a request, if its state is right afterwards *)
  Lemma inv_step : forall h s i id m r0 r, inv h s -> about i = Some id -> nth_error (requests _ _ s) id = Some r0 ->
    tracks (h ++ [i]) id r -> counts (h ++ [i]) m ->
    inv (h ++ [i]) (State _ _ m (set_nth id r (requests _ _ s))).
  Proof.
    intros h s i id m r0 r (L & B & T & _) A E Tr C. unfold inv. cbn [requests counters]. rewrite set_nth_length, (calls_about h i id A).
    split; [exact L|]. split; [|split; [|exact C]].
    - intros i' id' M A'. apply in_app_or in M. destruct M as [M|[<-|[]]]; [apply (B i' id' M A')|].
      assert (id' = id) as -> by congruence. rewrite <- L. apply nth_error_Some. congruence.
    - intros j rj Ej. rewrite set_nth_get in Ej. destruct (Nat.eqb id j) eqn:D.
      + apply Nat.eqb_eq in D; subst j. rewrite E in Ej. injection Ej as <-. exact Tr.
      + apply Nat.eqb_neq in D. destruct (T j rj Ej) as (ended & c & t0 & Ec & Eb & R).
        destruct (others_same h i j id A (not_eq_sym D)) as (S & _ & _ & Hd).
        assert (about i <> Some j) as A' by congruence. destruct (not_about i j A') as (_ & FR & FF & FS).
        exists ended, c, t0. split; [apply call_app; exact Ec|]. split; [rewrite S; exact Eb|].
        rewrite Hd, !find_app. cbn [find]. rewrite FR, FF, FS.
        assert (forall o : option input, match o with Some x => Some x | None => None end = o) as Id by (intros [?|]; reflexivity).
        rewrite !Id. exact R.
  Qed.
  Lemma set_nth_same {A} : forall i (x : A) l, nth_error l i = Some x -> set_nth i x l = l.
  Proof. induction i; destruct l; cbn; intros; try congruence. rewrite IHi; auto. Qed.

  (** Without change *)
  Lemma quiet : forall h i id m, about i = Some id -> (id < length (calls h))%nat -> counts h m ->
    sent (h ++ [i]) id = sent h id -> outcome (h ++ [i]) id = outcome h id -> waited (h ++ [i]) id = waited h id ->
    counts (h ++ [i]) m.
  Proof.
    intros h i id m A B C S O W. apply (counts_snoc h i id m m A B C).
    - rewrite S. destruct (sent h id); reflexivity.
    - intros. unfold has_outcome. rewrite O. destruct (outcome h id) as [[o n]|]; [|reflexivity]. destruct (status_eqb o st && (n =? class)); reflexivity.
    - intros. rewrite W. destruct (waited h id); rewrite app_nil_r; reflexivity.
  Qed.
  Lemma sent_same : forall h i id, about i = Some id -> body_read id i = false -> sent (h ++ [i]) id = sent h id.
  Proof.
    intros h i id A B. unfold sent, call_of. rewrite (calls_about h i id A), existsb_app. cbn [existsb]. rewrite B, !orb_false_r. reflexivity.
  Qed.

  (** The outcome and the wait after one more input *)
  Lemma outcome_snoc : forall h i id ended c t0, about i = Some id -> call_of h id = Some (ended, c, t0) ->
    outcome (h ++ [i]) id =
    match (match find (settles id) h with Some x => Some x | None => if settles id i then Some i else None end), head_of (h ++ [i]) id with
    | Some (Respond _ _ (inr e) _), _ => Some (None, fail c e)
    | Some (Poll_response _ _ (P_trailers t) _), Some hd => Some (Some (status hd), eos (start c hd) (Some t))
    | Some (Poll_response _ _ P_end _), Some hd => Some (Some (status hd), eos (start c hd) None)
    | Some (Poll_response _ _ (P_error e) _), Some hd => Some (Some (status hd), eos_error (start c hd) e)
    | Some (Drop_response _ _ _), Some hd => Some (Some (status hd), eos (start c hd) None)
    | _, _ => None
    end.
  Proof. intros h i id ended c t0 A E. unfold outcome. rewrite (call_app h [i] id _ E), find_app. reflexivity. Qed.
  Lemma waited_snoc : forall h i id ended c t0, about i = Some id -> call_of h id = Some (ended, c, t0) ->
    waited (h ++ [i]) id =
    match head_of (h ++ [i]) id with
    | Some hd =>
        match (match find (first_byte id) h with Some x => Some x | None => if first_byte id i then Some i else None end) with
        | Some (Poll_response _ _ (P_error _) _) => None
        | Some (Poll_response _ _ _ t) | Some (Drop_response _ _ t) => Some (status hd, t - t0)
        | _ => None
        end
    | None => None
    end.
  Proof. intros h i id ended c t0 A E. unfold waited. rewrite (call_app h [i] id _ E), find_app. reflexivity. Qed.
  Lemma outcome_none : forall h id, find (settles id) h = None -> outcome h id = None.
  Proof. intros h id E. unfold outcome. rewrite E. destruct (call_of h id) as [[[? ?] ?]|]; reflexivity. Qed.
  Lemma waited_none : forall h id, find (first_byte id) h = None -> waited h id = None.
  Proof.
    intros h id E. unfold waited. rewrite E. destruct (call_of h id) as [[[? ?] ?]|]; [|reflexivity]. destruct (head_of h id); reflexivity.
  Qed.
  (** Once settled, or begun *)
  Lemma outcome_settled : forall h i id ended c t0 hd, about i = Some id -> call_of h id = Some (ended, c, t0) -> head_of h id = Some hd ->
    (find (settles id) h <> None \/ settles id i = false) -> outcome (h ++ [i]) id = outcome h id.
  Proof.
    intros h i id ended c t0 hd A E Hd S. rewrite (outcome_snoc h i id ended c t0 A E). unfold outcome. rewrite E, (head_app h [i] id hd Hd), Hd.
    destruct (find (settles id) h); [reflexivity|]. destruct S as [S|S]; [congruence|rewrite S; reflexivity].
  Qed.
  Lemma waited_begun : forall h i id ended c t0 hd, about i = Some id -> call_of h id = Some (ended, c, t0) -> head_of h id = Some hd ->
    (find (first_byte id) h <> None \/ first_byte id i = false) -> waited (h ++ [i]) id = waited h id.
  Proof.
    intros h i id ended c t0 hd A E Hd S. rewrite (waited_snoc h i id ended c t0 A E). unfold waited. rewrite E, (head_app h [i] id hd Hd), Hd.
    destruct (find (first_byte id) h); [reflexivity|]. destruct S as [S|S]; [congruence|rewrite S; reflexivity].
  Qed.

  (** What the two kinds of recordings add *)
  Lemma counts_recorded : forall h i id m m', about i = Some id -> (id < length (calls h))%nat -> counts h m ->
    body_read id i = false -> total m' = total m ->
    (forall st class, responses m' st class =
       match outcome h id, outcome (h ++ [i]) id with
       | None, Some (st', class') => if status_eqb st' st && (class' =? class) then incr (responses m st class) else responses m st class
       | _, _ => responses m st class
       end) ->
    (forall st, latencies m' (Some st) =
      match waited h id, waited (h ++ [i]) id with
      | None, Some (st', d) => if st' =? st then latencies m (Some st) ++ [d] else latencies m (Some st)
      | _, _ => latencies m (Some st)
      end) ->
    counts (h ++ [i]) m'.
  Proof.
    intros h i id m m' A B C R T O W. apply (counts_snoc h i id m m' A B C).
    - rewrite (sent_same h i id A R), T. destruct (sent h id); reflexivity.
    - intros st class. rewrite O. unfold has_outcome. destruct (outcome h id) as [[st' class']|] eqn:E.
      + rewrite (outcome_app h [i] id _ E). destruct (status_eqb st' st && (class' =? class)); reflexivity.
      + destruct (outcome (h ++ [i]) id) as [[st' class']|]; [|reflexivity]. cbn [negb andb]. reflexivity.
    - intro st. rewrite W. destruct (waited h id) as [?|]; [rewrite app_nil_r; reflexivity|].
      destruct (waited (h ++ [i]) id) as [[st' d]|]; [|rewrite app_nil_r; reflexivity].
      destruct (st' =? st); [reflexivity|rewrite app_nil_r; reflexivity].
  Qed.

  Lemma step_inv : forall h s i s', inv h s -> step s i = Some s' -> inv (h ++ [i]) s'.
  Proof.
    intros h s i s' V E. pose proof V as (L & B & T & C). destruct i as [ended c t|id ready t|id r t|id|id p t|id t]; cbn in E.
    - (* Call *)
      injection E as <-. unfold inv. cbn [requests counters].
      assert (calls (h ++ [Call _ ended c t]) = calls h ++ [(ended, c, t)]) as Ec by (rewrite calls_app; reflexivity).
      assert (forall (P : nat -> input -> bool), (forall id, P id (Call _ ended c t) = false) -> forall id, find (P id) (h ++ [Call _ ended c t]) = find (P id) h) as Fs.
      { intros P N id. rewrite find_app. cbn [find]. rewrite N. destruct (find (P id) h); reflexivity. }
      assert (forall id, existsb (body_read id) (h ++ [Call _ ended c t]) = existsb (body_read id) h) as Es.
      { intro id. rewrite existsb_app. cbn. apply orb_false_r. }
      assert (forall (P : nat -> input -> bool), (forall id i, about i <> Some id -> P id i = false) -> forall x, In x h -> P (length (calls h)) x = false) as Fr.
      { intros P N x M. apply N. intro A. apply (B x _ M) in A. lia. }
      assert (forall j, (j < length (calls h))%nat -> call_of (h ++ [Call _ ended c t]) j = call_of h j) as Old.
      { intros j J. unfold call_of. rewrite Ec, nth_error_app1 by exact J. reflexivity. }
      assert (forall j, head_of (h ++ [Call _ ended c t]) j = head_of h j) as Hs.
      { intro j. unfold head_of. rewrite Fs by reflexivity. reflexivity. }
      assert (call_of (h ++ [Call _ ended c t]) (length (calls h)) = Some (ended, c, t)) as New.
      { unfold call_of. rewrite Ec, nth_error_app2, Nat.sub_diag by lia. reflexivity. }
      assert (forall (P : nat -> input -> bool), (forall id i, about i <> Some id -> P id i = false) -> find (P (length (calls h))) h = None) as Fn.
      { intros P N. destruct (find (P (length (calls h))) h) as [x|] eqn:F; [|reflexivity].
        apply find_some in F. destruct F as [M F]. rewrite (Fr P N x M) in F. discriminate. }
      assert (find (settles (length (calls h))) h = None) as Ns by (apply Fn; intros ? ? A; apply not_about in A; tauto).
      assert (find (first_byte (length (calls h))) h = None) as Nf by (apply Fn; intros ? ? A; apply not_about in A; tauto).
      assert (find (responded (length (calls h))) h = None) as Nr by (apply Fn; intros ? ? A; apply not_about in A; tauto).
      assert (existsb (body_read (length (calls h))) h = false) as Nb.
      { apply not_true_is_false. intro X. apply existsb_exists in X. destruct X as (x & M & F).
        rewrite (Fr body_read) in F; [discriminate| |exact M]. intros ? ? A; apply not_about in A; tauto. }
      assert (sent (h ++ [Call _ ended c t]) (length (calls h)) = ended) as Sn.
      { unfold sent. rewrite New, Es, Nb. apply orb_false_r. }
      split; [|split; [|split]].
      + rewrite Ec, !app_length, L. reflexivity.
      + intros i id M A. rewrite Ec, app_length. apply in_app_or in M. destruct M as [M|[<-|[]]]; [|discriminate].
        pose proof (B i id M A). lia.
      + intros id r E. destruct (Nat.lt_ge_cases id (length (requests _ _ s))) as [J|J].
        * rewrite nth_error_app1 in E by exact J. destruct (T id r E) as (e & c0 & t0 & X & Y & Z).
          rewrite L in J. exists e, c0, t0. rewrite (Old id J). split; [exact X|]. split.
          { unfold sent. rewrite (Old id J), Es. exact Y. }
          rewrite Hs. rewrite !Fs; try reflexivity. exact Z.
        * rewrite nth_error_app2 in E by exact J. destruct (id - length (requests _ _ s))%nat as [|k] eqn:K; [|destruct k; discriminate].
          injection E as <-. assert (id = length (calls h)) as -> by lia.
          exists ended, c, t. split; [exact New|]. split; [cbn [r_metrics]; rewrite Sn; reflexivity|].
          cbn [r_response]. rewrite !Fs by reflexivity. auto 10.
      + destruct C as (C1 & C2 & C3). unfold counts, number_sent, number_with, waits, ids. rewrite Ec, app_length. cbn [length].
        rewrite seq_app, !filter_app, flat_map_app || idtac. rewrite seq_app. cbn [seq]. rewrite Nat.add_0_l.
        split; [|split].
        * rewrite filter_app, app_length. cbn [filter]. rewrite Sn.
          rewrite (count_same (sent h) (sent (h ++ [Call _ ended c t]))) by (intros j J; unfold sent; rewrite Old, Es by lia; reflexivity).
          unfold number_sent, ids in C1. destruct ended; cbn [length]; [|rewrite Nat.add_0_r; exact C1].
          cbn [count_request total]. rewrite C1. apply incr_mod.
        * intros st class. rewrite filter_app, app_length. cbn [filter].
          assert (has_outcome (h ++ [Call _ ended c t]) st class (length (calls h)) = false) as ->.
          { unfold has_outcome. rewrite outcome_none; [reflexivity|]. rewrite Fs by reflexivity. exact Ns. }
          rewrite (count_same (has_outcome h st class) (has_outcome (h ++ [Call _ ended c t]) st class)).
          2:{ intros j J. unfold has_outcome, outcome. rewrite Old, Hs, Fs by (lia || reflexivity). reflexivity. }
          cbn [length]. rewrite Nat.add_0_r. specialize (C2 st class). unfold number_with, ids in C2. rewrite <- C2.
          destruct ended; reflexivity.
        * intro st. rewrite flat_map_app. cbn [flat_map].
          rewrite (waited_none (h ++ [Call _ ended c t])) by (rewrite Fs by reflexivity; exact Nf). rewrite app_nil_r.
          rewrite (flat_map_same (fun id => match waited h id with Some (st', d) => if st' =? st then [d] else [] | None => [] end)).
          2:{ intros j J. apply in_seq in J. unfold waited. rewrite Old, Hs, Fs by (lia || reflexivity). reflexivity. }
          specialize (C3 st). unfold waits, ids in C3. destruct ended; exact C3.
    - (* Poll_request *)
      destruct (nth_error (requests _ _ s) id) as [r|] eqn:R; [|discriminate].
      destruct (T id r R) as (ended & c & t0 & Ec & Eb & Er). assert (id < length (calls h))%nat as J by (rewrite <- L; apply nth_error_Some; congruence).
      set (i := Poll_request classifier id ready t) in *.
      assert (head_of (h ++ [i]) id = head_of h id) as Hs.
      { unfold head_of. rewrite find_app. cbn. destruct (find (responded id) h); reflexivity. }
      assert (find (settles id) (h ++ [i]) = find (settles id) h) as Fs by (rewrite find_app; cbn; destruct (find (settles id) h); reflexivity).
      assert (find (first_byte id) (h ++ [i]) = find (first_byte id) h) as Ff by (rewrite find_app; cbn; destruct (find (first_byte id) h); reflexivity).
      assert (find (responded id) (h ++ [i]) = find (responded id) h) as Fr by (rewrite find_app; cbn; destruct (find (responded id) h); reflexivity).
      assert (outcome (h ++ [i]) id = outcome h id) as Eo.
      { unfold outcome. rewrite (call_app h [i] id _ Ec), Ec, Hs, Fs. reflexivity. }
      assert (waited (h ++ [i]) id = waited h id) as Ew.
      { unfold waited. rewrite (call_app h [i] id _ Ec), Ec, Hs, Ff. reflexivity. }
      assert (sent (h ++ [i]) id = sent h id || ready) as Es.
      { unfold sent. rewrite (call_app h [i] id _ Ec), Ec, existsb_app. cbn. destruct ready; cbn; rewrite ?Nat.eqb_refl, ?orb_false_r, ?orb_true_r; auto. }
      assert (tracks (h ++ [i]) id (Request _ _ (r_metrics _ _ r && negb ready) (r_response _ _ r))) as Tr.
      { exists ended, c, t0. split; [apply call_app; exact Ec|]. cbn [r_metrics r_response]. split.
        - rewrite Eb, Es. destruct (sent h id), ready; reflexivity.
        - rewrite Hs, Fs, Ff, Fr. exact Er. }
      destruct (ready && r_metrics _ _ r) eqn:RM; injection E as <-.
      + apply andb_true_iff in RM. destruct RM as [-> RM]. rewrite RM in Tr. cbn [andb negb] in Tr.
        refine (inv_step h s i id _ r _ V eq_refl R Tr _).
        apply (counts_snoc h i id (counters _ _ s) _ eq_refl J C).
        * rewrite Es. rewrite RM in Eb. destruct (sent h id); [discriminate|]. reflexivity.
        * intros. unfold has_outcome. rewrite Eo. destruct (outcome h id) as [[o n]|]; [|reflexivity]. destruct (status_eqb o st && (n =? class)); reflexivity.
        * intros. rewrite Ew. destruct (waited h id); rewrite app_nil_r; reflexivity.
      + assert (Request _ _ (r_metrics _ _ r && negb ready) (r_response _ _ r) = r) as Same.
        { destruct r as [b x]. cbn in *. destruct ready, b; try discriminate; reflexivity. }
        rewrite Same in Tr.
        assert (inv (h ++ [i]) (State _ _ (counters _ _ s) (set_nth id r (requests _ _ s)))) as G.
        { apply (inv_step h s i id _ r r V eq_refl R Tr). apply (quiet h i id _ eq_refl J C); auto.
          rewrite Es. destruct ready; [|apply orb_false_r]. cbn [andb] in RM. rewrite RM in Eb. destruct (sent h id); [reflexivity|discriminate]. }
        rewrite set_nth_same in G by exact R. destruct s; exact G.
    - (* Respond *)
      destruct (nth_error (requests _ _ s) id) as [[b [c open_at|? ? ? ? ?|]]|] eqn:R; try discriminate.
      destruct (T id _ R) as (ended & c' & t0 & Ec & Eb & -> & -> & Nr & Ns & Nf). assert (id < length (calls h))%nat as J by (rewrite <- L; apply nth_error_Some; congruence).
      destruct r as [hd|e]; injection E as <-.
      + set (i := Respond classifier id (inl hd) t).
        assert (head_of (h ++ [i]) id = Some hd) as Hs by (unfold head_of; rewrite find_app, Nr; cbn; rewrite Nat.eqb_refl; reflexivity).
        assert (find (settles id) (h ++ [i]) = None) as Fs by (rewrite find_app, Ns; reflexivity).
        assert (find (first_byte id) (h ++ [i]) = None) as Ff by (rewrite find_app, Nf; reflexivity).
        refine (inv_step h s i id _ _ _ V eq_refl R _ _).
        * exists ended, c', t0. split; [apply call_app; exact Ec|]. cbn [r_metrics r_response] in *. split; [rewrite (sent_same h i id eq_refl eq_refl); exact Eb|].
          split; [reflexivity|]. exists hd. split; [exact Hs|]. split; [reflexivity|]. split; [split; auto|]. split; [reflexivity|]. split; auto.
        * apply (quiet h i id _ eq_refl J C); [apply sent_same; reflexivity| |].
          { rewrite !outcome_none; auto. }
          { rewrite !waited_none; auto. }
      + set (i := Respond classifier id (inr e) t).
        refine (inv_step h s i id _ _ _ V eq_refl R _ _).
        * exists ended, c', t0. split; [apply call_app; exact Ec|]. cbn [r_metrics r_response] in *. split; [rewrite (sent_same h i id eq_refl eq_refl); exact Eb|exact Logic.I].
        * apply (counts_recorded h i id (counters _ _ s) _ eq_refl J C eq_refl); [reflexivity| |].
          { intros st class. rewrite responses_class, (outcome_none h id Ns), (outcome_snoc h i id ended c' t0 eq_refl Ec), Ns. cbn. rewrite Nat.eqb_refl. reflexivity. }
          { intro st. rewrite latencies_class, (waited_none h id Nf), waited_none; [reflexivity|]. rewrite find_app, Nf. reflexivity. }
    - (* Cancel *)
      destruct (nth_error (requests _ _ s) id) as [[b [c open_at|? ? ? ? ?|]]|] eqn:R; try discriminate.
      destruct (T id _ R) as (ended & c' & t0 & Ec & Eb & -> & -> & Nr & Ns & Nf). assert (id < length (calls h))%nat as J by (rewrite <- L; apply nth_error_Some; congruence).
      injection E as <-. refine (inv_step h s (Cancel _ id) id _ _ _ V eq_refl R _ _).
      + exists ended, c', t0. split; [apply call_app; exact Ec|]. cbn [r_metrics r_response] in *. split; [rewrite (sent_same h (Cancel _ id) id eq_refl eq_refl); exact Eb|exact Logic.I].
      + apply (quiet h (Cancel _ id) id _ eq_refl J C); [apply sent_same; reflexivity| |].
        { rewrite !outcome_none; auto. rewrite find_app, Ns. reflexivity. }
        { rewrite !waited_none; auto. rewrite find_app, Nf. reflexivity. }
    - (* Poll_response *)
      destruct (nth_error (requests _ _ s) id) as [[b [? ?|st k has open_at lat|]]|] eqn:R; try discriminate.
      destruct (T id _ R) as (ended & c & t0 & Ec & Eb & -> & hd & Hd & -> & Iff & -> & IfF). assert (id < length (calls h))%nat as J by (rewrite <- L; apply nth_error_Some; congruence).
      set (i := Poll_response classifier id p t) in *. cbn [r_metrics] in Eb.
      destruct (poll_response _ _ _ _ _ _ _ _ _ _ _) as [m r] eqn:P. injection E as <-.
      pose proof (head_app h [i] id hd Hd) as Hd'.
      pose proof (outcome_snoc h i id ended c t0 eq_refl Ec) as O1. rewrite Hd' in O1.
      pose proof (waited_snoc h i id ended c t0 eq_refl Ec) as W1. rewrite Hd' in W1.
      assert (sent (h ++ [i]) id = sent h id) as Es by (apply sent_same; reflexivity).
      assert (forall st' k' has' lat', r = Streaming _ _ (status hd) k' has' t0 lat' -> st' = status hd ->
        (find (settles id) (h ++ [i]) = None <-> has' = true) -> k' = (if has' then Some (start c hd) else None) ->
        (find (first_byte id) (h ++ [i]) = None <-> has' = true /\ lat' = false) -> tracks (h ++ [i]) id (Request _ _ b r)) as Tr.
      { intros st' k' has' lat' -> _ X1 X2 X3. exists ended, c, t0. split; [apply call_app; exact Ec|]. cbn [r_metrics r_response].
        split; [rewrite Es; exact Eb|]. split; [reflexivity|]. exists hd. auto 10. }
      rewrite !find_app in Tr. cbn [find] in Tr.
      destruct has.
      2:{ (* it is settled: nothing is left to record *)
          assert (m = counters _ _ s /\ r = Streaming _ _ (status hd) None false t0 lat) as [-> ->] by (destruct p, lat; cbn in P; injection P as <- <-; auto).
          assert (find (first_byte id) h <> None) as F by (intro X; apply IfF in X; destruct X; discriminate).
          assert (find (settles id) h <> None) as F' by (intro X; apply Iff in X; discriminate).
          refine (inv_step h s i id _ _ _ V eq_refl R _ _).
          - apply (Tr (status hd) _ false lat eq_refl eq_refl); [|reflexivity|].
            + destruct (find (settles id) h); [|congruence]. split; discriminate.
            + destruct (find (first_byte id) h); [|congruence]. split; [discriminate|intros [X _]; discriminate].
          - apply (quiet h i id _ eq_refl J C Es).
            + apply (outcome_settled h i id ended c t0 hd eq_refl Ec Hd). left; exact F'.
            + apply (waited_begun h i id ended c t0 hd eq_refl Ec Hd). left; exact F. }
      assert (find (settles id) h = None) as F' by (apply Iff; reflexivity).
      rewrite F' in *. pose proof (outcome_none h id F') as O0.
      assert (if lat then find (first_byte id) h <> None else find (first_byte id) h = None) as F.
      { destruct lat; [intro X; apply IfF in X; destruct X; discriminate|apply IfF; auto]. }
      clear IfF Iff.
      destruct (match p with P_pending => true | _ => false end) eqn:Pp.
      { destruct p; try discriminate. injection P as <- <-. refine (inv_step h s i id _ _ _ V eq_refl R _ _).
        - apply (Tr (status hd) _ true lat eq_refl eq_refl); cbn [settles first_byte i]; [tauto|reflexivity|].
          destruct lat; [destruct (find (first_byte id) h); [|congruence]|rewrite F]; split; auto; try discriminate; intros [_ X]; discriminate.
        - apply (quiet h i id _ eq_refl J C Es).
          + apply (outcome_settled h i id ended c t0 hd eq_refl Ec Hd). right; reflexivity.
          + apply (waited_begun h i id ended c t0 hd eq_refl Ec Hd). right; reflexivity. }
      assert (first_byte id i = true) as Fi by (destruct p; try discriminate; cbn; apply Nat.eqb_refl).
      assert (settles id i = match p with P_pending | P_data => false | _ => true end) as Si by (destruct p; cbn; auto using Nat.eqb_refl).
      rewrite Fi, Si in *.
      assert (match find (first_byte id) h with Some x => Some x | None => Some i end <> None) as Nn by (destruct (find (first_byte id) h); discriminate).
      assert (if lat then waited (h ++ [i]) id = waited h id else waited h id = None) as Ew.
      { destruct lat; [apply (waited_begun h i id ended c t0 hd eq_refl Ec Hd); left; exact F|apply waited_none; exact F]. }
      refine (inv_step h s i id _ _ _ V eq_refl R _ _).
      + destruct p; try discriminate; destruct lat; cbn in P; injection P as <- <-.
        1,2: apply (Tr (status hd) _ true true eq_refl eq_refl); [tauto|reflexivity|].
        1,2: split; [intro X; congruence|intros [_ X]; discriminate].
        1,3,5: apply (Tr (status hd) _ false true eq_refl eq_refl); [split; discriminate|reflexivity|].
        1,2,3: split; [intro X; congruence|intros [_ X]; discriminate].
        1,2: apply (Tr (status hd) _ false true eq_refl eq_refl); [split; discriminate|reflexivity|].
        1,2: split; [intro X; congruence|intros [_ X]; discriminate].
        apply (Tr (status hd) _ false false eq_refl eq_refl); [split; discriminate|reflexivity|].
        split; [intro X; congruence|intros [X _]; discriminate].
      + apply (counts_recorded h i id (counters _ _ s) _ eq_refl J C eq_refl).
        * destruct p; try discriminate; destruct lat; cbn in P; injection P as <- <-; reflexivity.
        * intros st class. rewrite O0, O1.
          destruct p; try discriminate; destruct lat; cbn in P; injection P as <- <-; rewrite ?responses_class, ?responses_latency; reflexivity.
        * intros st. destruct lat.
          { rewrite Ew. destruct p; try discriminate; cbn in P; injection P as <- <-; rewrite ?latencies_class; destruct (waited h id) as [[? ?]|]; reflexivity. }
          { rewrite Ew, W1, F. destruct p; try discriminate; cbn in P; injection P as <- <-; rewrite ?latencies_class, ?latencies_latency; cbn; reflexivity. }
    - (* Drop_response *)
      destruct (nth_error (requests _ _ s) id) as [[b [? ?|st k has open_at lat|]]|] eqn:R; try discriminate.
      destruct (T id _ R) as (ended & c & t0 & Ec & Eb & -> & hd & Hd & -> & Iff & -> & IfF). assert (id < length (calls h))%nat as J by (rewrite <- L; apply nth_error_Some; congruence).
      set (i := Drop_response classifier id t) in *. cbn [r_metrics] in Eb. injection E as <-.
      pose proof (head_app h [i] id hd Hd) as Hd'.
      refine (inv_step h s i id _ _ _ V eq_refl R _ _).
      { exists ended, c, t0. split; [apply call_app; exact Ec|]. cbn [r_metrics r_response] in *. split; [rewrite (sent_same h i id eq_refl eq_refl); exact Eb|exact Logic.I]. }
      destruct has.
      + assert (find (settles id) h = None) as F' by (apply Iff; reflexivity).
        apply (counts_recorded h i id (counters _ _ s) _ eq_refl J C eq_refl).
        * destruct lat; reflexivity.
        * intros st class. rewrite (outcome_none h id F'), (outcome_snoc h i id ended c t0 eq_refl Ec), Hd', F'. cbn [settles i]. rewrite Nat.eqb_refl.
          destruct lat; cbn [drop_response record_latency record_class]; rewrite responses_class, ?responses_latency; reflexivity.
        * intro st. destruct lat.
          { assert (find (first_byte id) h <> None) as F by (intro X; apply IfF in X; destruct X; discriminate).
            rewrite (waited_begun h i id ended c t0 hd eq_refl Ec Hd) by (left; exact F).
            cbn [drop_response record_class]. rewrite latencies_class. destruct (waited h id) as [[? ?]|]; reflexivity. }
          { assert (find (first_byte id) h = None) as F by (apply IfF; auto).
            rewrite (waited_none h id F), (waited_snoc h i id ended c t0 eq_refl Ec), Hd', F. cbn [first_byte i]. rewrite Nat.eqb_refl.
            cbn [drop_response record_latency record_class]. rewrite latencies_class, latencies_latency. reflexivity. }
      + assert (find (first_byte id) h <> None) as F by (intro X; apply IfF in X; destruct X; discriminate).
        assert (find (settles id) h <> None) as F' by (intro X; apply Iff in X; discriminate).
        replace (drop_response _ _ _ _ _ _ _ _ _) with (counters _ _ s) by (destruct lat; reflexivity).
        apply (quiet h i id _ eq_refl J C); [apply sent_same; reflexivity| |].
        * apply (outcome_settled h i id ended c t0 hd eq_refl Ec Hd). left; exact F'.
        * apply (waited_begun h i id ended c t0 hd eq_refl Ec Hd). left; exact F.
  Qed.
  Lemma run_inv : forall t0 h s, run t0 h s -> inv h s.
  Proof.
    intros t0 h s R. induction R as [|h s i s' R IH E]; [|exact (step_inv h s i s' IH E)].
    unfold inv, counts. cbn. split; [reflexivity|]. split; [intros ? ? []|]. split; [intros [|?] ? X; discriminate|]. auto.
  Qed.

  (** What happens to the body of a response happens after the response *)
  Lemma run_head : forall t0 h s, run t0 h s -> forall id i, In i h ->
    match i with Poll_response _ j _ _ | Drop_response _ j _ => j = id | _ => False end -> exists hd, head_of h id = Some hd.
  Proof.
    intros t0 h s R. induction R as [|h s i s' R IH E]; intros id x M X; [destruct M|]. apply in_app_or in M. destruct M as [M|[->|[]]].
    - destruct (IH id x M X) as [hd Hd]. exists hd. apply head_app. exact Hd.
    - destruct (run_inv t0 h s R) as (_ & _ & T & _).
      destruct x as [? ? ?|? ? ?|? ? ?|?|j p t|j t]; try contradiction; subst j; cbn in E;
        destruct (nth_error (requests _ _ s) id) as [[b [? ?|st k has open_at lat|]]|] eqn:N; try discriminate;
        destruct (T id _ N) as (ended & c & t1 & _ & _ & _ & hd & Hd & _); exists hd; apply head_app; exact Hd.
  Qed.
  Lemma run_call : forall t0 h s, run t0 h s -> forall id i, In i h -> about i = Some id -> exists x, call_of h id = Some x.
  Proof.
    intros t0 h s R id i M A. destruct (run_inv t0 h s R) as (_ & B & _). pose proof (B i id M A) as L.
    unfold call_of. destruct (nth_error (calls h) id) eqn:N; [eauto|]. apply nth_error_None in N. lia.
  Qed.
  Lemma run_settled : forall t0 h s, run t0 h s -> forall id i, In i h -> settles id i = true -> exists v, outcome h id = Some v.
  Proof.
    intros t0 h s R id i M S.
    assert (about i = Some id) as A.
    { destruct (about i) as [j|] eqn:A; [|destruct i; discriminate]. destruct (Nat.eq_dec j id); [congruence|].
      destruct (not_about i id) as (_ & _ & _ & X); [congruence|]. congruence. }
    destruct (run_call t0 h s R id i M A) as [[[ended c] t] Ec]. unfold outcome. rewrite Ec.
    destruct (find (settles id) h) as [x|] eqn:F.
    - apply find_some in F. destruct F as [Mx Sx].
      destruct x as [? ? ?|? ? ?|j [?|e] ?|?|j p ?|j ?]; try discriminate; [eauto| |];
        apply Nat.eqb_eq in Sx || (destruct p; try discriminate; apply Nat.eqb_eq in Sx); subst j;
        edestruct (run_head t0 h s R id _ Mx) as [hd ->]; try reflexivity; eauto.
    - pose proof (find_none _ _ F i M). congruence.
  Qed.
  (** A call that was given up has no outcome *)
  Lemma run_cancelled : forall t0 h s, run t0 h s -> forall id, In (Cancel _ id) h ->
    (exists b, nth_error (requests _ _ s) id = Some (Request _ _ b (Gone _ _))) /\ find (settles id) h = None /\ find (first_byte id) h = None.
  Proof.
    intros t0 h s R. induction R as [|h s i s' R IH E]; intros id M; [destruct M|]. apply in_app_or in M. destruct M as [M|[->|[]]].
    - destruct (IH id M) as ([b N] & F & F').
      destruct (about i) as [j|] eqn:A.
      + destruct (Nat.eq_dec j id) as [->|D].
        * destruct i as [? ? ?|j r t|j r t|j|j p t|j t]; try discriminate; injection A as ->; cbn in E; rewrite N in E; try discriminate.
          rewrite !find_app, F, F'. split; [|split; reflexivity].
          cbn [r_metrics r_response] in E. destruct (r && b); injection E as <-; cbn [requests]; [|eauto].
          rewrite set_nth_get, Nat.eqb_refl, N. eauto.
        * assert (about i <> Some id) as A' by congruence. destruct (not_about i id A') as (_ & _ & X & Y).
          rewrite !find_app, F, F'. cbn [find]. rewrite X, Y. split; [|split; reflexivity].
          assert (nth_error (requests _ _ s') id = nth_error (requests _ _ s) id) as ->; [|eauto].
          destruct i as [? ? ?|i r t|i r t|i|i p t|i t]; try discriminate; injection A as ->; cbn in E.
          -- destruct (nth_error (requests _ _ s) j) as [q|]; [|discriminate]. destruct (r && _); injection E as <-; cbn [requests]; [|reflexivity].
             rewrite set_nth_get, (proj2 (Nat.eqb_neq j id) D). reflexivity.
          -- destruct (nth_error (requests _ _ s) j) as [[? [? ?|? ? ? ? ?|]]|]; try discriminate. destruct r; injection E as <-; cbn [requests];
             rewrite set_nth_get, (proj2 (Nat.eqb_neq j id) D); reflexivity.
          -- destruct (nth_error (requests _ _ s) j) as [[? [? ?|? ? ? ? ?|]]|]; try discriminate. injection E as <-; cbn [requests];
             rewrite set_nth_get, (proj2 (Nat.eqb_neq j id) D); reflexivity.
          -- destruct (nth_error (requests _ _ s) j) as [[? [? ?|? ? ? ? ?|]]|]; try discriminate.
             destruct (poll_response _ _ _ _ _ _ _ _ _ _ _) as [m r]. injection E as <-; cbn [requests];
             rewrite set_nth_get, (proj2 (Nat.eqb_neq j id) D); reflexivity.
          -- destruct (nth_error (requests _ _ s) j) as [[? [? ?|? ? ? ? ?|]]|]; try discriminate. injection E as <-; cbn [requests];
             rewrite set_nth_get, (proj2 (Nat.eqb_neq j id) D); reflexivity.
      + destruct i; try discriminate. injection E as <-. cbn [requests]. rewrite !find_app, F, F'. split; [|split; reflexivity].
        rewrite nth_error_app1; [eauto|]. apply nth_error_Some. congruence.
    - destruct (run_inv t0 h s R) as (_ & _ & T & _). cbn in E.
      destruct (nth_error (requests _ _ s) id) as [[b [c o|? ? ? ? ?|]]|] eqn:N; try discriminate. injection E as <-. cbn [requests].
      destruct (T id _ N) as (ended & c' & t1 & _ & _ & _ & _ & _ & F & F'). rewrite set_nth_get, Nat.eqb_refl, N, !find_app, F, F'. split; [eauto|split; reflexivity].
  Qed.

  (** ** The theorems *)
  Lemma run_total : forall t0 h s, run t0 h s -> total (counters _ _ s) = N.of_nat (number_sent h) mod 2 ^ 64.
  Proof. intros t0 h s R. apply (run_inv t0 h s R). Qed.
  Lemma run_responses : forall t0 h s st class, run t0 h s -> responses (counters _ _ s) st class = N.of_nat (number_with h st class) mod 2 ^ 64.
  Proof. intros t0 h s st class R. apply (run_inv t0 h s R). Qed.
  Lemma run_latencies : forall t0 h s st, run t0 h s -> Permutation (latencies (counters _ _ s) (Some st)) (waits h st).
  Proof. intros t0 h s st R. apply (run_inv t0 h s R). Qed.
  Lemma run_cancelled_outcome : forall t0 h s id, run t0 h s -> In (Cancel _ id) h -> outcome h id = None /\ waited h id = None.
  Proof.
    intros t0 h s id R M. destruct (run_cancelled t0 h s R id M) as (_ & F & F').
    split; [apply outcome_none|apply waited_none]; assumption.
  Qed.
  Lemma step_updated : forall s i s', step s i = Some s' ->
    counters _ _ s' = counters _ _ s \/ time classifier i = Some (last_update (counters _ _ s')).
  Proof.
    intros s i s' E. destruct i as [ended c t|id ready t|id r t|id|id p t|id t]; cbn in E.
    - injection E as <-. destruct ended; auto.
    - destruct (nth_error _ id) as [q|]; [|discriminate]. destruct (ready && _); injection E as <-; auto.
    - destruct (nth_error _ id) as [[b [? ?|? ? ? ? ?|]]|]; try discriminate. destruct r; injection E as <-; auto.
    - destruct (nth_error _ id) as [[b [? ?|? ? ? ? ?|]]|]; try discriminate. injection E as <-; auto.
    - destruct (nth_error _ id) as [[b [? ?|st k has o lat|]]|]; try discriminate.
      destruct k, p, lat, has; cbn in E; injection E as <-; cbn; auto.
    - destruct (nth_error _ id) as [[b [? ?|st k has o lat|]]|]; try discriminate. injection E as <-.
      destruct k, lat, has; cbn; auto.
  Qed.
End Proofs.
