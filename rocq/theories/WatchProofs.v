From Coq Require Import List NArith Bool Lia Arith.
From Verif Require Import WatchModel WatchSpec.
Import ListNotations.
Open Scope nat_scope.

Section W.
  Context {A : Type}.
  Variable recovers : N -> bool.
  Implicit Types (s start : state A) (es : list (event A)) (acts : list (act A)).

  Lemma go_run : forall start es0 acts0 s0 es acts s,
    run recovers start es0 acts0 s0 -> go recovers s0 acts0 es = Some (acts, s) -> run recovers start (es0 ++ es) acts s.
  Proof.
    intros start es0 acts0 s0 es; revert es0 acts0 s0; induction es as [|e es IH]; intros es0 acts0 s0 acts s R G.
    - injection G as <- <-. rewrite app_nil_r. exact R.
    - cbn in G. destruct (step recovers s0 e) as [[s' more]|] eqn:E; [|discriminate].
      replace (es0 ++ e :: es) with ((es0 ++ [e]) ++ es) by (rewrite <- app_assoc; reflexivity).
      eapply IH; [|exact G]. eapply run_step; eauto.
  Qed.

  Lemma delivered_app : forall (a b : list (event A)), delivered (a ++ b) = delivered a ++ delivered b.
  Proof. induction a as [|[] a IH]; intros b; cbn; try rewrite IH; reflexivity. Qed.
  Lemma publications_app : forall (a b : list (act A)), publications (a ++ b) = publications a ++ publications b.
  Proof. induction a as [|[] a IH]; intros b; cbn; try rewrite IH; reflexivity. Qed.
  Lemma latest_snoc : forall (b : option A) l v, latest b (l ++ [v]) = Some v.
  Proof. intros. unfold latest. rewrite rev_app_distr. reflexivity. Qed.
  Lemma delivered_snoc : forall (a : list (event A)) e,
    delivered (a ++ [e]) = match e with Delivered v => delivered a ++ [v] | _ => delivered a end.
  Proof. intros. rewrite delivered_app. destruct e; cbn; rewrite ?app_nil_r; reflexivity. Qed.
  Lemma in_snoc : forall X (x y : X) l, In x (l ++ [y]) <-> In x l \/ y = x.
  Proof. intros. rewrite in_app_iff. cbn. tauto. Qed.

  (** How the state follows from what happened *)
  Definition known start es acts s : Prop :=
    (read s = true -> ~ In Dropped es) /\
    (read s = false -> In Dropped es) /\
    (read s = true -> value s = latest (value start) (delivered es) /\ publications acts = delivered es) /\
    (tk s <> Over -> published s = true -> delivered es <> [] /\ read s = true) /\
    (tk s <> Over -> published s = false -> delivered es = [] /\ value s = value start) /\
    (tk s <> Over -> read s = false -> start <> spawn_watch /\ delivered es = []) /\
    (tk s = Over <-> rejected recovers es \/ abandoned start es).

  Lemma rejected_snoc : forall es e,
    rejected recovers (es ++ [e]) <->
    rejected recovers es \/ match e with Failed c => recovers c = false | _ => False end.
  Proof.
    intros es e. unfold rejected. split.
    - intros (c & I & R). apply in_snoc in I. destruct I as [I|I]; [left; eauto|].
      right. subst e. exact R.
    - intros [(c & I & R)|H].
      + exists c. split; [apply in_snoc; tauto|exact R].
      + destruct e; try contradiction. exists code. split; [apply in_snoc; tauto|exact H].
  Qed.
  Lemma abandoned_snoc : forall start es e,
    abandoned start (es ++ [e]) <->
    (In Dropped es \/ e = Dropped) /\
    (start = spawn_watch \/ delivered es <> [] \/ match e with Delivered _ => True | _ => False end).
  Proof.
    intros. unfold abandoned. rewrite in_snoc, delivered_snoc.
    assert (L : forall v, delivered es ++ [v] <> []) by (intros v H; destruct (delivered es); discriminate).
    destruct e; try (split; intros [H1 H2]; (split; [tauto|]); try tauto; fail).
    split; intros [H1 H2]; split; try tauto. right. apply L.
  Qed.

  Lemma no_watch_value : forall start, starts start -> (value start = None <-> start = spawn_watch).
  Proof.
    intros start [->|(v & ->)]; cbn; split; intros H; try reflexivity; discriminate.
  Qed.

  (** The kinds of steps *)
  Inductive kind_of_step s : event A -> state A -> list (act A) -> Prop :=
  | ks_quiet : forall e s' more,
      match e with Failed c => recovers c = true | Yielded | Ended => True | _ => False end ->
      published s' = published s -> value s' = value s -> read s' = read s -> tk s' <> Over -> publications more = [] ->
      kind_of_step s e s' more
  | ks_reject : forall c s',
      recovers c = false -> published s' = published s -> value s' = value s -> read s' = read s -> tk s' = Over ->
      kind_of_step s (Failed c) s' [Gives_up c]
  | ks_deliver : forall v b, read s = true -> kind_of_step s (Delivered v) (State Streaming true (Some v) true b) [Publishes v]
  | ks_unread : forall v s',
      read s = false -> published s' = published s -> value s' = value s -> read s' = read s -> tk s' = Over ->
      kind_of_step s (Delivered v) s' []
  | ks_drop : forall b, read s = true -> published s = false -> value s <> None ->
      kind_of_step s Dropped (State (tk s) (published s) (value s) false b) []
  | ks_leave : forall s', read s = true -> (published s = true \/ value s = None) -> read s' = false -> tk s' = Over ->
      kind_of_step s Dropped s' [].
  Lemma step_kind : forall s e s' more, step recovers s e = Some (s', more) -> tk s <> Over /\ kind_of_step s e s' more.
  Proof.
    intros s e s' more E.
    assert (NO : tk s <> Over) by (intros T; unfold step in E; rewrite T in E; discriminate).
    split; [exact NO|].
    assert (F : forall c next acts, Some (failed recovers s c next acts) = Some (s', more) ->
                (forall n, next n <> Over) -> publications acts = [] -> kind_of_step s (Failed c) s' more).
    { intros c next acts F NN NP. unfold failed in F. destruct (recovers c) eqn:R; injection F as <- <-.
      - apply ks_quiet; cbn; auto.
      - apply ks_reject; cbn; auto. }
    assert (D : forall v, Some (deliver s v) = Some (s', more) -> kind_of_step s (Delivered v) s' more).
    { intros v D. unfold deliver in D. destruct (read s) eqn:R; injection D as <- <-.
      - apply ks_deliver; exact R.
      - apply ks_unread; cbn; auto. }
    destruct e as [v|c| | |].
    - unfold step in E. destruct (tk s); try discriminate; exact (D v E).
    - unfold step in E. destruct (tk s) as [b| | | |]; try discriminate.
      + eapply F; [exact E| |reflexivity]. intros n. destruct b; discriminate.
      + eapply F; [exact E| |reflexivity]. discriminate.
    - unfold step in E. destruct (tk s); try discriminate; injection E as <- <-; apply ks_quiet; cbn; auto; discriminate.
    - unfold step in E. destruct (tk s); try discriminate; injection E as <- <-; apply ks_quiet; cbn; auto; discriminate.
    - assert (E' : (if read s then match published s, value s with
                    | false, Some _ => Some (State (tk s) (published s) (value s) false (backoffs s), [])
                    | _, _ => Some (State Over (published s) (value s) false (backoffs s), []) end else None) = Some (s', more)).
      { unfold step in E. destruct (tk s); try discriminate; try exact E. }
      clear E. destruct (read s) eqn:R; [|discriminate].
      destruct (published s) eqn:P; [injection E' as <- <-; apply ks_leave; cbn; auto|].
      destruct (value s) eqn:V; injection E' as <- <-.
      + assert (NV : value s <> None) by (rewrite V; discriminate).
        pose proof (ks_drop s (backoffs s) R P NV) as Q. rewrite P, V in Q. exact Q.
      + apply ks_leave; cbn; auto.
  Qed.

  Lemma known_run : forall start es acts s, starts start -> run recovers start es acts s -> known start es acts s.
  Proof.
    intros start es acts s St R. induction R as [|es acts s e s' more R IH E].
    - destruct St as [->|(v & ->)]; unfold known; cbn; repeat split; try tauto; try discriminate; try reflexivity;
        try (intros H; exfalso; congruence); intros [(c & [] & _)|([] & _)].
    - destruct IH as (K1 & K1' & K2 & K3 & K4 & K5 & K6).
      destruct (step_kind _ _ _ _ E) as [NO K]. clear E R.
      assert (NR : ~ rejected recovers es) by (intros H; apply NO, K6; left; exact H).
      assert (NA : ~ abandoned start es) by (intros H; apply NO, K6; right; exact H).
      unfold abandoned in NA.
      specialize (K3 NO). specialize (K4 NO). specialize (K5 NO).
      pose proof (no_watch_value start St) as NV.
      unfold known. rewrite !in_snoc, !delivered_snoc, rejected_snoc, abandoned_snoc, !publications_app.
      destruct K as [e s' more Q -> -> -> NO' NP|c s' Q -> -> -> T|v b Rd|v s' Rd -> -> Rd' T|b Rd P V|s' Rd P Rd' T];
        cbn [tk published value read backoffs publications].
      + assert (De : match e with Delivered v => delivered es ++ [v] | _ => delivered es end = delivered es)
          by (destruct e; try contradiction; reflexivity).
        assert (ND : e <> Dropped) by (destruct e; try contradiction; discriminate).
        rewrite De, NP, app_nil_r.
        split; [intros H [H'|H']; [exact (K1 H H')|contradiction]|].
        split; [auto|]. split; [exact K2|]. split; [auto|]. split; [auto|]. split; [auto|].
        split; [contradiction|]. intros [[H|H]|[[H|H] H']]; exfalso.
        * exact (NR H).
        * destruct e; try contradiction. congruence.
        * apply NA. split; [exact H|]. destruct e; tauto.
        * contradiction.
      + rewrite T. split; [intros H [H'|H']; [exact (K1 H H')|discriminate]|].
        split; [auto|]. rewrite app_nil_r. split; [exact K2|].
        split; [congruence|]. split; [congruence|]. split; [congruence|]. tauto.
      + split; [intros H [H'|H']; [exact (K1 Rd H')|discriminate]|].
        split; [discriminate|]. split; [intros _; split; [symmetry; apply latest_snoc|f_equal; apply K2, Rd]|].
        split; [intros _ _; split; [destruct (delivered es); discriminate|reflexivity]|].
        split; [discriminate|]. split; [discriminate|]. split; [discriminate|].
        intros [[H|[]]|[[H|H] _]]; exfalso; [exact (NR H)|exact (K1 Rd H)|discriminate].
      + rewrite Rd', T. split; [congruence|]. split; [auto|]. split; [congruence|].
        split; [congruence|]. split; [congruence|]. split; [congruence|].
        split; [|reflexivity]. intros _. right. split; [left; auto|tauto].
      + split; [discriminate|]. split; [auto|]. split; [discriminate|]. split; [congruence|].
        split; [auto|]. destruct (K4 P) as [D Vs].
        assert (NW : start <> spawn_watch) by (intros H; apply V; rewrite Vs; apply NV; exact H).
        split; [auto|]. split; [contradiction|]. intros [[H|[]]|[_ [H|[H|[]]]]]; exfalso; auto.
      + rewrite Rd', T. split; [discriminate|]. split; [auto|]. split; [discriminate|].
        split; [congruence|]. split; [congruence|]. split; [congruence|]. split; [|reflexivity].
        intros _. right. split; [auto|]. destruct P as [P|P].
        * right. left. apply K3, P.
        * destruct (published s) eqn:Pb; [right; left; apply K3; reflexivity|].
          left. apply NV. destruct (K4 eq_refl) as [_ <-]. exact P.
  Qed.

  Lemma latest_value : forall start es acts s, starts start -> run recovers start es acts s -> ~ In Dropped es ->
    value s = latest (value start) (delivered es) /\ publications acts = delivered es.
  Proof.
    intros start es acts s St R ND. destruct (known_run _ _ _ _ St R) as (K1 & K1' & K2 & _).
    apply K2. destruct (read s) eqn:E; [reflexivity|]. destruct (ND (K1' eq_refl)).
  Qed.
  Lemma over : forall start es acts s, starts start -> run recovers start es acts s ->
    (tk s = Over <-> rejected recovers es \/ abandoned start es).
  Proof. intros start es acts s St R. apply (known_run _ _ _ _ St R). Qed.

  (** ** Pacing *)

  Lemma step_over : forall s e, tk s = Over -> step recovers s e = None.
  Proof. intros s e T. unfold step. rewrite T. reflexivity. Qed.

  Lemma last_unique : forall X (L : X) l1 l2 l t,
    l1 ++ L :: l2 = l ++ L :: t -> ~ In L l2 -> ~ In L t -> l1 = l /\ l2 = t.
  Proof.
    induction l1 as [|a l1 IH]; intros l2 [|x l] t E N1 N2; cbn in E.
    - injection E as E. auto.
    - injection E as -> ->. destruct N1. apply in_or_app. right. left. reflexivity.
    - injection E as -> <-. destruct N2. apply in_or_app. right. left. reflexivity.
    - injection E as -> E. destruct (IH _ _ _ E N1 N2) as [-> ->]. auto.
  Qed.
  Lemma snoc_last : forall X (l : list X), l = [] \/ exists l' x, l = l' ++ [x].
  Proof. intros X l. destruct l using rev_ind; [auto|right; eauto]. Qed.

  Definition ok (l : list (act A)) : Prop := (exists b, l = [Waited b]) \/ (l <> [] /\ all_published l).
  Definition paced (acts : list (act A)) : Prop :=
    forall l1 l2 l3, acts = l1 ++ Looks_up :: l2 ++ Looks_up :: l3 -> ~ In Looks_up l2 -> ok l2.

  Lemma paced_more : forall l m, paced l -> ~ In Looks_up m -> paced (l ++ m).
  Proof.
    intros l m P N. induction m as [|x m IH] using rev_ind; [rewrite app_nil_r; exact P|].
    intros l1 l2 l3 E N2. rewrite app_assoc in E.
    destruct (snoc_last _ l3) as [->|(l3' & y & ->)].
    - exfalso. apply N. assert (E' : (l ++ m) ++ [x] = (l1 ++ Looks_up :: l2) ++ [Looks_up])
        by (rewrite E, <- app_assoc; reflexivity).
      apply app_inj_tail in E'. destruct E' as [_ ->]. apply in_or_app. right. left. reflexivity.
    - refine (IH _ l1 l2 l3' _ N2).
      + intros H. apply N. apply in_or_app. left. exact H.
      + assert (E' : (l ++ m) ++ [x] = (l1 ++ Looks_up :: l2 ++ Looks_up :: l3') ++ [y]).
        { rewrite E, <- app_assoc. cbn. rewrite <- app_assoc. reflexivity. }
        apply app_inj_tail in E'. apply E'.
  Qed.
  Lemma paced_lookup : forall l t, paced (l ++ Looks_up :: t) -> ~ In Looks_up t -> ok t ->
    paced ((l ++ Looks_up :: t) ++ [Looks_up]).
  Proof.
    intros l t P N O l1 l2 l3 E N2.
    destruct (snoc_last _ l3) as [->|(l3' & y & ->)].
    - assert (E' : (l ++ Looks_up :: t) ++ [Looks_up] = (l1 ++ Looks_up :: l2) ++ [Looks_up])
        by (rewrite E, <- app_assoc; reflexivity).
      apply app_inj_tail in E'. destruct E' as [E' _]. symmetry in E'.
      destruct (last_unique _ _ _ _ _ _ E' N2 N) as [_ ->]. exact O.
    - assert (E' : (l ++ Looks_up :: t) ++ [Looks_up] = (l1 ++ Looks_up :: l2 ++ Looks_up :: l3') ++ [y]).
      { rewrite E, <- app_assoc. cbn. rewrite <- app_assoc. reflexivity. }
      apply app_inj_tail in E'. destruct E' as [E' _]. exact (P l1 l2 l3' E' N2).
  Qed.

  (** The backoff that is, or may be, waited for *)
  Definition held (t : task) : list nat :=
    match t with
    | Looking (Some b) => [b] | Waiting_old old new => [old; new] | Waiting_new new => [new] | _ => []
    end.
  Definition apart (acts : list (act A)) : Prop :=
    forall l1 v l2 b, acts = l1 ++ Publishes v :: l2 -> In (Waited b) l1 -> ~ In (Waited b) l2.
  Definition same_backoff (acts : list (act A)) : Prop :=
    forall l1 b b' l2, acts = l1 ++ Waited b :: Looks_up :: Waited b' :: l2 -> b = b'.

  Definition shape (t : task) (acts : list (act A)) : Prop :=
    match t with
    | Looking None => acts = [Looks_up]
    | Looking (Some b) => exists l, acts = l ++ [Looks_up] /\ forall l' b', acts = l' ++ [Waited b'; Looks_up] -> b' = b
    | Waiting_old b _ => exists l, acts = l ++ [Looks_up] /\ forall l' b', acts = l' ++ [Waited b'; Looks_up] -> b' = b
    | Waiting_new _ => acts = [Looks_up]
    | Streaming => exists l ps, acts = l ++ Looks_up :: ps /\ ps <> [] /\ all_published ps
    | Over => True
    end.

  Lemma apart_more : forall acts m, apart acts -> (forall b, ~ In (Waited b) m) -> publications m = [] -> apart (acts ++ m).
  Proof.
    intros acts m H N NP. induction m as [|x m IH] using rev_ind; [rewrite app_nil_r; exact H|].
    rewrite publications_app in NP. apply app_eq_nil in NP. destruct NP as [NP1 NP2].
    assert (IH' : apart (acts ++ m)).
    { apply IH; [|exact NP1]. intros b I. apply (N b), in_or_app. left. exact I. }
    intros l1 v l2 b E I. rewrite app_assoc in E. destruct (snoc_last _ l2) as [->|(l' & y & ->)]; [intros []|].
    assert (E' : (acts ++ m) ++ [x] = (l1 ++ Publishes v :: l') ++ [y]) by (rewrite E, <- app_assoc; reflexivity).
    apply app_inj_tail in E'. destruct E' as [E' <-]. intros J. apply in_snoc in J. destruct J as [J|J].
    - exact (IH' _ _ _ _ E' I J).
    - apply (N b), in_or_app. right. left. exact J.
  Qed.
  Lemma apart_publish : forall acts v, apart acts -> apart (acts ++ [Publishes v]).
  Proof.
    intros acts v H l1 w l2 b E I. destruct (snoc_last _ l2) as [->|(l' & y & ->)]; [intros []|].
    assert (E' : acts ++ [Publishes v] = (l1 ++ Publishes w :: l') ++ [y]) by (rewrite E, <- app_assoc; reflexivity).
    apply app_inj_tail in E'. destruct E' as [E' <-]. intros J. apply in_snoc in J. destruct J as [J|J]; [|discriminate].
    exact (H _ _ _ _ E' I J).
  Qed.
  Definition unused (acts : list (act A)) (b : nat) : Prop :=
    forall l1 v l2, acts = l1 ++ Publishes v :: l2 -> ~ In (Waited b) l1.
  Lemma unused_more : forall acts m b, unused acts b -> publications m = [] -> unused (acts ++ m) b.
  Proof.
    intros acts m b H NP. induction m as [|x m IH] using rev_ind; [rewrite app_nil_r; exact H|].
    rewrite publications_app in NP. apply app_eq_nil in NP. destruct NP as [NP1 NP2].
    intros l1 v l2 E. rewrite app_assoc in E. destruct (snoc_last _ l2) as [->|(l' & y & ->)].
    - assert (E' : (acts ++ m) ++ [x] = l1 ++ [Publishes v]) by exact E.
      apply app_inj_tail in E'. destruct E' as [_ ->]. discriminate.
    - assert (E' : (acts ++ m) ++ [x] = (l1 ++ Publishes v :: l') ++ [y]) by (rewrite E, <- app_assoc; reflexivity).
      apply app_inj_tail in E'. destruct E' as [E' _]. exact (IH NP1 _ _ _ E').
  Qed.
  Lemma apart_wait : forall acts b, apart acts -> unused acts b -> apart (acts ++ [Waited b; Looks_up]).
  Proof.
    intros acts b H U. replace (acts ++ [Waited b; Looks_up]) with ((acts ++ [Waited b]) ++ [Looks_up]) by (rewrite <- app_assoc; reflexivity).
    apply apart_more; [|intros b' [J|[]]; discriminate|reflexivity].
    intros l1 v l2 b' E I. destruct (snoc_last _ l2) as [->|(l' & y & ->)]; [intros []|].
    assert (E' : acts ++ [Waited b] = (l1 ++ Publishes v :: l') ++ [y]) by (rewrite E, <- app_assoc; reflexivity).
    apply app_inj_tail in E'. destruct E' as [E' <-]. intros J. apply in_snoc in J. destruct J as [J|J].
    - exact (H _ _ _ _ E' I J).
    - injection J as <-. exact (U _ _ _ E' I).
  Qed.
  Lemma same_more : forall acts x, same_backoff acts -> (forall b, x <> Waited b) -> same_backoff (acts ++ [x]).
  Proof.
    intros acts x H N l1 b b' l2 E. destruct (snoc_last _ l2) as [->|(l' & y & ->)].
    - assert (E' : acts ++ [x] = (l1 ++ [Waited b; Looks_up]) ++ [Waited b']) by (rewrite E, <- app_assoc; reflexivity).
      apply app_inj_tail in E'. destruct E' as [_ ->]. destruct (N b' eq_refl).
    - assert (E' : acts ++ [x] = (l1 ++ Waited b :: Looks_up :: Waited b' :: l') ++ [y]) by (rewrite E, <- app_assoc; reflexivity).
      apply app_inj_tail in E'. destruct E' as [E' _]. exact (H _ _ _ _ E').
  Qed.
  Lemma same_wait : forall acts b, same_backoff acts -> (forall l' b', acts = l' ++ [Waited b'; Looks_up] -> b' = b) ->
    same_backoff (acts ++ [Waited b]).
  Proof.
    intros acts b H N l1 b1 b2 l2 E. destruct (snoc_last _ l2) as [->|(l' & y & ->)].
    - assert (E' : acts ++ [Waited b] = (l1 ++ [Waited b1; Looks_up]) ++ [Waited b2]) by (rewrite E, <- app_assoc; reflexivity).
      apply app_inj_tail in E'. destruct E' as [E' E2]. injection E2 as <-. exact (N _ _ E').
    - assert (E' : acts ++ [Waited b] = (l1 ++ Waited b1 :: Looks_up :: Waited b2 :: l') ++ [y]) by (rewrite E, <- app_assoc; reflexivity).
      apply app_inj_tail in E'. destruct E' as [E' _]. exact (H _ _ _ _ E').
  Qed.

  Definition pacing s acts : Prop :=
    shape (tk s) acts /\ paced acts /\ apart acts /\ same_backoff acts /\
    (forall b, In (Waited b) acts -> b < backoffs s) /\
    (forall b, In b (held (tk s)) -> b < backoffs s /\ unused acts b).

  Lemma two : forall acts b, acts ++ [Waited b; Looks_up] = (acts ++ [@Waited A b]) ++ [Looks_up].
  Proof. intros. rewrite <- app_assoc. reflexivity. Qed.

  Lemma wait_step : forall l b n acts, acts = l ++ [Looks_up] ->
    (forall l' b', acts = l' ++ [Waited b'; Looks_up] -> b' = b) -> paced acts -> apart acts -> same_backoff acts ->
    (forall b, In (Waited b) acts -> b < n) -> b < n -> unused acts b ->
    shape (Looking (Some b)) (acts ++ [Waited b; Looks_up]) /\ paced (acts ++ [Waited b; Looks_up]) /\
    apart (acts ++ [Waited b; Looks_up]) /\ same_backoff (acts ++ [Waited b; Looks_up]) /\
    (forall b', In (Waited b') (acts ++ [Waited b; Looks_up]) -> b' < n) /\
    unused (acts ++ [Waited b; Looks_up]) b.
  Proof.
    intros l b n acts EA EN P Ap Sb Lt Lb U.
    split.
    { cbn. exists (acts ++ [Waited b]). split; [apply two|]. intros l' b' E. rewrite two in E.
      replace (l' ++ [Waited b'; Looks_up]) with ((l' ++ [Waited b']) ++ [@Looks_up A]) in E by (rewrite <- app_assoc; reflexivity).
      apply app_inj_tail in E. destruct E as [E _]. apply app_inj_tail in E. destruct E as [_ E]. injection E as E. auto. }
    split.
    { replace (acts ++ [Waited b; Looks_up]) with ((l ++ Looks_up :: [Waited b]) ++ [Looks_up]) by (rewrite EA, <- !app_assoc; reflexivity).
      apply paced_lookup.
      - replace (l ++ [Looks_up; Waited b]) with ((l ++ [Looks_up]) ++ [Waited b]) by (rewrite <- app_assoc; reflexivity).
        rewrite <- EA. apply paced_more; [exact P|]. intros [J|[]]. discriminate.
      - intros [J|[]]. discriminate.
      - left. eauto. }
    split; [apply apart_wait; assumption|].
    split; [rewrite two; apply same_more; [apply same_wait; assumption|discriminate]|].
    split; [|apply unused_more; [exact U|reflexivity]].
    intros b' I. apply in_app_or in I. destruct I as [I|[I|[I|[]]]]; [exact (Lt _ I)| |discriminate].
    injection I as <-. exact Lb.
  Qed.

  Lemma pacing_run : forall start es acts s, starts start -> run recovers start es acts s -> ~ In Ended es -> pacing s acts.
  Proof.
    intros start es acts s St R. induction R as [|es acts s e s' more R IH E]; intros NE.
    - assert (T : tk start = Looking None /\ backoffs start = 0) by (destruct St as [->|(v & ->)]; auto).
      destruct T as [T B]. unfold pacing. rewrite T, B. cbn.
      split; [reflexivity|]. split.
      { intros l1 l2 l3 E. exfalso. apply (f_equal (@length _)) in E. rewrite app_length in E. cbn in E. rewrite app_length in E. cbn in E. lia. }
      split. { intros l1 v l2 b E I. destruct l1 as [|x [|y l1]]; cbn in E; [discriminate|injection E as _ E; discriminate|injection E as _ E; discriminate]. }
      split. { intros l1 b b' l2 E. destruct l1 as [|x l1]; [discriminate|]. injection E as _ E. destruct l1; discriminate. }
      split; [intros b [J|[]]; discriminate|intros b []].
    - assert (NE' : ~ In Ended es) by (intros I; apply NE, in_or_app; left; exact I).
      assert (Ne : e <> Ended) by (intros ->; apply NE, in_or_app; right; left; reflexivity).
      destruct (IH NE') as (Sh & P & Ap & Sb & Lt & Hd). clear IH NE.
      destruct e as [v|c| | |]; [| | |congruence|].
      + (* Delivered *)
        assert (D : (tk s = Streaming \/ exists b, tk s = Looking b) /\ Some (deliver s v) = Some (s', more)).
        { unfold step in E. destruct (tk s); try discriminate; eauto. }
        destruct D as [T D]. unfold deliver in D. destruct (read s); injection D as <- <-.
        * unfold pacing. cbn [tk held backoffs].
          split.
          { destruct T as [T|[b T]]; rewrite T in Sh; cbn in Sh.
            - destruct Sh as (l & ps & -> & _ & Q). exists l, (ps ++ [Publishes v]).
              split; [rewrite <- app_assoc; reflexivity|]. split; [destruct ps; discriminate|].
              intros a I. apply in_snoc in I. destruct I as [I|<-]; eauto.
            - assert (Q : exists l, acts = l ++ [Looks_up]) by (destruct b; [destruct Sh as (l & -> & _); eauto|exists []; exact Sh]).
              destruct Q as [l ->]. exists l, [Publishes v]. split; [rewrite <- app_assoc; reflexivity|].
              split; [discriminate|]. intros a [<-|[]]. eauto. }
          split; [apply paced_more; [exact P|intros [J|[]]; discriminate]|].
          split; [apply apart_publish; exact Ap|].
          split; [apply same_more; [exact Sb|discriminate]|].
          split; [|intros b []]. intros b I. apply in_snoc in I. destruct I as [I|I]; [auto|discriminate].
        * unfold pacing. rewrite app_nil_r. cbn [tk held backoffs shape]. split; [exact Logic.I|].
          do 3 (split; [assumption|]). split; [assumption|intros b []].
      + (* Failed *)
        assert (G : forall x, x <> Looks_up -> (forall b, x <> Waited b) -> (forall v, x <> Publishes v) ->
                    pacing (State Over (published s) (value s) (read s) (backoffs s)) (acts ++ [x])).
        { intros x X1 X2 X3. unfold pacing. cbn [tk held backoffs shape]. split; [exact Logic.I|].
          split; [apply paced_more; [exact P|intros [J|[]]; congruence]|].
          split; [apply apart_more; [exact Ap|intros b [J|[]]; exact (X2 b J)|]|].
          { destruct x; try reflexivity. destruct (X3 v eq_refl). }
          split; [apply same_more; assumption|]. split; [|intros b []].
          intros b I. apply in_snoc in I. destruct I as [I|I]; [auto|destruct (X2 b I)]. }
        assert (U : forall m, unused acts (backoffs s) /\ (publications m = [] -> forall b, In b (held (tk s)) -> unused (acts ++ m) b)).
        { intros m. split; [|intros NP b I; apply unused_more; [apply Hd, I|exact NP]].
          intros l1 v l2 EA I. assert (W : In (Waited (backoffs s)) acts) by (rewrite EA; apply in_or_app; left; exact I).
          apply Lt in W. lia. }
        unfold step in E. destruct (tk s) as [b| | | |] eqn:T; try discriminate.
        * unfold failed in E. destruct (recovers c); injection E as <- <-.
          -- rewrite app_nil_r. unfold pacing. cbn [tk backoffs].
             split; [destruct b; exact Sh|]. do 3 (split; [assumption|]).
             split; [intros b' I; apply Lt in I; lia|].
             intros b' I. destruct b as [old|].
             ++ destruct I as [<-|[<-|[]]]; [|split; [lia|apply (U [])]].
                destruct (Hd old (or_introl eq_refl)) as [H1 H2]. split; [lia|exact H2].
             ++ destruct I as [<-|[]]. split; [lia|apply (U [])].
          -- apply G; discriminate.
        * unfold failed in E. destruct (recovers c); injection E as <- <-.
          -- cbn in Sh. destruct Sh as (l & ps & EA & NP & AP). unfold pacing. cbn [tk backoffs held shape].
             split.
             { exists acts. split; [reflexivity|]. intros l' b' E'. exfalso.
               replace (l' ++ [Waited b'; Looks_up]) with ((l' ++ [Waited b']) ++ [@Looks_up A]) in E' by (rewrite <- app_assoc; reflexivity).
               apply app_inj_tail in E'. destruct E' as [E' _]. rewrite EA in E'.
               destruct (snoc_last _ ps) as [->|(ps' & x & ->)]; [congruence|].
               replace (l ++ Looks_up :: ps' ++ [x]) with ((l ++ Looks_up :: ps') ++ [x]) in E' by (rewrite <- app_assoc; reflexivity).
               apply app_inj_tail in E'. destruct E' as [_ ->].
               destruct (AP (Waited b')) as [v F]; [apply in_or_app; right; left; reflexivity|discriminate]. }
             split. { rewrite EA. apply paced_lookup; [rewrite <- EA; exact P| |right; auto].
               intros I. destruct (AP _ I) as [v F]. discriminate. }
             split; [apply apart_more; [exact Ap|intros b [J|[]]; discriminate|reflexivity]|].
             split; [apply same_more; [exact Sb|discriminate]|].
             split; [intros b' I; apply in_snoc in I; destruct I as [I|I]; [apply Lt in I; lia|discriminate]|].
             intros b' [<-|[]]. split; [lia|]. apply unused_more; [apply (U [])|reflexivity].
          -- apply G; discriminate.
      + (* Yielded *)
        unfold step in E. destruct (tk s) as [b|old new|new| |] eqn:T; try discriminate; injection E as <- <-.
        * cbn in Sh. destruct Sh as (l & EA & EN).
          destruct (Hd old (or_introl eq_refl)) as [Lb Ub].
          destruct (wait_step l old (backoffs s) acts EA EN P Ap Sb Lt Lb Ub) as (W1 & W2 & W3 & W4 & W5 & W6).
          unfold pacing. cbn [tk backoffs held]. do 5 (split; [assumption|]). intros b [<-|[]]. auto.
        * cbn in Sh. destruct (Hd new (or_introl eq_refl)) as [Lb Ub].
          assert (EN : forall l' b', acts = l' ++ [Waited b'; Looks_up] -> b' = new).
          { intros l' b' E'. rewrite Sh in E'. destruct l' as [|x [|y l']]; discriminate. }
          destruct (wait_step [] new (backoffs s) acts Sh EN P Ap Sb Lt Lb Ub) as (W1 & W2 & W3 & W4 & W5 & W6).
          unfold pacing. cbn [tk backoffs held]. do 5 (split; [assumption|]). intros b [<-|[]]. auto.
      + (* Dropped *)
        assert (E' : more = [] /\ backoffs s' = backoffs s /\ (tk s' = tk s \/ tk s' = Over)).
        { unfold step in E. destruct (tk s) eqn:T; try discriminate; destruct (read s); try discriminate;
            destruct (published s), (value s); injection E as <- <-; cbn; auto. }
        destruct E' as (-> & B & T). rewrite app_nil_r. unfold pacing. rewrite B.
        destruct T as [-> | ->]; [repeat split; try assumption; apply Hd; assumption|].
        cbn. split; [exact Logic.I|]. do 4 (split; [assumption|]). intros b [].
  Qed.

  (** ** The control plane comes back *)
  Lemma back : forall start es acts s, starts start -> run recovers start es acts s -> tk s <> Over -> ~ In Dropped es ->
    forall v, exists wait acts' s', (wait = [] \/ wait = [Yielded]) /\
      run recovers start (es ++ wait ++ [Delivered v]) (acts ++ acts') s' /\ value s' = Some v.
  Proof.
    intros start es acts s St R NO ND v. destruct (known_run _ _ _ _ St R) as (K1 & K1' & _).
    assert (Rd : read s = true) by (destruct (read s); [reflexivity|destruct ND; auto]).
    assert (D : forall s1, read s1 = true -> (tk s1 = Streaming \/ exists b, tk s1 = Looking b) ->
                step recovers s1 (Delivered v) = Some (State Streaming true (Some v) true (backoffs s1), [Publishes v])).
    { intros s1 R1 T. unfold step, deliver. rewrite R1. destruct T as [-> |[b ->]]; reflexivity. }
    destruct (tk s) as [b|old new|new| |] eqn:T; [| | | |congruence].
    - exists [], [Publishes v], (State Streaming true (Some v) true (backoffs s)). split; [auto|]. split; [|reflexivity].
      eapply run_step; [exact R|]. apply D; eauto.
    - exists [Yielded], ([Waited old; Looks_up] ++ [Publishes v]), (State Streaming true (Some v) true (backoffs s)).
      split; [auto|]. split; [|reflexivity]. rewrite !app_assoc. eapply run_step.
      + eapply run_step; [exact R|]. unfold step. rewrite T. reflexivity.
      + rewrite D; [reflexivity|exact Rd|right; eexists; reflexivity].
    - exists [Yielded], ([Waited new; Looks_up] ++ [Publishes v]), (State Streaming true (Some v) true (backoffs s)).
      split; [auto|]. split; [|reflexivity]. rewrite !app_assoc. eapply run_step.
      + eapply run_step; [exact R|]. unfold step. rewrite T. reflexivity.
      + rewrite D; [reflexivity|exact Rd|right; eexists; reflexivity].
    - exists [], [Publishes v], (State Streaming true (Some v) true (backoffs s)). split; [auto|]. split; [|reflexivity].
      eapply run_step; [exact R|]. apply D; eauto.
  Qed.

  (** ** Lookups without end *)
  Lemma lookups_app : forall (a b : list (act A)), lookups (a ++ b) = lookups a + lookups b.
  Proof. induction a as [|[] a IH]; intros b; cbn; rewrite ?IH; reflexivity. Qed.
  Lemma hot : recovers 0%N = true -> forall (v : A) n, exists es acts s,
    run recovers spawn_watch es acts s /\ read s = true /\ (tk s = Streaming) /\
    lookups acts = S n /\ (forall b, ~ In (Waited b) acts) /\ ~ In Dropped es /\
    (forall c, In (Failed c) es -> c = 0%N).
  Proof.
    intros R0 v n. induction n as [|n (es & acts & s & R & Rd & T & L & W & D & F)].
    - exists ([] ++ [Delivered v]), ([Looks_up] ++ [Publishes v]), (State Streaming true (Some v) true 0).
      split; [eapply run_step; [apply run_init|reflexivity]|]. do 2 (split; [reflexivity|]). split; [reflexivity|].
      split; [intros b [J|[J|[]]]; discriminate|]. split; [intros [J|[]]; discriminate|intros c [J|[]]; discriminate].
    - exists ((es ++ [Failed 0%N]) ++ [Delivered v]), ((acts ++ [Looks_up]) ++ [Publishes v]),
             (State Streaming true (Some v) true (S (backoffs s))).
      split.
      { eapply run_step; [eapply run_step; [exact R|]|].
        - unfold step, failed. rewrite T, R0. reflexivity.
        - unfold step, deliver. cbn. rewrite Rd. reflexivity. }
      do 2 (split; [reflexivity|]).
      split; [rewrite !lookups_app, L; cbn; lia|].
      split; [intros b I; rewrite !in_app_iff in I; destruct I as [[I|[I|[]]]|[I|[]]]; [exact (W b I)|discriminate|discriminate]|].
      split; [intros I; rewrite !in_app_iff in I; destruct I as [[I|[I|[]]]|[I|[]]]; [exact (D I)|discriminate|discriminate]|].
      intros c I. rewrite !in_app_iff in I. destruct I as [[I|[I|[]]]|[I|[]]]; [exact (F c I)|injection I as ->; reflexivity|discriminate].
  Qed.
  Lemma unread : forall c, recovers c = true -> forall (v : A) n, exists es acts s,
    run recovers (spawn_with_init v) (Dropped :: es) acts s /\ tk s <> Over /\ lookups acts = S n.
  Proof.
    intros c Rc v n.
    assert (H : exists es acts s, run recovers (spawn_with_init v) (Dropped :: es) acts s /\
                  (exists b, tk s = Looking b) /\ lookups acts = S n).
    { induction n as [|n (es & acts & s & R & [b T] & L)].
      - exists [], [Looks_up], (State (Looking None) false (Some v) false 0). split; [|split; [exists None; reflexivity|reflexivity]].
        exact (run_step recovers (spawn_with_init v) [] [Looks_up] _ Dropped _ [] (run_init _ _) eq_refl).
      - destruct b as [old|].
        + exists (es ++ [Failed c; Yielded]), (acts ++ [Waited old; Looks_up]),
            (State (Looking (Some old)) (published s) (value s) (read s) (S (backoffs s))).
          split; [|split; [cbn; eauto|rewrite lookups_app, L; cbn; lia]].
          change (Dropped :: es ++ [Failed c; Yielded]) with ((Dropped :: es) ++ [Failed c] ++ [@Yielded A]).
          rewrite app_assoc.
          assert (R' : run recovers (spawn_with_init v) ((Dropped :: es) ++ [Failed c]) (acts ++ [])
                        (State (Waiting_old old (backoffs s)) (published s) (value s) (read s) (S (backoffs s)))).
          { eapply run_step; [exact R|]. unfold step, failed. rewrite T, Rc. reflexivity. }
          rewrite app_nil_r in R'. eapply run_step; [exact R'|]. reflexivity.
        + exists (es ++ [Failed c; Yielded]), (acts ++ [Waited (backoffs s); Looks_up]),
            (State (Looking (Some (backoffs s))) (published s) (value s) (read s) (S (backoffs s))).
          split; [|split; [cbn; eauto|rewrite lookups_app, L; cbn; lia]].
          change (Dropped :: es ++ [Failed c; Yielded]) with ((Dropped :: es) ++ [Failed c] ++ [@Yielded A]).
          rewrite app_assoc.
          assert (R' : run recovers (spawn_with_init v) ((Dropped :: es) ++ [Failed c]) (acts ++ [])
                        (State (Waiting_new (backoffs s)) (published s) (value s) (read s) (S (backoffs s)))).
          { eapply run_step; [exact R|]. unfold step, failed. rewrite T, Rc. reflexivity. }
          rewrite app_nil_r in R'. eapply run_step; [exact R'|]. reflexivity. }
    destruct H as (es & acts & s & R & [b T] & L). exists es, acts, s. split; [exact R|]. split; [rewrite T; discriminate|exact L].
  Qed.
End W.

(** ** Limits *)
Section L.
  Context {A : Type}.
  Open Scope N_scope.
  Implicit Types (ps : list (N * inner A)) (os : list (outer A)).

  Lemma go_polls_run : forall l start ps t r os t' r' (ps0 : list (N * inner A)) os0,
    polls l start ps0 os0 t r -> go_polls l t r ps = Some (os, t', r') -> polls l start (ps0 ++ ps) (os0 ++ os) t' r'.
  Proof.
    intros l start ps. induction ps as [|[now i] ps IH]; intros t r os t' r' ps0 os0 P G; cbn in G.
    - injection G as <- <- <-. rewrite !app_nil_r. exact P.
    - destruct (t <=? now) eqn:E; [|discriminate]. destruct (poll l r now i) as [[r1 o]|] eqn:Q; [|discriminate].
      destruct (go_polls l now r1 ps) as [[[os1 t1] r2]|] eqn:G1; [|discriminate]. injection G as <- <- <-.
      apply N.leb_le in E.
      replace (ps0 ++ (now, i) :: ps) with ((ps0 ++ [(now, i)]) ++ ps) by (rewrite <- app_assoc; reflexivity).
      replace (os0 ++ o :: os1) with ((os0 ++ [o]) ++ os1) by (rewrite <- app_assoc; reflexivity).
      eapply IH; [|exact G1]. eapply polls_step; eauto.
  Qed.

  Lemma responded_snoc : forall ps t i,
    responded_at (ps ++ [(t, i)]) =
    match responded_at ps with Some t' => Some t' | None => match i with Responded => Some t | _ => None end end.
  Proof. induction ps as [|[t0 []] ps IH]; intros t i; cbn; try rewrite IH; try reflexivity. Qed.
  Lemma last_item_snoc : forall ps t i,
    last_item (ps ++ [(t, i)]) = match i with Item _ => Some t | _ => last_item ps end.
  Proof.
    induction ps as [|[t0 j] ps IH]; intros t i; cbn.
    - destruct i; reflexivity.
    - rewrite IH. destruct j, i; reflexivity.
  Qed.
  Lemma items_in_snoc : forall ps t i,
    items_in (ps ++ [(t, i)]) = items_in ps ++ match i with Item v => [v] | _ => [] end.
  Proof. induction ps as [|[t0 j] ps IH]; intros t i; cbn; [destruct i; reflexivity|]. rewrite IH. destruct j; reflexivity. Qed.
  Lemma items_out_snoc : forall os o,
    items_out (os ++ [o]) = items_out os ++ match o with Out_item v => [v] | _ => [] end.
  Proof. induction os as [|p os IH]; intros o; cbn; [destruct o; reflexivity|]. rewrite IH. destruct p; reflexivity. Qed.

  (** The timer that is running *)
  Definition timer (l : limits) (start : N) ps : option N :=
    match last_item ps, idle l with
    | Some t, Some d => Some (t + d)
    | _, _ => sleep start (match initial l with Some d => Some d | None => idle l end)
    end.
  Definition tracked (l : limits) (start : N) ps os (r : receive) : Prop :=
    match r with
    | Calling recv => responded_at ps = None /\ last_item ps = None /\ recv = timer l start ps /\ items_out os = items_in ps
    | Receiving life recv init =>
        exists t, responded_at ps = Some t /\ life = sleep t (lifetime l) /\ recv = timer l start ps /\
                  (init = true <-> last_item ps = None) /\ items_out os = items_in ps
    | Closed => exists more, items_in ps = items_out os ++ more
    end.

  Lemma tracked_run : forall l start ps os t r, polls l start ps os t r -> tracked l start ps os r.
  Proof.
    intros l start ps os t r P. induction P as [|ps os t r now i r' o P IH Le E].
    - cbn. repeat split; reflexivity.
    - destruct r as [recv|life recv init|]; cbn in IH; [| |discriminate].
      + destruct IH as (R & I & -> & Q).
        assert (N : match i with Responded => True | Pending => True | Error _ => True | _ => False end)
          by (destruct i; cbn in E; try discriminate; exact Logic.I).
        unfold tracked, timer. rewrite responded_snoc, last_item_snoc, items_in_snoc, items_out_snoc, R, I.
        destruct i; try contradiction; cbn in E.
        * destruct (elapsed now (timer l start ps)); injection E as <- <-; cbn.
          -- exists []. rewrite !app_nil_r. auto.
          -- rewrite !app_nil_r. unfold timer. rewrite I. auto.
        * injection E as <- <-. cbn. exists now. rewrite !app_nil_r. unfold timer. rewrite I. intuition.
        * injection E as <- <-. cbn. exists []. rewrite !app_nil_r. auto.
      + destruct IH as (t0 & R & -> & -> & I & Q).
        unfold tracked, timer. rewrite responded_snoc, last_item_snoc, items_in_snoc, items_out_snoc, R.
        destruct i as [| |v|c|]; cbn in E; try discriminate.
        all: unfold poll_next in E; destruct (elapsed now (sleep t0 (lifetime l))) eqn:X;
          [injection E as <- <-; cbn; rewrite (app_nil_r (items_out os)), Q; eexists; reflexivity|].
        * destruct (elapsed now (timer l start ps)) eqn:Y; injection E as <- <-; cbn.
          -- exists []. destruct init; rewrite !app_nil_r; auto.
          -- exists t0. rewrite !app_nil_r. auto.
        * injection E as <- <-. cbn. exists t0. rewrite Q. unfold timer. repeat split; auto; try discriminate.
          destruct (idle l) eqn:Id; [reflexivity|]. destruct (last_item ps); reflexivity.
        * injection E as <- <-. cbn. exists []. rewrite !app_nil_r. auto.
        * injection E as <- <-. cbn. exists []. rewrite !app_nil_r. auto.
  Qed.

  Lemma elapsed_iff : forall now d, elapsed now d = true <-> exists t, d = Some t /\ t <= now.
  Proof.
    intros now [t|]; cbn.
    - rewrite N.leb_le. split; [eauto|intros (t' & E & L); injection E as <-; exact L].
    - split; [discriminate|intros (t & E & _); discriminate].
  Qed.
  Lemma expired_iff : forall l ps now, expired l ps now <->
    exists t, responded_at ps = Some t /\ elapsed now (sleep t (lifetime l)) = true.
  Proof.
    intros l ps now. unfold expired. split.
    - intros (t & d & R & L & Le). exists t. split; [exact R|]. rewrite L. apply elapsed_iff. eexists. split; [reflexivity|exact Le].
    - intros (t & R & E). destruct (lifetime l) as [d|]; [|discriminate]. apply elapsed_iff in E.
      destruct E as (t' & E & Le). injection E as <-. eauto.
  Qed.
  Lemma timer_iff : forall l start ps now, elapsed now (timer l start ps) = true <->
    late l start ps now \/ quiet l ps now \/ outlived l start ps now.
  Proof.
    intros l start ps now. rewrite elapsed_iff. unfold timer, late, quiet, outlived. split.
    - intros (t & E & Le). destruct (last_item ps) as [t0|].
      + destruct (idle l) as [d|]; [injection E as <-; right; left; eauto 10|].
        destruct (initial l) as [d|]; [|discriminate]. injection E as <-. right. right. eauto 10.
      + left. split; [reflexivity|]. destruct (initial l) as [d|]; [injection E as <-; eauto|].
        destruct (idle l) as [d|]; [injection E as <-; eauto|discriminate].
    - intros [(-> & d & [D|[D1 D2]] & Le)|[(t & d & -> & D & Le)|(t & d & -> & D1 & D2 & Le)]].
      + rewrite D. eexists. split; [reflexivity|exact Le].
      + rewrite D1, D2. eexists. split; [reflexivity|exact Le].
      + rewrite D. eexists. split; [reflexivity|exact Le].
      + rewrite D1, D2. eexists. split; [reflexivity|exact Le].
  Qed.

  (** What a poll gives, from what there was before *)
  Definition answers (l : limits) (start : N) ps (now : N) (i : inner A) (o : outer A) : Prop :=
    (expired l ps now /\ o = Out_end) \/
    (~ expired l ps now /\
      ((i = Responded /\ o = Out_responded) \/ (exists v, i = Item v /\ o = Out_item v) \/
       (exists c, i = Error c /\ o = Out_error c) \/ (i = End /\ o = Out_end) \/
       (i = Pending /\ late l start ps now /\ o = Out_timeout) \/
       (i = Pending /\ (quiet l ps now \/ outlived l start ps now) /\ o = Out_end) \/
       (i = Pending /\ ~ late l start ps now /\ ~ quiet l ps now /\ ~ outlived l start ps now /\ o = Out_pending))).

  Lemma poll_answers : forall l start ps os t r now i r' o,
    polls l start ps os t r -> poll l r now i = Some (r', o) -> answers l start ps now i o.
  Proof.
    intros l start ps os t r now i r' o P E. pose proof (tracked_run _ _ _ _ _ _ P) as T. unfold answers.
    pose proof (timer_iff l start ps now) as TI.
    assert (NT : elapsed now (timer l start ps) = false -> ~ late l start ps now /\ ~ quiet l ps now /\ ~ outlived l start ps now).
    { intros F. repeat split; intros H; rewrite (proj2 TI) in F by tauto; discriminate. }
    destruct r as [recv|life recv init|]; cbn in T; [| |discriminate].
    - destruct T as (R & I & -> & _).
      right. split; [intros (t0 & d & R' & _); congruence|].
      destruct i; cbn in E; try discriminate.
      + destruct (elapsed now (timer l start ps)) eqn:X; injection E as <- <-.
        * destruct (proj1 TI eq_refl) as [H|[(t0 & d & H & _)|(t0 & d & H & _)]]; [|congruence|congruence]. tauto.
        * destruct (NT eq_refl) as (H1 & H2 & H3). do 6 right. auto.
      + injection E as <- <-. auto.
      + injection E as <- <-. eauto 10.
    - destruct T as (t0 & R & -> & -> & I & _).
      assert (E' : poll_next l (sleep t0 (lifetime l)) (timer l start ps) init now i = (r', o) /\ i <> Responded)
        by (destruct i; cbn in E; try discriminate; injection E as E; (split; [exact E|discriminate])).
      clear E. destruct E' as [E NR]. unfold poll_next in E.
      destruct (elapsed now (sleep t0 (lifetime l))) eqn:X.
      { injection E as <- <-. left. split; [apply expired_iff; eauto|reflexivity]. }
      right. split; [rewrite expired_iff; intros (t1 & R1 & X1); assert (t1 = t0) by congruence; subst; congruence|].
      destruct i as [| |v|c|]; [|congruence| | |].
      + destruct (elapsed now (timer l start ps)) eqn:Y; injection E as <- <-.
        * destruct (proj1 TI eq_refl) as [H|H].
          -- assert (Q : init = true) by (apply I, H). rewrite Q. tauto.
          -- assert (Q : init = false).
             { destruct init; [|reflexivity]. assert (Z : last_item ps = None) by (apply I; reflexivity).
               destruct H as [(t1 & d & H & _)|(t1 & d & H & _)]; congruence. }
             rewrite Q. tauto.
        * destruct (NT eq_refl) as (H1 & H2 & H3). do 6 right. auto.
      + injection E as <- <-. eauto 10.
      + injection E as <- <-. eauto 10.
      + injection E as <- <-. auto 10.
  Qed.
  Lemma prefix : forall l start ps os t r, polls l start ps os t r -> exists more, items_in ps = items_out os ++ more.
  Proof.
    intros l start ps os t r P. pose proof (tracked_run _ _ _ _ _ _ P) as T.
    destruct r; cbn in T.
    - destruct T as (_ & _ & _ & ->). exists []. symmetry. apply app_nil_r.
    - destruct T as (t0 & _ & _ & _ & _ & ->). exists []. symmetry. apply app_nil_r.
    - exact T.
  Qed.
  Lemma exclusive : forall l start ps now, (late l start ps now -> ~ quiet l ps now /\ ~ outlived l start ps now).
  Proof.
    intros l start ps now (L & _). split; intros (t & d & H & _); congruence.
  Qed.
  Ltac cases P E :=
    let W := fresh "W" in pose proof (poll_answers _ _ _ _ _ _ _ _ _ _ P E) as W; unfold answers in W;
    repeat match goal with H : exists _, _ |- _ => destruct H | H : _ /\ _ |- _ => destruct H | H : _ \/ _ |- _ => destruct H end;
    subst; split; intros; repeat match goal with H : exists _, _ |- _ => destruct H | H : _ /\ _ |- _ => destruct H | H : _ \/ _ |- _ => destruct H end;
    try congruence; try tauto; try (split; [congruence|tauto]); eauto 10.

  Lemma item_iff : forall l start ps os t r now i r' o (v : A),
    polls l start ps os t r -> poll l r now i = Some (r', o) -> (o = Out_item v <-> i = Item v /\ ~ expired l ps now).
  Proof. intros l start ps os t r now i r' o v P E. cases P E. Qed.
  Lemma error_iff : forall l start ps os t r now (i : inner A) r' o c,
    polls l start ps os t r -> poll l r now i = Some (r', o) -> (o = Out_error c <-> i = Error c /\ ~ expired l ps now).
  Proof. intros l start ps os t r now i r' o c P E. cases P E. Qed.
  Lemma timeout_iff : forall l start ps os t r now (i : inner A) r' o,
    polls l start ps os t r -> poll l r now i = Some (r', o) ->
    (o = Out_timeout <-> i = Pending /\ late l start ps now /\ ~ expired l ps now).
  Proof.
    intros l start ps os t r now i r' o P E. pose proof (exclusive l start ps now) as X.
    cases P E.
  Qed.
  Lemma end_iff : forall l start ps os t r now (i : inner A) r' o,
    polls l start ps os t r -> poll l r now i = Some (r', o) ->
    (o = Out_end <-> expired l ps now \/ i = End \/ (i = Pending /\ (quiet l ps now \/ outlived l start ps now))).
  Proof.
    intros l start ps os t r now i r' o P E. pose proof (exclusive l start ps now) as X.
    cases P E.
  Qed.
End L.

Lemma codes : forall c,
  (inbound_recovers c = false <-> c = 3%N \/ c = 9%N) /\
  (outbound_recovers c = false <-> c = 3%N \/ c = 9%N \/ c = 5%N \/ c = 12%N) /\
  (spire_recovers c = false <-> c = 3%N).
Proof.
  intros c. unfold inbound_recovers, outbound_recovers, spire_recovers.
  destruct (N.eqb_spec c 3), (N.eqb_spec c 9), (N.eqb_spec c 5), (N.eqb_spec c 12); cbn;
    repeat split; intros; try discriminate; try reflexivity; try tauto; lia.
Qed.
