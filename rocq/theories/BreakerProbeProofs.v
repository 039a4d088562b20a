From Coq Require Import List Arith NArith ZArith Bool Lia ZifyBool ZifyNat ZifyN.
From Verif Require Import BreakerModel BreakerSpec.
From Verif Require Import BackoffModel BackoffSpec BackoffProofs.
Import ListNotations.
Open Scope N_scope.

Section Probe.
  Variable k : kind.
  Variable im : N.
  Variable bo : backoff.
  Variable cap : nat.

  (** ** Whose responses are taken *)
  Definition known (w1 : world k) (new : list entry) (id : nat) : Prop :=
    In id (w_flight w1) \/ In id (map fst (w_queue w1)) \/ In (Admit id) new.
  Definition traced (w1 w : world k) : Prop := exists new,
    w_log w = w_log w1 ++ new /\
    (forall id, In id (w_flight w) -> known w1 new id) /\
    (forall id, In id (map fst (w_queue w)) -> known w1 new id) /\
    (forall id now c, In (Observe id now c) new -> known w1 new id).

  Lemma known_app w1 new e id : known w1 new id -> known w1 (new ++ e) id.
  Proof. unfold known. intros [H|[H|H]]; auto. right; right. apply in_or_app. now left. Qed.
  Lemma traced_refl w : traced w w.
  Proof.
    exists []. rewrite app_nil_r. unfold known. repeat split; auto.
  Qed.
  Lemma in_del id x l : In id (del x l) -> In id l.
  Proof. unfold del. rewrite filter_In. tauto. Qed.
  Lemma mem_in id l : mem id l = true -> In id l.
  Proof. unfold mem. rewrite existsb_exists. intros (x & H & E). apply Nat.eqb_eq in E. now subst. Qed.
  Lemma traced_add w1 w w' add : traced w1 w -> w_log w' = w_log w ++ add ->
    (forall id, In id (w_flight w') -> In id (w_flight w) \/ In (Admit id) add) ->
    (forall id, In id (map fst (w_queue w')) -> In id (map fst (w_queue w)) \/ In id (w_flight w)) ->
    (forall id now c, In (Observe id now c) add -> In id (map fst (w_queue w))) ->
    traced w1 w'.
  Proof.
    intros (new & H1 & H2 & H3 & H4) Hl Hf Hq Ho. exists (new ++ add). rewrite Hl, H1, app_assoc.
    split; [reflexivity|]. repeat split.
    - intros id Hi. destruct (Hf id Hi) as [H|H]; [apply known_app, H2, H|]. right; right. apply in_or_app. now right.
    - intros id Hi. destruct (Hq id Hi) as [H|H]; apply known_app; auto.
    - intros id now c Hi. apply in_app_or in Hi as [H|H]; apply known_app; [now apply H4 with now c|].
      apply H3, Ho with now c, H.
  Qed.

  Lemma traced_take w1 w now : traced w1 w -> traced w1 (take k w now).
  Proof.
    intros T. unfold take. destruct (w_queue w) as [|[id c] q] eqn:Eq; [exact T|].
    assert (Hq : forall x, In x (map fst q) -> In x (map fst (w_queue w)) \/ In x (w_flight w)).
    { intros x Hx. left. rewrite Eq. now right. }
    assert (Ho : forall x n d g t, In (Observe x n d) [Observe id now c; Set_gate g t] -> In x (map fst (w_queue w))).
    { intros x n d g t [E|[E|[]]]; [|discriminate]. injection E as <- _ _. rewrite Eq. now left. }
    assert (Ho' : forall x n d, In (Observe x n d) [Observe id now c] -> In x (map fst (w_queue w))).
    { intros x n d [E|[]]. injection E as <- _ _. rewrite Eq. now left. }
    destruct (w_phase w); [destruct (k_observe k s now c) as [s' []]| |destruct (k_probe k c)|exact T];
      rewrite <- ?app_assoc; cbn [app];
      (eapply traced_add; [exact T|reflexivity|cbn [w_flight]; auto|exact Hq|]); try exact Ho'; intros; eapply Ho; eassumption.
  Qed.
  Lemma traced_timer w1 w i : traced w1 w ->
    match timer im bo k w i with Some w' => traced w1 w' | None => traced w1 (arm im bo k w i) end.
  Proof.
    intros T. unfold timer, arm. destruct (w_phase w); auto.
    destruct (poll_next im bo b i) as [[] b'];
      (eapply traced_add; [exact T| |cbn [w_flight]; auto|cbn [w_queue]; auto|]); cbn [w_log]; try reflexivity.
    all: try (symmetry; apply app_nil_r).
    all: try (intros ? ? ? []). all: try discriminate. all: try contradiction.
  Qed.

  Lemma traced_step w1 w e : traced w1 w -> traced w1 (step im bo cap k w e).
  Proof.
    intros T. destruct e as [|id c|id|i f|]; cbn [step].
    - unfold send.
      assert (G : forall g, traced w1 (World (w_phase w) g (w_queue w) (w_flight w ++ [w_next w]) (S (w_next w))
                                         (w_log w ++ [Admit (w_next w)]))).
      { intros g. eapply traced_add; [exact T|reflexivity|cbn [w_flight]|cbn [w_queue]; auto|].
        - intros id Hi. apply in_app_or in Hi as [H|[<-|[]]]; auto. right. now left.
        - intros id now c [E|[]]; discriminate. }
      destruct (w_gate w) as [|n|]; [apply G| |exact T]. destruct (n =? 0); [exact T|apply G].
    - unfold respond. destruct (mem id (w_flight w)) eqn:E; [|exact T]. apply mem_in in E.
      destruct (Nat.ltb _ _).
      + eapply traced_add; [exact T|symmetry; apply app_nil_r| | |intros ? ? ? []].
        * cbn [w_flight]. intros x Hx. left. now apply in_del in Hx.
        * cbn [w_queue]. intros x. rewrite map_app. intros Hx. apply in_app_or in Hx as [H|[<-|[]]]; auto.
      + eapply traced_add; [exact T|reflexivity| |cbn [w_queue]; auto|].
        * cbn [w_flight]. intros x Hx. left. now apply in_del in Hx.
        * intros x now d [E'|[]]; discriminate.
    - unfold cancel. destruct (mem id (w_flight w)) eqn:E; [|exact T].
      eapply traced_add; [exact T|reflexivity| |cbn [w_queue]; auto|].
      + cbn [w_flight]. intros x Hx. left. now apply in_del in Hx.
      + intros x now d [E'|[]]; discriminate.
    - unfold run_task. destruct (_ || _); [|now apply traced_take].
      pose proof (traced_timer w1 w i T) as H. destruct (timer im bo k w i); [exact H|now apply traced_take].
    - eapply traced_add; [exact T|symmetry; apply app_nil_r|cbn [w_flight]; auto|cbn [w_queue]; auto|intros ? ? ? []].
  Qed.
  Lemma traced_run w1 w es : traced w1 w -> traced w1 (fold_left (step im bo cap k) es w).
  Proof. revert w. induction es as [|e es IH]; intros w T; [exact T|]. apply IH. now apply traced_step. Qed.

  Theorem responses_of_probes t0 es1 es2 :
    w_flight (run im bo cap k t0 es1) = [] -> w_queue (run im bo cap k t0 es1) = [] ->
    exists new, w_log (run im bo cap k t0 (es1 ++ es2)) = w_log (run im bo cap k t0 es1) ++ new /\
      forall id now c, In (Observe id now c) new -> In (Admit id) new.
  Proof.
    intros Hf Hq. unfold run at 1. rewrite fold_left_app. fold (run im bo cap k t0 es1).
    destruct (traced_run _ _ es2 (traced_refl (run im bo cap k t0 es1))) as (new & H1 & _ & _ & H4).
    exists new. split; [exact H1|]. intros id now c Hi. destruct (H4 id now c Hi) as [H|[H|H]]; [| |exact H].
    - rewrite Hf in H. destruct H.
    - rewrite Hq in H. destruct H.
  Qed.

  (** ** A breaker whose probe was dropped *)
  Definition stuck (w : world k) : Prop :=
    w_gate w = Limited 0 /\ w_queue w = [] /\ w_flight w = [] /\
    match w_phase w with Probing _ _ | Returned => True | _ => False end.
  Lemma stuck_step w e : stuck w -> stuck (step im bo cap k w e) /\ w_log (step im bo cap k w e) = w_log w.
  Proof.
    intros (Hg & Hq & Hf & Hp). destruct w as [p g q f nx lg]. cbn [w_gate w_queue w_flight w_phase] in *. subst g q f.
    destruct e as [|id c|id|i fst|]; cbn [step].
    - unfold send. cbn [w_gate N.eqb]. split; [|reflexivity]. repeat split. exact Hp.
    - unfold respond. cbn [w_flight mem existsb]. split; [|reflexivity]. repeat split. exact Hp.
    - unfold cancel. cbn [w_flight mem existsb]. split; [|reflexivity]. repeat split. exact Hp.
    - unfold run_task. cbn [w_queue]. rewrite orb_true_r.
      destruct p; try destruct Hp; unfold timer, arm, take; cbn [w_phase w_queue]; (split; [|reflexivity]); repeat split.
    - cbn [w_gate w_queue w_flight w_log]. split; [|reflexivity]. repeat split.
  Qed.
  Lemma stuck_run w es : stuck w ->
    w_log (fold_left (step im bo cap k) es w) = w_log w /\ w_gate (fold_left (step im bo cap k) es w) = Limited 0.
  Proof.
    revert w. induction es as [|e es IH]; intros w S; cbn [fold_left]; [split; [reflexivity|apply S]|].
    destruct (stuck_step w e S) as [S' E]. destruct (IH _ S') as [H1 H2]. split; [congruence|exact H2].
  Qed.

  (** ** A shut breaker tries again *)
  Hypothesis Hbo : valid bo.
  Definition armed (now : N) (w : world k) : Prop :=
    match w_phase w with
    | Opened _ => w_gate w = Open
    | Waiting s b => w_gate w = Shut /\ forall d, st_sleep b = Some d -> d <= now + bo_max bo
    | Probing s b => (exists n, w_gate w = Limited n) /\ st_sleep b = None
    | Returned => True
    end.
  Lemma armed_take now w : armed now w -> armed now (take k w now).
  Proof.
    intros A. unfold take, armed in *. destruct (w_queue w) as [|[id c] q]; [exact A|].
    destruct (w_phase w) eqn:E.
    - destruct (k_observe k s now c) as [s' []]; cbn [w_phase w_gate]; [|exact A].
      split; [reflexivity|]. intros d Hd. discriminate Hd.
    - cbn [w_phase w_gate]. exact A.
    - destruct (k_probe k c); cbn [w_phase w_gate]; [reflexivity|]. split; [reflexivity|].
      destruct A as [_ A]. intros d Hd. congruence.
    - now rewrite E.
  Qed.
  Lemma armed_timer i w : armed (in_now i) w ->
    match timer im bo k w i with Some w' => armed (in_now i) w' | None => armed (in_now i) (arm im bo k w i) end.
  Proof.
    intros A. unfold timer, arm. destruct (w_phase w) as [s|s b|s b|] eqn:Ep; try exact A.
    unfold armed in A. rewrite Ep in A. destruct A as [Ag A].
    destruct (poll_next im bo b i) as [o b'] eqn:E. pose proof (poll_step _ _ _ _ _ _ Hbo E) as P.
    destruct o; unfold armed; cbn [w_phase w_gate snd].
    - split; [exact Ag|]. destruct P as (Pn & d & Pd & Plt & [Ps|[Ps1 Ps2]]); intros d' Hd'; assert (d' = d) by congruence; subst d'.
      + now apply A.
      + lia.
    - split; [now eexists|]. apply P.
    - split; [now eexists|]. destruct P as (-> & P & _). exact P.
    - exact I.
  Qed.
  Lemma armed_mono a b w : a <= b -> armed a w -> armed b w.
  Proof.
    intros H. unfold armed. destruct (w_phase w); auto. intros [H1 H2]. split; [exact H1|].
    intros d Hd. specialize (H2 d Hd). lia.
  Qed.
  Lemma armed_step now w e : armed now w -> (forall i f, e = Run i f -> now <= in_now i) ->
    armed (match e with Run i _ => in_now i | _ => now end) (step im bo cap k w e).
  Proof.
    intros A He. destruct e as [|id c|id|i f|]; cbn [step].
    - unfold send. unfold armed in *. destruct (w_gate w) as [|n|] eqn:Eg; cbn [w_phase w_gate].
      + destruct (w_phase w); [reflexivity|destruct A; discriminate|destruct A as [[? ?] ?]; discriminate|exact I].
      + destruct (n =? 0); cbn [w_phase w_gate]; [rewrite Eg; exact A|].
        destruct (w_phase w); [discriminate A|destruct A; discriminate| |exact I].
        destruct A as [_ A]. split; [now eexists|exact A].
      + rewrite Eg. exact A.
    - unfold respond. destruct (mem id _); [|exact A]. destruct (Nat.ltb _ _); exact A.
    - unfold cancel. destruct (mem id _); exact A.
    - specialize (He i f eq_refl). assert (A' : armed (in_now i) w) by now apply armed_mono with now.
      unfold run_task. destruct (_ || _); [|now apply armed_take].
      pose proof (armed_timer i w A') as T. destruct (timer im bo k w i); [exact T|now apply armed_take].
    - exact I.
  Qed.
  (** The time of the last poll. *)
  Fixpoint last_run (t : N) (es : list event) : N :=
    match es with [] => t | Run i _ :: es => last_run (in_now i) es | _ :: es => last_run t es end.
  Lemma armed_run t0 es : clock t0 es -> armed (last_run t0 es) (run im bo cap k t0 es).
  Proof.
    intros Hc. unfold run. assert (A : armed t0 (start k t0)) by reflexivity.
    revert t0 Hc A. generalize (start k). intros st t0. generalize (st t0). clear st. revert t0.
    induction es as [|e es IH]; intros t w Hc A; cbn [fold_left]; [exact A|].
    pose proof (armed_step t w e A) as A'.
    destruct e; cbn [clock] in Hc; cbn [last_run]; try (apply (IH t); [exact Hc|apply A'; intros; discriminate]).
    destruct Hc as [H1 H2]. apply (IH (in_now i)); [exact H2|]. apply A'. intros j g E. injection E as <- <-. lia.
  Qed.

  (** The inputs of a poll for which the backoff does not panic. *)
  Definition sane (i : input) : Prop :=
    in_now i + bo_max bo <= im /\ in_secs i + 5 <= u64max /\ in_nanos i <= u32max.
  Lemma no_panic st i : sane i -> fst (poll_next im bo st i) <> Panic.
  Proof.
    intros (H1 & H2 & H3). unfold poll_next, poll_sleep. destruct (st_sleep st) as [d|]; [now destruct (d <=? in_now i)|].
    destruct (st_iterations st =? u32max); [easy|].
    pose proof (jitter_no_panic bo (base bo (st_iterations st)) (in_secs i) (in_nanos i) H2 H3) as Hj.
    destruct (jitter bo _ _ _) as [j|] eqn:Ej; [|congruence].
    apply delay_bounds in Ej as (Hd & _); [|exact Hbo].
    replace (in_now i + (base bo (st_iterations st) + j) <=? im) with true by lia. now destruct (_ <=? in_now i).
  Qed.

  Lemma log_take w now : exists add, w_log (take k w now) = w_log w ++ add.
  Proof.
    unfold take. destruct (w_queue w) as [|[id c] q]; [exists []; now rewrite app_nil_r|].
    destruct (w_phase w); [destruct (k_observe k s now c) as [s' []]| |destruct (k_probe k c)|exists []; now rewrite app_nil_r];
      cbn [w_log]; rewrite <- ?app_assoc; now eexists.
  Qed.
  Lemma log_arm w i : w_log (arm im bo k w i) = w_log w.
  Proof. unfold arm. now destruct (w_phase w). Qed.
  Lemma run_waiting w i s b : w_phase w = Waiting s b -> sane i ->
    (exists add, w_log (run_task im bo k w i true) = w_log w ++ Set_gate (Limited 1) (in_now i) :: add) \/
    (exists add b' d, w_log (run_task im bo k w i true) = w_log w ++ add /\
       w_phase (run_task im bo k w i true) = Waiting s b' /\ st_sleep b' = Some d /\ in_now i < d /\
       (st_sleep b = Some d \/ d <= in_now i + bo_max bo)).
  Proof.
    intros Ep Hs. unfold run_task. cbn [orb]. unfold timer, arm. rewrite Ep.
    pose proof (no_panic b i Hs) as Np. destruct (poll_next im bo b i) as [o b'] eqn:E.
    pose proof (poll_step _ _ _ _ _ _ Hbo E) as P. destruct o; cbn [fst] in Np.
    - right. destruct P as (Pn & d & Pd & Plt & Ps). cbn [snd].
      set (w' := World _ _ _ _ _ _). destruct (log_take w' (in_now i)) as [add Ha]. exists add, b', d.
      split; [exact Ha|]. split.
      { unfold take, w'. cbn [w_queue]. destruct (w_queue w) as [|[id c] q]; reflexivity. }
      split; [exact Pd|]. split; [exact Plt|]. destruct Ps as [Ps|[_ Ps]]; [now left|right; lia].
    - left. exists []. reflexivity.
    - left. exists []. reflexivity.
    - congruence.
  Qed.

  Theorem tries_again t0 es i1 i2 : clock t0 es -> last_run t0 es <= in_now i1 ->
    in_now i1 + bo_max bo <= in_now i2 -> sane i1 -> sane i2 ->
    w_gate (run im bo cap k t0 es) = Shut -> w_phase (run im bo cap k t0 es) <> Returned ->
    exists new, w_log (run im bo cap k t0 (es ++ [Run i1 true; Run i2 true])) = w_log (run im bo cap k t0 es) ++ new /\
      exists t, In (Set_gate (Limited 1) t) new.
  Proof.
    intros Hc Hl Hi S1 S2 Hg Hp. pose proof (armed_run t0 es Hc) as A.
    unfold run at 1. rewrite fold_left_app. fold (run im bo cap k t0 es). set (w := run im bo cap k t0 es) in *.
    cbn [fold_left step]. unfold armed in A. destruct (w_phase w) as [s|s b|s b|] eqn:Ep.
    - congruence.
    - destruct A as [_ A].
      destruct (run_waiting w i1 s b Ep S1) as [[add E]|(add & b' & d & E & Ep' & Hd & Hlt & Hs)].
      + assert (X : exists add', w_log (run_task im bo k (run_task im bo k w i1 true) i2 true)
                       = w_log (run_task im bo k w i1 true) ++ add').
        { set (w' := run_task im bo k w i1 true). unfold run_task. cbn [orb]. unfold timer.
          destruct (w_phase w') eqn:Ew.
          - destruct (log_take (arm im bo k w' i2) (in_now i2)) as [a Ha]. exists a. now rewrite Ha, log_arm.
          - destruct (poll_next im bo b0 i2) as [[] bb] eqn:Eb; cbn [w_log].
            + destruct (log_take (arm im bo k w' i2) (in_now i2)) as [a Ha]. exists a. now rewrite Ha, log_arm.
            + now eexists.
            + now eexists.
            + exists []. now rewrite app_nil_r.
          - destruct (log_take (arm im bo k w' i2) (in_now i2)) as [a Ha]. exists a. now rewrite Ha, log_arm.
          - destruct (log_take (arm im bo k w' i2) (in_now i2)) as [a Ha]. exists a. now rewrite Ha, log_arm. }
        destruct X as [add' X]. exists (Set_gate (Limited 1) (in_now i1) :: add ++ add').
        rewrite X, E, <- app_assoc. split; [reflexivity|]. eexists. left. reflexivity.
      + destruct (run_waiting _ i2 s b' Ep' S2) as [[add' E']|(add' & b'' & d' & _ & Ep'' & Hd' & Hlt' & Hs')].
        * exists (add ++ Set_gate (Limited 1) (in_now i2) :: add'). rewrite E', E, <- app_assoc.
          split; [reflexivity|]. eexists. apply in_or_app. right. left. reflexivity.
        * exfalso. assert (d <= in_now i1 + bo_max bo).
          { destruct Hs as [Hs|Hs]; [|exact Hs]. specialize (A d Hs). lia. }
          set (w' := run_task im bo k w i1 true) in *. clearbody w'.
          unfold run_task in Ep''. cbn [orb] in Ep''. unfold timer in Ep''. rewrite Ep' in Ep''.
          unfold poll_next, poll_sleep in Ep''. rewrite Hd in Ep''.
          replace (d <=? in_now i2) with true in Ep'' by lia. discriminate Ep''.
    - destruct A as [[n A] _]. congruence.
    - congruence.
  Qed.
End Probe.
