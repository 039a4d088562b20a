(** C125-C127: services that follow a watch, services that are not waited for, and the counters of stacks. *)
From Coq Require Import List NArith Bool Arith Lia.
From Verif Require Import SwapModel SwapSpec SwapProofs SwapTrackProofs.
Import ListNotations.
Open Scope nat_scope.

(* ---- C125 ---- *)

(** A service of routes 10 is cloned; routes 20 and 30 come before the task takes one; then both clones are polled. *)
Definition two_clones : list (happens nat) :=
  [Cloned 0; Updated 20; Polled 1; Updated 30; Task_takes; Task_sends].
Example C125_case : exists s s', run true (new_service 10 7) two_clones = Some s /\ settled true s /\
  step true s (Polled 1) = Some s' /\ uses s 1 10 /\ uses s' 1 30 /\ uses s' 0 10.
Proof.
  eexists. eexists. split; [vm_compute; reflexivity|]. split; [intros e [-> | [-> | ->]]; reflexivity|].
  split; [reflexivity|]. split; [eexists; split; reflexivity|]. split; eexists; split; reflexivity.
Qed.

(** As soon as the background task has nothing left to do, whoever polls a clone uses what was made from the last value of the
    source; after the source's sender is gone, this needs a watch whose receivers are told of a value that they have not
    seen. *)
Theorem C125_latest : forall V unseen_first (v : V) n es s s' i,
  run unseen_first (new_service v n) es = Some s -> settled unseen_first s ->
  (In Source_closed es -> unseen_first = true) ->
  step unseen_first s (Polled i) = Some s' -> uses s' i (last (values v es) v).
Proof. exact (@latest). Qed.
Print Assumptions C125_latest.

(** Without that, the last value before the sender is dropped never reaches a clone that was not polled in between. *)
Theorem C125_lost_refuted : ~ forall (es : list (happens nat)) s s' i,
  run false (new_service 10 0) es = Some s -> settled false s ->
  step false s (Polled i) = Some s' -> uses s' i (last (values 10 es) 10).
Proof.
  intros H. destruct (H [Updated 20; Source_closed; Task_takes; Task_sends; Task_returns]
    (Watched 20 1 true Returned 20 1 [Some (Clone 0 10)]) (Watched 20 1 true Returned 20 1 [Some (Clone 0 10)]) 0) as (c & G & E).
  - reflexivity.
  - intros e [-> | [-> | ->]]; reflexivity.
  - reflexivity.
  - injection G as <-. discriminate.
Qed.
Print Assumptions C125_lost_refuted.

(** The task has nothing left to do after at most four steps, whatever has happened. *)
Theorem C125_settles : forall V unseen_first (s : watched V),
  (exists ts s', Forall of_task ts /\ run unseen_first s ts = Some s' /\ settled unseen_first s') /\
  forall ts s', Forall of_task ts -> run unseen_first s ts = Some s' -> length ts <= 4.
Proof. exact (fun V uf s => conj (settles uf s) (fun ts s' => task_bounded uf ts s s')). Qed.
Print Assumptions C125_settles.
Example C125_settles_case : run true (Watched 30 2 true (Makes 1 20) 10 0 [Some (Clone 0 10)])
  [Task_sends; Task_takes; Task_sends; Task_returns] = Some (Watched 30 2 true Returned 30 2 [Some (Clone 0 10)]).
Proof. reflexivity. Qed.

(** What a clone uses was made from a value of the source, and it never goes back to an older one. *)
Theorem C125_forward : forall V unseen_first (v : V) n es es' s s' i x y,
  run unseen_first (new_service v n) es = Some s -> run unseen_first s es' = Some s' ->
  uses s i x -> uses s' i y ->
  exists p p', p <= p' /\ nth_error (values v (es ++ es')) p = Some x /\ nth_error (values v (es ++ es')) p' = Some y.
Proof. exact (@forward). Qed.
Print Assumptions C125_forward.
Example C125_forward_case : exists s s', run true (new_service 10 7) [Updated 20; Task_takes; Task_sends; Polled 0; Updated 30] = Some s /\
  run true s [Task_takes; Task_sends; Polled 0] = Some s' /\ uses s 0 20 /\ uses s' 0 30.
Proof.
  eexists. eexists. split; [vm_compute; reflexivity|]. split; [vm_compute; reflexivity|]. split; eexists; split; reflexivity.
Qed.

(** Between its polls, nothing changes what a clone uses: a request goes to the service that was found ready. *)
Theorem C125_steady : forall V unseen_first (s : watched V) e s' i x,
  step unseen_first s e = Some s' -> e <> Polled i -> e <> Dropped i -> uses s i x -> uses s' i x.
Proof. exact (@steady). Qed.
Print Assumptions C125_steady.

(** A new clone uses what the one uses that it was made of. *)
Theorem C125_cloned : forall V unseen_first (s s' : watched V) i x,
  step unseen_first s (Cloned i) = Some s' -> uses s i x -> uses s' (length (w_clones s)) x.
Proof. exact (fun V uf s s' i x => copied uf s s' i x). Qed.
Print Assumptions C125_cloned.

(* ---- C126 ---- *)

(** The primary is pending from 5 on; the timer is 10 long; at 20 it is ready again. *)
Definition some_polls : list poll :=
  [Poll 0 Ready Failed Failed; Poll 5 Pending Pending Ready; Poll 14 Pending Ready Ready; Poll 15 Pending Ready Ready].
Example C126_case : outage some_polls (Some 5%N) /\ in_time 0 some_polls /\
  polls 10 Primary some_polls = (Secondary, Some Ready) /\
  polls 10 Primary (some_polls ++ [Poll 20 Ready Pending Pending]) = (Primary, Some Ready).
Proof.
  split; [|split; [cbn; repeat split; discriminate|split; reflexivity]].
  apply (goes_on [Poll 0 Ready Failed Failed; Poll 5 Pending Pending Ready; Poll 14 Pending Ready Ready] (Poll 15 Pending Ready Ready) 5);
    [|reflexivity].
  apply (goes_on [Poll 0 Ready Failed Failed; Poll 5 Pending Pending Ready] (Poll 14 Pending Ready Ready) 5); [|reflexivity].
  apply (starts [Poll 0 Ready Failed Failed] (Poll 5 Pending Pending Ready)); [|reflexivity|reflexivity].
  apply (fine [] (Poll 0 Ready Failed Failed)); [constructor|discriminate].
Qed.

(** When the primary is ready, or has failed, the answer is the primary's, and so is the request, however long it was pending
    before. *)
Theorem C126_primary : forall switch_after from ps p, in_time from (ps ++ [p]) -> outage (ps ++ [p]) None ->
  polls switch_after Primary (ps ++ [p]) = (Primary, Some (said p)) /\ said p <> Pending.
Proof. exact primary_answers. Qed.
Print Assumptions C126_primary.

(** When every poll since [t] has found the primary pending, the answer is the secondary's from [t + switch_after] on, and
    pending until then. *)
Theorem C126_secondary : forall switch_after from ps p t, in_time from (ps ++ [p]) -> outage (ps ++ [p]) (Some t) ->
  if (t + switch_after <=? p_at p)%N
  then polls switch_after Primary (ps ++ [p]) = (Secondary, Some (p_other p))
  else exists s, polls switch_after Primary (ps ++ [p]) = (s, Some Pending).
Proof. exact secondary_answers_shown. Qed.
Print Assumptions C126_secondary.

(** One of the two is the case, always. *)
Theorem C126_total : forall ps, exists o, outage ps o.
Proof. exact outage_total. Qed.
Print Assumptions C126_total.

(** After a poll that says that it is ready, a request never panics. *)
Theorem C126_no_panic : forall switch_after ps s,
  polls switch_after Primary ps = (s, Some Ready) -> exists b, call s = Some b.
Proof. exact answered_ready. Qed.
Print Assumptions C126_no_panic.

(** It goes to the primary when the primary answered, and to the secondary when the primary has been pending. *)
Theorem C126_requests : forall switch_after from ps s o, in_time from ps -> outage ps o ->
  polls switch_after Primary ps = (s, Some Ready) ->
  call s = Some (match o with None => true | Some _ => false end).
Proof. exact goes_to. Qed.
Print Assumptions C126_requests.

(** But time also passes when nobody polls: that the primary was pending for as long as that is not known.  Two polls an hour
    apart send a request past a primary that may have been ready all along. *)
Theorem C126_gap_refuted : ~ forall switch_after ps p q,
  (0 < switch_after)%N -> in_time 0 (ps ++ [p; q]) ->
  fst (polls switch_after Primary (ps ++ [p; q])) = Secondary ->
  fst (polls switch_after Primary (ps ++ [p])) = Secondary \/ (p_at q < p_at p + switch_after)%N.
Proof.
  intros H. destruct (H 1000%N [] (Poll 0 Pending Pending Ready) (Poll 3600000 Pending Pending Ready)) as [E|E];
    [lia|cbn; repeat split; discriminate|reflexivity|discriminate|vm_compute in E; discriminate].
Qed.
Print Assumptions C126_gap_refuted.

(* ---- C127 ---- *)

(** A service is created and cloned; the first is polled at 0, 1.5 ms and 4 ms; both are dropped; another one is created. *)
Definition some_tracks : list tracks :=
  [Created; Copied 0; Asked 0 0 Pending; Asked 0 1500000 Pending; Asked 1 2000000 Failed; Asked 0 4000000 Ready;
   Drop_entered 0; Drop_left 0; Drop_entered 1; Drop_left 1; Created].
Example C127_case : serial some_tracks /\
  (exists k, track_all untracked some_tracks = Some k /\ k_metrics k = Metrics 2 1 1 2 3 1 /\ ~ lives k 0 /\ lives k 1) /\
  waits some_tracks [1500000; 2500000]%N.
Proof.
  split; [|split].
  - repeat (first [apply serial_nil | apply serial_drop | apply serial_other; [intros; split; discriminate|]]).
  - eexists. split; [vm_compute; reflexivity|]. split; [reflexivity|]. split.
    + intros (i & t & H & F). destruct i as [|[|[|i]]]; cbn in H; inversion H; subst; [discriminate|destruct i; discriminate].
    + exists 2, (Tracked 1 None false). split; reflexivity.
  - set (a := [Created; Copied 0]). set (b := a ++ [Asked 0 0 Pending]). set (c := b ++ [Asked 0 1500000 Pending]).
    set (d := c ++ [Asked 1 2000000 Failed]). set (e := d ++ [Asked 0 4000000 Ready]).
    change some_tracks with (((((e ++ [Drop_entered 0]) ++ [Drop_left 0]) ++ [Drop_entered 1]) ++ [Drop_left 1]) ++ [Created]).
    do 5 (apply other_wait; [|discriminate]).
    assert (A : forall i, blocked i a None).
    { intros i. apply (unchanged i [Created] (Copied 0)); [|discriminate]. apply (unchanged i [] Created); [constructor|discriminate]. }
    assert (C : blocked 0 c (Some 1500000%N)) by apply (found 0 b).
    apply (a_wait d [1500000%N] 0 4000000 Ready 1500000).
    + apply no_wait; [|apply unchanged; [apply unchanged; [apply A|discriminate]|discriminate]].
      apply (a_wait b [] 0 1500000 Pending 0); [|apply (found 0 a)]. apply no_wait; [|apply A].
      apply (other_wait [Created] [] (Copied 0)); [|discriminate]. apply (other_wait [] [] Created); [constructor|discriminate].
    + apply unchanged; [exact C|discriminate].
Qed.

(** The counters of creations and of polls are the numbers of these. *)
Theorem C127_polls : forall es k, track_all untracked es = Some k ->
  m_create (k_metrics k) = (times is_created es mod 2 ^ 64)%N /\
  m_ready (k_metrics k) = (times is_ready es mod 2 ^ 64)%N /\
  m_not_ready (k_metrics k) = (times is_pending es mod 2 ^ 64)%N /\
  m_error (k_metrics k) = (times is_failed es mod 2 ^ 64)%N.
Proof. exact all_counts. Qed.
Print Assumptions C127_polls.

(** When no two services are dropped at the same time, the counter of drops is the number of the services that were created
    and of which no clone is left. *)
Theorem C127_dropped_partial : forall es k, serial es -> track_all untracked es = Some k ->
  exists l, NoDup l /\ (forall f, In f l <-> (N.of_nat f < times is_created es)%N /\ ~ lives k f) /\
    m_drop (k_metrics k) = (N.of_nat (length l) mod 2 ^ 64)%N.
Proof. exact all_dropped. Qed.
Print Assumptions C127_dropped_partial.

(** It never counts a service twice, nor one of which a clone can still be used, whatever happens at the same time. *)
Theorem C127_not_too_many : forall es k, track_all untracked es = Some k ->
  exists l, NoDup l /\ (forall f, In f l -> (N.of_nat f < times is_created es)%N /\ ~ in_use k f) /\
    m_drop (k_metrics k) = (N.of_nat (length l) mod 2 ^ 64)%N.
Proof. exact not_too_many. Qed.
Print Assumptions C127_not_too_many.

(** But when the last two clones are dropped at the same time, each can find that the other one is left, and the drop is never
    counted: the service is shown as live for as long as the proxy runs. *)
Theorem C127_race_refuted : ~ forall es k, track_all untracked es = Some k ->
  exists l, NoDup l /\ (forall f, In f l <-> (N.of_nat f < times is_created es)%N /\ ~ lives k f) /\
    m_drop (k_metrics k) = (N.of_nat (length l) mod 2 ^ 64)%N.
Proof.
  intros H. destruct (H [Created; Copied 0; Drop_entered 0; Drop_entered 1; Drop_left 0; Drop_left 1]
    (Tracking (Metrics 1 0 0 0 0 0) 1 [None; None]) eq_refl) as (l & N & L & D).
  assert (I : In 0 l).
  { apply L. split; [reflexivity|]. intros (i & t & E & _). destruct i as [|[|i]]; cbn in E; try discriminate. destruct i; discriminate. }
  destruct l as [|x [|y l]]; [destruct I|discriminate|].
  assert (X : forall z, In z (x :: y :: l) -> z = 0).
  { intros z Z. apply L in Z as (Z & _). change (times is_created _) with 1%N in Z. lia. }
  inversion N as [|? ? N1 N2]; subst. apply N1. rewrite (X x), (X y) by (cbn; auto). cbn. auto.
Qed.
Print Assumptions C127_race_refuted.

(** The time that services were pending is the sum of what is between a poll that finds one pending and its next poll, each
    rounded down to milliseconds; so, unless it has started again at 2^64, never more than the time itself. *)
Theorem C127_millis : forall es ws k, waits es ws -> track_all untracked es = Some k ->
  m_millis (k_metrics k) = (total (map (fun w => w / 1000000) ws) mod 2 ^ 64)%N /\
  (m_millis (k_metrics k) * 1000000 <= total ws)%N.
Proof. exact time_counted. Qed.
Print Assumptions C127_millis.
Theorem C127_waits : forall es, exists ws, waits es ws.
Proof. exact waits_total. Qed.
Print Assumptions C127_waits.

(** A service that is polled more often than every millisecond is pending for no time at all, however long. *)
Theorem C127_rounding_refuted : forall n : N, exists es ws k,
  waits es ws /\ track_all untracked es = Some k /\ m_millis (k_metrics k) = 0%N /\ total ws = (n * 999999)%N.
Proof. exact rounding. Qed.
Print Assumptions C127_rounding_refuted.
