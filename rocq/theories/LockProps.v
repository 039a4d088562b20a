(** C143: the threads that share an inbound policy do not wait for each other forever. *)
From Coq Require Import List Arith Lia.
From Verif Require Import LockModel LockSpec LockProofs.
Import ListNotations.

(** Whatever any number of threads do with a policy, in any order, one of them can go on, as long
    as no connection is terminated by a change and no request is over the rate limit; *)
Theorem C143_no_deadlock_partial :
  forall workers w, (forall ts t, In ts workers -> In t ts -> ~ nested t) -> reachable workers w ->
    finished w \/ goes_on w.
Proof. exact no_deadlock. Qed.
Print Assumptions C143_no_deadlock_partial.

(** and they can all get to the end. *)
Theorem C143_finishes_partial :
  forall workers w, (forall ts t, In ts workers -> In t ts -> ~ nested t) -> reachable workers w ->
    exists schedule, finished (run w schedule).
Proof. exact finishes. Qed.
Print Assumptions C143_finishes_partial.

(** Nor do they get stuck if the policy is not updated. *)
Theorem C143_no_updates :
  forall workers w, (forall ts, In ts workers -> ~ In Update ts) -> reachable workers w ->
    finished w \/ goes_on w.
Proof. exact no_updates. Qed.
Print Assumptions C143_no_updates.

(** But they do if, while a connection is being terminated or a request limited, the policy is
    updated again: *)
Theorem C143_deadlock_refuted :
  forall workers i j t ts us, nested t -> i <> j -> nth_error workers i = Some (t :: ts) ->
    nth_error workers j = Some (Update :: us) ->
    exists w, reachable workers w /\ wedged i j w.
Proof. exact deadlock. Qed.
Print Assumptions C143_deadlock_refuted.

(** from then on the two threads never do anything, and no other gets to read the policy or to
    update it. *)
Theorem C143_forever :
  forall workers w i j schedule, reachable workers w -> wedged i j w ->
    let w' := run w schedule in
    nth_error (w_threads w') i = nth_error (w_threads w) i /\
    nth_error (w_threads w') j = nth_error (w_threads w) j /\
    (forall m a p, nth_error (w_threads w) m = Some (a :: p) -> a = Read \/ a = Claim ->
       nth_error (w_threads w') m = Some (a :: p)).
Proof. exact forever. Qed.
Print Assumptions C143_forever.

(** This is the only way to get stuck. *)
Theorem C143_only_way :
  forall workers w, reachable workers w -> stuck w -> exists i j, wedged i j w.
Proof. exact only_nested. Qed.
Print Assumptions C143_only_way.

Example C143_ex_simple :
  let workers := [[Connection false; Recheck true; Request Forwarded]; [Update; Update]; [Detect; Request No_route]] in
  (forall ts t, In ts workers -> In t ts -> ~ nested t) /\
  finished (run (start workers) (repeat 0 14 ++ repeat 1 6 ++ repeat 2 6)).
Proof.
  split.
  - intros ts t Hts Ht N. destruct N; cbn in Hts; intuition subst; cbn in Ht; intuition discriminate.
  - intros p. vm_compute. intuition auto.
Qed.
Example C143_ex_stuck :
  let workers := [[Recheck false]; [Update]; [Request Forwarded]] in
  let w := run (start workers) [0; 1] in
  wedged 0 1 w /\ stuck w.
Proof.
  split.
  - split; [reflexivity|]. split; [cbn; lia|]. split; [|now eexists].
    eexists. split; [reflexivity|]. cbn. lia.
  - split.
    + intros F. specialize (F (program_of (Request Forwarded))). discriminate F. cbn. tauto.
    + intros (i & H). destruct i as [|[|[|i]]]; apply H; try reflexivity.
      unfold step. cbn. now destruct i.
Qed.
