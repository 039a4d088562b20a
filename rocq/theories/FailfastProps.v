(** C22 *)
From Coq Require Import List NArith Bool.
From Verif Require Import FailfastModel FailfastSpec FailfastProofs.
Import ListNotations.
Open Scope N_scope.

(** For any sequence [es] of readiness polls, of the task's steps and of calls. *)

(** A request fails fast only if the service entered failfast when the inner service had
    been pending at every poll for at least the timeout, counted from the first of
    them, and no `poll_ready` has since found that the inner service became ready. *)
Theorem C22_fails_only : forall timeout gated es a b,
  f_log (run timeout gated es) = a ++ Called Failed_fast :: b ->
  exists before t0 t since, a = before ++ Entered t :: since /\ pending_since t0 before /\ t0 + timeout <= t /\
    (forall u, ~ In (Entered u) since) /\
    (forall ok s1 s2, since = s1 ++ Finished ok :: s2 -> ~ In Checked s2).
Proof. exact fails_fast_only. Qed.
Print Assumptions C22_fails_only.

(** Everything `poll_ready` and `call` answer is what [entry_ok] says. *)
Theorem C22_answers : forall timeout gated es a e b,
  f_log (run timeout gated es) = a ++ e :: b -> entry_ok a e.
Proof. exact entries_ok. Qed.
Print Assumptions C22_answers.

(** The gate is shut exactly while the service is in failfast and its task has not seen
    the inner service ready. *)
Theorem C22_gate : forall timeout es,
  shut false (f_log (run timeout true es)) = true <-> blocked (f_log (run timeout true es)).
Proof. exact gate_holds. Qed.
Print Assumptions C22_gate.

(** Once the task sees it ready, the next `poll_ready` and request use it; *)
Theorem C22_recovers : forall timeout gated es t1 t2 r2 now r3 r4 f bg,
  ~ dropped es -> blocked (f_log (run timeout gated es)) ->
  f_log (run timeout gated (es ++ [Task t1 (Ready_ true); Task t2 r2; Poll now r3 r4 f bg; Call])) =
  f_log (run timeout gated es) ++ [Inner t1 (Ready_ true)] ++ (if gated then [Gate_open] else []) ++
    [Finished true; Asked now; Checked; Answer (Ready_ true); Called Forwarded].
Proof. exact recovers. Qed.
Print Assumptions C22_recovers.
(** and outside failfast a ready inner service gets the request. *)
Theorem C22_forwards : forall timeout gated es now r2 f bg,
  ~ dropped es -> mode_of (f_log (run timeout gated es)) = Fine ->
  f_log (run timeout gated (es ++ [Poll now (Ready_ true) r2 f bg; Call])) =
  f_log (run timeout gated es) ++ [Asked now; Inner now (Ready_ true); Answer (Ready_ true); Called Forwarded].
Proof. exact forwards. Qed.
Print Assumptions C22_forwards.

(** And when the timeout has passed, requests do fail fast, and the gate is shut. *)
Theorem C22_fails_after : forall timeout gated es t0 now r2,
  ~ dropped es -> mode_of (f_log (run timeout gated es)) = Fine ->
  pending_since t0 (f_log (run timeout gated es)) -> t0 + timeout <= now ->
  f_log (run timeout gated (es ++ [Poll now Pending_ r2 true None; Call])) =
  f_log (run timeout gated es) ++ [Asked now; Inner now Pending_; Entered now] ++
    (if gated then [Gate_shut] else []) ++ [Checked; Answer (Ready_ true); Called Failed_fast].
Proof. exact fails_after. Qed.
Print Assumptions C22_fails_after.

(** Pending from 5 on; at 15 the service fails fast; the task sees the inner service
    ready at 20, and until `poll_ready` looks at it, requests still fail. *)
Definition story : list event :=
  [Poll 1 (Ready_ true) Pending_ true None; Call; Poll 5 Pending_ Pending_ true None; Poll 9 Pending_ Pending_ true None;
   Poll 15 Pending_ Pending_ true None; Call; Task 17 Pending_].
Definition story' : list event := [Task 20 (Ready_ true); Call; Task 21 Pending_; Call; Poll 22 Pending_ Pending_ false None; Call].
Example C22_demo : f_log (run 10 true story) =
  [Asked 1; Inner 1 (Ready_ true); Answer (Ready_ true); Called Forwarded;
   Asked 5; Inner 5 Pending_; Inner 5 Pending_; Answer Pending_; Asked 9; Inner 9 Pending_; Answer Pending_;
   Asked 15; Inner 15 Pending_; Entered 15; Gate_shut; Checked; Answer (Ready_ true); Called Failed_fast; Inner 17 Pending_] /\
  f_log (run 10 true (story ++ story')) = f_log (run 10 true story) ++
  [Inner 20 (Ready_ true); Gate_open; Called Failed_fast; Finished true; Called Failed_fast;
   Asked 22; Checked; Answer (Ready_ true); Called Forwarded] /\
  ~ dropped story /\ blocked (f_log (run 10 true story)).
Proof.
  split; [reflexivity|]. split; [reflexivity|]. split.
  - intros H. cbn in H. intuition discriminate.
  - eexists [_;_;_;_;_;_;_;_;_;_;_;_;_], 15, _. split; [reflexivity|].
    split; [intros u H; cbn in H; intuition discriminate|intros r [<-|[]]; reflexivity].
Qed.
Example C22_waiting_demo : let l := f_log (run 10 true [Poll 5 Pending_ Pending_ true None]) in
  mode_of l = Fine /\ pending_since 5 l.
Proof.
  split; [reflexivity|]. exists [Asked 5], [Inner 5 Pending_; Answer Pending_]. split; [reflexivity|].
  split; [left; reflexivity|intros r [<-|[]]; reflexivity].
Qed.
(** The task is aborted when the service is dropped in failfast: the gate in front then
    stays shut, whatever the inner service does. *)
Theorem C22_gate_reopens_refuted : exists es, dropped es /\
  forall fs, shut false (f_log (run 10 true (es ++ fs))) = true.
Proof.
  exists (story ++ [Drop]). split; [vm_compute; tauto|]. intros fs.
  rewrite run_app, dropped_log; reflexivity.
Qed.
Print Assumptions C22_gate_reopens_refuted.
