(** C152: services that are built when they are first used. *)
From Coq Require Import List Arith.
From Verif Require Import LazyModel LazySpec LazyProofs.
Import ListNotations.

(** However its handles are cloned, polled and called, and by however many tasks, at most one service is built, for the target that was
    given; building is not tried again; and whatever is polled or called is that service, after it was built. *)
Theorem C152_once : forall {T} (t : T) ops, let l := w_log (run t ops) in
  (filter builds l = [] \/ filter builds l = [Made t 0] \/ filter builds l = [Making_panics]) /\
  (forall before after h s, l = before ++ Polled h s :: after \/ l = before ++ Called h s :: after -> s = 0 /\ In (Made t 0) before).
Proof. exact @once. Qed.
Print Assumptions C152_once.
Example C152_case_once : w_log (run true [Clone 0; Call 1; Poll 1 false; Poll 0 false; Clone 1; Call 2; Call 1]) =
  [Handle_panics 1; Made true 0; Polled 1 0; Polled 0 0; Called 2 0; Called 1 0].
Proof. reflexivity. Qed.

(** Nothing is built exactly as long as no handle is polled. *)
Theorem C152_lazily : forall {T} (t : T) ops, filter builds (w_log (run t ops)) = [] <-> unused 1 ops.
Proof. exact @lazily. Qed.
Print Assumptions C152_lazily.
Example C152_case_lazily : unused 1 [Clone 0; Clone 1; Call 0; Poll 7 false] /\ ~ unused 1 [Clone 0; Poll 1 false].
Proof.
  split.
  - cbn. split; [intros (h & p & [=] & _)|]. split; [intros (h & p & [=] & _)|]. split; [intros (h & p & [=] & _)|].
    split; [|exact I]. intros (h & p & [= <- <-] & L). apply Nat.ltb_lt in L. discriminate L.
  - cbn. intros (_ & H & _). apply H. exists 1, false. split; [reflexivity|apply le_n].
Qed.

(** If building does not panic, every poll of a handle gets to the service, which is built then if it was not; and a handle that was
    polled can be called, whatever was done in between. *)
Theorem C152_ready : forall {T} (t : T) ops h, calm ops -> h < handles ops ->
  (exists l, w_log (run t (ops ++ [Poll h false])) = w_log (run t ops) ++ l ++ [Polled h 0] /\ (l = [] \/ l = [Made t 0])) /\
  (forall more, exists l, w_log (run t (ops ++ Poll h false :: more ++ [Call h])) = l ++ [Called h 0]).
Proof. exact @ready. Qed.
Print Assumptions C152_ready.
Example C152_case_ready : calm [Clone 0; Poll 0 false; Clone 1] /\ handles [Clone 0; Poll 0 false; Clone 1] = 3.
Proof. split; [intros h [H|[H|[H|[]]]]; discriminate H|reflexivity]. Qed.

(** After a panic while it was built, every poll of every handle panics, *)
Theorem C152_broken : forall {T} (t : T) ops h, In Making_panics (w_log (run t ops)) -> h < handles ops -> forall panics,
  w_log (run t (ops ++ [Poll h panics])) = w_log (run t ops) ++ [Handle_panics h].
Proof. exact @broken. Qed.
Print Assumptions C152_broken.
Example C152_case_broken : In Making_panics (w_log (run 5 [Poll 0 true; Clone 0])).
Proof. left. reflexivity. Qed.
(** so the arm that is `unreachable!` (lazy.rs:79) can be reached: polls do not get to a service whenever building would not panic. *)
Theorem C152_unreachable_refuted : ~ forall (t : nat) ops h, h < handles ops ->
  exists l, w_log (run t (ops ++ [Poll h false])) = l ++ [Polled h 0].
Proof.
  intros H. destruct (H 5 [Poll 0 true] 0 (le_n 1)) as (l & E). cbn in E.
  change [Making_panics; Handle_panics 0] with ([Making_panics] ++ [@Handle_panics nat 0]) in E. apply app_inj_tail in E as [_ E]. discriminate E.
Qed.
Print Assumptions C152_unreachable_refuted.
