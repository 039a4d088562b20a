(** C44: discovery that recovers *)
From Coq Require Import String List NArith.
From Verif Require Import RecoverModel RecoverSpec RecoverProofs.
Import ListNotations.

(** From the first update of the current connection that is not a removal on, the endpoints the client has are
    those that this connection alone announced. *)
Theorem C44_current : forall l m before after, run l m -> l = before ++ Connection :: after -> ~ In Connection after ->
  existsb informative after = true -> client l = announced after.
Proof. exact current. Qed.
Print Assumptions C44_current.

(** Until then the client has the endpoints it had when the connection was made ... *)
Theorem C44_kept : forall l m before after, run l m -> l = before ++ Connection :: after -> ~ In Connection after ->
  existsb informative after = false -> client l = client before.
Proof. exact kept. Qed.
Print Assumptions C44_kept.

(** ... and between connections those it had when the last one was lost, and none before the first. *)
Theorem C44_lost : forall l m before after, run l m -> l = before ++ Lost :: after -> ~ In Connection after -> client l = client before.
Proof. exact lost_keeps. Qed.
Print Assumptions C44_lost.

Theorem C44_nothing : forall l m, run l m -> ~ In Connection l -> client l = [].
Proof. exact nothing. Qed.
Print Assumptions C44_nothing.

(** Between an attempt to resolve and the next one a backoff lets it continue, exactly once. *)
Theorem C44_paced : forall l m a b c, run l m -> l = a ++ Resolving :: b ++ Resolving :: c -> ~ In Resolving b -> ticks b = 1.
Proof. exact paced. Qed.
Print Assumptions C44_paced.

(** While no attempt succeeds the same backoff goes on, unless it is over ... *)
Theorem C44_same_backoff : forall l m a i b j more c, run l m -> l = a ++ Ticked i true :: b ++ Ticked j more :: c ->
  (forall k x, ~ In (Ticked k x) b) -> ~ In Connection b -> j = i.
Proof. exact same_backoff. Qed.
Print Assumptions C44_same_backoff.

(** ... and once one succeeds, or the backoff is over, the next failure starts a new one.  That is so although
    the connection may have failed at once: a peer that accepts and then fails every connection never gets a
    longer pause. *)
Theorem C44_new_backoff : forall l m a i x b j more c, run l m -> l = a ++ Ticked i x :: b ++ Ticked j more :: c ->
  (forall k x, ~ In (Ticked k x) b) -> x = false \/ In Connection b -> forall y, ~ In (Ticked j y) (a ++ [Ticked i x]).
Proof. exact new_backoff. Qed.
Print Assumptions C44_new_backoff.

(** A discovery that fails and recovers: it connects, learns 1 and 2, is lost, fails to connect once, connects and
    is told a removal and then 3. *)
Fixpoint steps (m : machine) (l : list answer) : option (list event * machine) :=
  match l with
  | [] => Some ([], m)
  | a :: l => match step m a with
              | None => None
              | Some (m', e) => match steps m' l with None => None | Some (e', m'') => Some (e ++ e', m'') end
              end
  end.
Lemma steps_run : forall l m e m' pre, run pre m -> steps m l = Some (e, m') -> run (pre ++ e) m'.
Proof.
  induction l as [|a l IH]; intros m e m' pre R E; cbn in E.
  - injection E as <- <-. rewrite app_nil_r. exact R.
  - destruct (step m a) as [[m1 e1]|] eqn:S; [|discriminate]. destruct (steps m1 l) as [[e2 m2]|] eqn:T; [|discriminate]. injection E as <- <-.
    rewrite app_assoc. exact (IH _ _ _ _ (run_step _ _ _ _ _ R S) T).
Qed.
Definition story : list answer :=
  [Connect true; Stream_update (Add [(1, 10); (2, 20)]%N); Stream_failed; Recover true; Tick true; Connect false; Recover true; Tick true;
   Connect true; Stream_update (Remove [1%N]); Stream_update (Add [(3, 30)]%N); Stream_update (Remove [7%N]); Stream_failed; Recover true; Tick false; Connect false].
Definition happened : list event :=
  [Connection; Received (Add [(1, 10); (2, 20)]%N); Sent (Reset [(1, 10); (2, 20)]%N); Lost; Ticked 0 true; Resolving; Ticked 0 true; Resolving;
   Connection; Received (Remove [1%N]); Received (Add [(3, 30)]%N); Sent (Reset [(3, 30)]%N); Received (Remove [7%N]); Sent (Remove [7%N]); Lost; Ticked 2 false; Resolving].
Example C44_run_example : run (Resolving :: happened) (Machine (Recovering None) 3).
Proof. exact (steps_run story _ happened _ _ run_init eq_refl). Qed.
Example C44_current_example :
  client (Resolving :: happened) = [(3, 30)]%N /\ announced (skipn 9 happened) = [(3, 30)]%N /\
  existsb informative (skipn 9 happened) = true /\ existsb informative (firstn 1 (skipn 9 happened)) = false /\
  client (Resolving :: firstn 10 happened) = [(2, 20); (1, 10)]%N.
Proof. repeat split. Qed.
