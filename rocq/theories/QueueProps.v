(** C24: the queue in front of a balancer *)
From Coq Require Import String List Arith NArith ZArith.
From Verif Require Import QueueModel QueueSpec QueueProofs.
Import ListNotations.

(** Requests are answered once each, in the order they were accepted; at most [capacity] of them and
    one more wait; when the worker ends, none does. *)
Theorem C24_fifo : forall capacity timeout l s, run capacity timeout l s ->
  exists rest, accepted l = answered l ++ rest /\ NoDup (accepted l) /\ length rest <= S capacity /\ (stopped l = true -> rest = []).
Proof. exact fifo. Qed.
Print Assumptions C24_fifo.

(** At any time all requests can be answered within the failfast timeout, whatever the pool does. *)
Theorem C24_answered : forall capacity timeout l s, run capacity timeout l s ->
  exists is l' s', steps capacity timeout s is l' s' /\ forallb alone is = true /\ (now s' <= now s + timeout)%N /\
    forall m, In m (accepted l) -> In m (answered (l ++ l')).
Proof. exact answerable. Qed.
Print Assumptions C24_answered.

(** A request fails fast only when the pool has not been ready for at least the timeout. *)
Theorem C24_failfast : forall capacity timeout l1 m t l2 s, run capacity timeout (l1 ++ Failed m Fail_fast t :: l2) s ->
  exists t0 l3 l4, (t0 + timeout <= t)%N /\ l1 = l3 ++ Unavailable t0 :: l4 /\ forall t', ~ In (Available t') l4.
Proof. exact failed_fast. Qed.
Print Assumptions C24_failfast.

(** The gate is shut from the time the first request fails fast to the time the pool is found to be ready. *)
Theorem C24_gate : forall capacity timeout l s, run capacity timeout l s ->
  (gate_shut s = true <-> exists l1 m t l2, l = l1 ++ Failed m Fail_fast t :: l2 /\ forall t', ~ In (Available t') l2).
Proof. exact gate_is. Qed.
Print Assumptions C24_gate.

(** Once a client was told of an error that ends the pool, all are told the same, and no request is dispatched or fails fast. *)
Theorem C24_terminal : forall capacity timeout l1 x l2 e s, run capacity timeout (l1 ++ x :: l2) s -> tells x e -> Forall (same_error e) l2.
Proof. exact same_failure. Qed.
Print Assumptions C24_terminal.

(** A client that passes the gate when the channel is closed is told that error. *)
Theorem C24_told : forall capacity timeout l s, run capacity timeout l s -> closed s = true -> gate_shut s = false -> clients s = true ->
  exists e, step capacity timeout s Poll_ready = Next s [Rejected e (now s)] /\ forall x e', In x l -> tells x e' -> e' = e.
Proof. exact told. Qed.
Print Assumptions C24_told.

Theorem C24_no_panic : forall capacity timeout l s i, run capacity timeout l s -> step capacity timeout s i <> Panic.
Proof. exact no_panic. Qed.
Print Assumptions C24_no_panic.

(** The gauge of the queue's length, once the clients have counted what they sent, is right. *)
Theorem C24_length : forall capacity timeout l s, run capacity timeout l s -> (length_gauge s + Z.of_nat (uncounted s) = Z.of_nat (length (queue s)))%Z.
Proof. exact length_is. Qed.
Print Assumptions C24_length.

(* --- examples *)
Fixpoint go (capacity : nat) (timeout : N) (s : state) (l : list input) : option (state * list event) :=
  match l with
  | [] => Some (s, [])
  | i :: l => match step capacity timeout s i with Next s e => option_map (fun x => (fst x, e ++ snd x)) (go capacity timeout s l) | _ => None end
  end.
Lemma go_run : forall capacity timeout l s pre s' es, run capacity timeout pre s -> go capacity timeout s l = Some (s', es) -> run capacity timeout (pre ++ es) s'.
Proof.
  intros capacity timeout. induction l as [|i l IH]; intros s pre s' es R E; cbn in E.
  - injection E as <- <-. rewrite app_nil_r. exact R.
  - destruct (step capacity timeout s i) as [s1 e| |] eqn:S1; try discriminate. destruct (go capacity timeout s1 l) as [[s2 es2]|] eqn:G; [|discriminate]. cbn in E. injection E as <- <-.
    rewrite app_assoc. exact (IH _ _ _ _ (run_step _ _ _ _ _ _ _ R S1) G).
Qed.
Definition demo : list input :=
  [Poll_ready; Poll_ready; Send; Count; Send; Count; Recv; Pool_ready; Poll_ready; Poll_ready; Send; Recv; Pool_pending; Count; Time 5; Pool_pending; Recv; Pool_pending;
   Poll_ready; Pool_ready; Poll_ready; Send; Recv; Ready_error 9; Send; Continue; Poll_ready; Continue; Poll_ready; Recv; Release; Recv; Poll_ready].
Example C24_demo : option_map snd (go 3 5 init demo) =
  Some [Accepted 0 0; Accepted 1 0; Available 0; Dispatched 0 0; Accepted 2 0; Unavailable 0; Failed 1 Fail_fast 5; Failed 2 Fail_fast 5;
        Available 5; Accepted 3 5; Available 5; Failed 3 (Terminal 9) 5; Accepted 4 5; Rejected 9 5; Failed 4 (Terminal 9) 5; Stopped; Rejected 9 5].
Proof. vm_compute. reflexivity. Qed.
Example C24_told_example : exists l s, run 3 5 l s /\ closed s = true /\ gate_shut s = false /\ clients s = true.
Proof. do 2 eexists. split; [eapply (go_run 3 5 demo init []); [exact (run_init 3 5)|vm_compute; reflexivity]|vm_compute; repeat split]. Qed.

(** If discovery fails while the gate is shut, the gate is never opened again: clients that wait there are never told. *)
Theorem C24_told_refuted : exists l s, run 1 5 l s /\ stopped l = true /\ closed s = true /\ clients s = true /\
  forall is l' s', steps 1 5 s is l' s' -> gate_shut s' = true /\ forall e t m, ~ In (Rejected e t) l' /\ ~ In (Accepted m t) l'.
Proof.
  do 2 eexists. split; [eapply (go_run 1 5 [Poll_ready; Send; Count; Recv; Pool_pending; Time 5; Pool_pending; Discovery_error 7; Continue; Continue; Recv] init []); [exact (run_init 1 5)|vm_compute; reflexivity]|].
  split; [reflexivity|]. split; [reflexivity|]. split; [reflexivity|]. intros is l' s' H.
  destruct (stuck _ _ _ _ _ _ H eq_refl eq_refl eq_refl) as [_ [G [_ N]]]. split; [exact G|exact N].
Qed.
Print Assumptions C24_told_refuted.
