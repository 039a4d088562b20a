(** C54: the counters of connections and bytes *)
From Coq Require Import String List NArith.
From Verif Require Import ConnMetricsModel ConnMetricsSpec ConnMetricsProofs.
Import ListNotations.
Open Scope N_scope.

(** The total of connections is the number that were opened... *)
Theorem C54_opened : forall t0 h s, run t0 h s -> open_total (counters s) = N.of_nat (opened h) mod 2 ^ 64.
Proof. exact run_opened. Qed.
Print Assumptions C54_opened.

(** ...the gauge is the number of those that have neither failed nor been dropped... *)
Theorem C54_open : forall t0 h s, run t0 h s -> open_connections (counters s) = N.of_nat (length (filter (still_open h) (ids h))) mod 2 ^ 64.
Proof. exact run_open. Qed.
Print Assumptions C54_open.

(** ...and for each error, the total of closed connections is the number of those that ended with it. *)
Theorem C54_closed : forall t0 h s e, run t0 h s -> close_total (counters s) e = N.of_nat (length (filter (ended_with h e) (ids h))) mod 2 ^ 64.
Proof. exact run_closed. Qed.
Print Assumptions C54_closed.

(** The bytes are those that were read from and written to connections before they failed. *)
Theorem C54_bytes : forall t0 h s, run t0 h s ->
  read_bytes (counters s) = sum (bytes_read h) (ids h) mod 2 ^ 64 /\ write_bytes (counters s) = sum (bytes_written h) (ids h) mod 2 ^ 64.
Proof. exact run_bytes. Qed.
Print Assumptions C54_bytes.

(** A connection that is dropped has ended, and what ended a connection first is what it ended with. *)
Theorem C54_dropped : forall h id t, In (Drop id t) h -> still_open h id = false.
Proof. exact dropped_ended. Qed.
Print Assumptions C54_dropped.
Theorem C54_once : forall h h' id e, ending h id = Some e -> ending (h ++ h') id = Some e.
Proof. exact ending_kept. Qed.
Print Assumptions C54_once.

(** Whatever changes the counters sets the time of their last update. *)
Theorem C54_updated : forall s i s', step s i = Some s' -> counters s' = counters s \/ last_update (counters s') = time i.
Proof. exact step_updated. Qed.
Print Assumptions C54_updated.

(** ** Examples *)
Fixpoint go (s : state) (l : list input) : option state :=
  match l with [] => Some s | i :: l => match step s i with Some s => go s l | None => None end end.
Lemma go_run : forall t0 l s pre s', run t0 pre s -> go s l = Some s' -> run t0 (pre ++ l) s'.
Proof.
  induction l as [|i l IH]; intros s pre s' R E; cbn in E.
  - injection E as <-. rewrite app_nil_r. exact R.
  - destruct (step s i) as [s1|] eqn:S1; [|discriminate].
    replace (pre ++ i :: l) with ((pre ++ [i]) ++ l) by (rewrite <- app_assoc; reflexivity).
    apply (IH s1); [|exact E]. econstructor; eassumption.
Qed.
(** Three connections: one is reset by its peer while it is read, one is dropped, one stays *)
Definition demo : list input :=
  [Open 1; Open 2; Io 0 Read (Done 100) 3; Io 1 Write (Done 7) 4; Io 1 Read Pending 4; Io 1 Other (Failed true (Some 11)) 5; Open 5;
   Io 0 Read (Failed false (Some 104)) 6; Io 0 Write (Done 50) 7; Io 1 Read (Done 0) 8; Io 0 Write (Failed false (Some 32)) 8; Drop 1 9; Drop 0 10].
Example C54_demo : exists s, run 0 demo s /\ open_total (counters s) = 3 /\ open_connections (counters s) = 1 /\
  read_bytes (counters s) = 100 /\ write_bytes (counters s) = 7 /\
  close_total (counters s) (Some 104) = 1 /\ close_total (counters s) (Some 32) = 0 /\ close_total (counters s) None = 1 /\ last_update (counters s) = 9.
Proof. eexists. split; [eapply (go_run 0 demo (init 0) []); [exact (run_init 0)|vm_compute; reflexivity]|vm_compute; repeat split]. Qed.
Example C54_demo_endings : ending demo 0 = Some (Some 104) /\ ending demo 1 = Some None /\ ending demo 2 = None /\ In (Drop 1 9) demo.
Proof. vm_compute. tauto. Qed.

(** That all bytes are counted is wrong: what is written to a connection after a read of it failed is not (and it counts as closed while it is in use). *)
Theorem C54_all_bytes_refuted : exists h s, run 0 h s /\ In (Io 0 Write (Done 50) 7) h /\ (forall t, ~ In (Drop 0 t) h) /\
  write_bytes (counters s) = 0 /\ open_connections (counters s) = 0.
Proof.
  exists [Open 1; Io 0 Read (Failed false (Some 104)) 6; Io 0 Write (Done 50) 7]. eexists.
  split; [eapply (go_run 0 [Open 1; Io 0 Read (Failed false (Some 104)) 6; Io 0 Write (Done 50) 7] (init 0) []); [exact (run_init 0)|vm_compute; reflexivity]|].
  split; [right; right; left; reflexivity|]. split; [|vm_compute; split; reflexivity].
  intros t [X|[X|[X|[]]]]; discriminate.
Qed.
Print Assumptions C54_all_bytes_refuted.
