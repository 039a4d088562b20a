(** C16, C18, C19 and C49 *)
From Coq Require Import List NArith Bool Lia.
From Verif Require Import BreakerModel BreakerSpec BreakerProofs BreakerKindProofs BreakerProbeProofs.
From Verif Require Import BackoffModel BackoffProofs.
Import ListNotations.
Open Scope N_scope.

(** Any schedule of requests, responses, cancellations and polls, any choice of the
    `select!` branches, any backoff with 0 < max, min <= max. *)
Theorem C16_history : forall im bo cap max t0 es, valid bo -> clock t0 es ->
  exists s,
    history (trips_consecutive max) recovers_consecutive (pause (bo_min bo) (bo_max bo))
      (w_log (run im bo cap (consecutive max) t0 es)) s /\
    w_gate (run im bo cap (consecutive max) t0 es) = gate_of s.
Proof. exact consecutive_history. Qed.
Print Assumptions C16_history.

(** In any history: after the gate is shut no request passes before the pause is
    over and the gate is set to let one through; then at most one passes before
    the gate is opened or shut again; while it is open it can only be shut. *)
Theorem C16_clients : forall trips recovers pause l s, history trips recovers pause l s ->
  forall before g t between g' t' after,
    l = before ++ Set_gate g t :: between ++ Set_gate g' t' :: after -> quiet between ->
    gate_rule pause before g t between g' t'.
Proof. exact gates. Qed.
Print Assumptions C16_clients.
Theorem C16_clients_now : forall trips recovers pause l s, history trips recovers pause l s ->
  forall before g t since, l = before ++ Set_gate g t :: since -> quiet since ->
    match g with
    | Open => exists cs, s = Flowing t cs
    | Shut => (exists n, s = Blocked n t) /\ admits since = 0%nat
    | Limited _ => exists n, s = Trial n false /\ admits since = 0%nat \/ s = Trial n true /\ admits since = 1%nat
    end.
Proof. exact last_gate. Qed.
Print Assumptions C16_clients_now.

Definition bo1 : backoff := Backoff 1000000000 10000000000 false.
Definition at_ (t : N) : input := Input t 0 0.
Definition fail_of (id : nat) := Respond id (Http true 500).
(** Two failures shut the gate at 2 s; it lets a probe through at 3 s. *)
Definition trip2 : list event :=
  [Send; Send; fail_of 0; fail_of 1; Run (at_ 1000000000) false; Run (at_ 2000000000) false;
   Run (at_ 2000000000) true; Send; Run (at_ 2999999999) true; Run (at_ 3000000000) true; Send; Send].
Example C16_demo : valid bo1 /\ clock 0 trip2 /\
  w_log (run (2 ^ 64) bo1 100 (consecutive 2) 0 trip2) =
  [Set_gate Open 0; Admit 0; Admit 1; Observe 0 1000000000 (Http true 500); Observe 1 2000000000 (Http true 500);
   Set_gate Shut 2000000000; Set_gate (Limited 1) 3000000000; Admit 2].
Proof. split; [unfold valid; cbn; unfold dur_max; lia|]. split; [cbn; lia|]. vm_compute. reflexivity. Qed.

Theorem C18_history : forall max bp window m, max <= 18446744073709551615 -> bp <= 10000 ->
  forall im bo cap t0 es, valid bo -> clock t0 es ->
  exists s,
    history (trips_unified max bp window m) recovers_unified (pause (bo_min bo) (bo_max bo))
      (w_log (run im bo cap (unified max bp window m) t0 es)) s /\
    w_gate (run im bo cap (unified max bp window m) t0 es) = gate_of s.
Proof. exact unified_history. Qed.
Print Assumptions C18_history.

(** Half of four responses must succeed: the fourth trips it though it succeeds. *)
Definition trip_rate : list event :=
  [Send; Send; Send; Send; fail_of 0; Respond 1 (Http false 429); fail_of 2; Respond 3 (Http false 200);
   Run (at_ 1) false; Run (at_ 2) false; Run (at_ 3) false; Run (at_ 4) false].
Example C18_demo : clock 0 trip_rate /\
  last (w_log (run (2 ^ 64) bo1 100 (unified 0 5000 0 4) 0 trip_rate)) (Admit 0) = Set_gate Shut 4 /\
  w_gate (run (2 ^ 64) bo1 100 (unified 0 2500 0 4) 0 trip_rate) = Open /\
  w_gate (run (2 ^ 64) bo1 100 (unified 0 5000 0 5) 0 trip_rate) = Open /\
  w_gate (run (2 ^ 64) bo1 100 (unified 2 5000 0 5) 0 trip_rate) = Open /\
  w_gate (run (2 ^ 64) bo1 100 (unified 1 5000 0 5) 0 trip_rate) = Shut.
Proof. split; [cbn; lia|]. vm_compute. auto. Qed.

(** The response that reopens the breaker need not be the probe's: the third
    request was admitted before it tripped, and no request has passed since. *)
Theorem C19_probe_decides_refuted : exists es t t' between,
  clock 0 es /\ quiet between /\ admits between = 0%nat /\
  exists before, w_log (run (2 ^ 64) bo1 100 (consecutive 2) 0 es) =
    before ++ Set_gate (Limited 1) t :: between ++ [Set_gate Open t'].
Proof.
  exists ([Send; Send; Send; fail_of 0; fail_of 1; Run (at_ 1) false; Run (at_ 2) false; Run (at_ 3) true;
           Run (at_ 1000000003) true; Respond 2 (Http false 200); Run (at_ 1000000004) false]),
    1000000003, 1000000004, [Observe 2 1000000004 (Http false 200)].
  split; [cbn; lia|]. split; [intros e [<-|[]]; reflexivity|]. split; [reflexivity|].
  exists [Set_gate Open 0; Admit 0; Admit 1; Admit 2; Observe 0 1 (Http true 500); Observe 1 2 (Http true 500); Set_gate Shut 2].
  vm_compute. reflexivity.
Qed.
Print Assumptions C19_probe_decides_refuted.

(** Missing for the full C19: that no request is outstanding and no class is waiting
    when the probe is allowed.  If so, only responses to requests admitted since are taken. *)
Theorem C19_probe_decides_partial : forall k im bo cap t0 es1 es2,
  w_flight (run im bo cap k t0 es1) = [] -> w_queue (run im bo cap k t0 es1) = [] ->
  exists new, w_log (run im bo cap k t0 (es1 ++ es2)) = w_log (run im bo cap k t0 es1) ++ new /\
    forall id now c, In (Observe id now c) new -> In (Admit id) new.
Proof. exact responses_of_probes. Qed.
Print Assumptions C19_probe_decides_partial.
Example C19_demo : let es := [Send; fail_of 0; Run (at_ 1) false; Run (at_ 2) true; Run (at_ 1000000002) true] in
  w_flight (run (2 ^ 64) bo1 100 (consecutive 1) 0 es) = [] /\ w_queue (run (2 ^ 64) bo1 100 (consecutive 1) 0 es) = [] /\
  w_gate (run (2 ^ 64) bo1 100 (consecutive 1) 0 es) = Limited 1.
Proof. vm_compute. auto. Qed.

(** A shut breaker tries again: polled at [i1] and at [i2], at least the largest
    delay later, it has set the gate to let a probe through. *)
Theorem C49_tries_again : forall k im bo cap, valid bo -> forall t0 es i1 i2,
  clock t0 es -> last_run t0 es <= in_now i1 -> in_now i1 + bo_max bo <= in_now i2 -> sane im bo i1 -> sane im bo i2 ->
  w_gate (run im bo cap k t0 es) = Shut -> w_phase (run im bo cap k t0 es) <> Returned ->
  exists new, w_log (run im bo cap k t0 (es ++ [Run i1 true; Run i2 true])) = w_log (run im bo cap k t0 es) ++ new /\
    exists t, In (Set_gate (Limited 1) t) new.
Proof. exact tries_again. Qed.
Print Assumptions C49_tries_again.
Example C49_demo : let es := [Send; fail_of 0; Run (at_ 1) false] in
  clock 0 es /\ last_run 0 es <= 5 /\ sane (2 ^ 64) bo1 (at_ 5) /\ sane (2 ^ 64) bo1 (at_ 10000000005) /\
  w_gate (run (2 ^ 64) bo1 100 (consecutive 1) 0 es) = Shut /\
  w_phase (run (2 ^ 64) bo1 100 (consecutive 1) 0 es) <> Returned.
Proof.
  cbv zeta. split; [cbn; lia|]. split; [cbn; lia|]. unfold sane, u64max, u32max. cbn [in_now in_secs in_nanos at_ bo_max bo1].
  change (2 ^ 64) with 18446744073709551616. split; [lia|]. split; [lia|]. split; [vm_compute; reflexivity|]. vm_compute. discriminate.
Qed.

(** But a probe that is cancelled before its response leaves the endpoint closed for
    ever: whatever happens then, no request passes and nothing is decided. *)
Theorem C49_recovers_refuted : exists es, clock 0 es /\ ~ In Lost es /\
  forall es', w_log (run (2 ^ 64) bo1 100 (consecutive 1) 0 (es ++ es')) = w_log (run (2 ^ 64) bo1 100 (consecutive 1) 0 es) /\
              w_gate (run (2 ^ 64) bo1 100 (consecutive 1) 0 (es ++ es')) = Limited 0.
Proof.
  exists [Send; fail_of 0; Run (at_ 1) false; Run (at_ 2) true; Run (at_ 1000000002) true; Send; Cancel 1].
  split; [cbn; lia|]. split; [intros H; repeat (destruct H as [H|H]; [discriminate H|]); destruct H|].
  intros es'. unfold run at 1 3. rewrite fold_left_app.
  apply (stuck_run (consecutive 1) (2 ^ 64) bo1 100). vm_compute. auto.
Qed.
Print Assumptions C49_recovers_refuted.
