(** C141: the breakers of endpoints are as the policy's message says. *)
From Coq Require Import String List NArith ZArith QArith Bool Lia.
From Verif Require BackoffModel EnvModel WindowModel.
From Verif Require Import Bytes BreakerModel BreakerSpec ClientPolicyModel ClientPolicySpec AccrualModel AccrualSpec AccrualProofs.
Import ListNotations.
Open Scope N_scope.

(** An endpoint of a policy with a number of consecutive failures is closed, tried and opened again as that number and the two times of the message say, whatever
    the order of requests, responses and times; C16 says what such histories are for clients *)
Theorem C141_consecutive : forall L export pb policy two accrual n backoff d,
  try_from L export pb = Some policy -> accrual_of (cp_protocol policy) two = Some accrual ->
  field pb two = Some (Some (Pb_consecutive n (Some backoff))) -> pbo_max backoff = Some d -> in_range d ->
  exists min max, required duration_says (pbo_min backoff) min /\ required duration_says (pbo_max backoff) max /\
    forall instant_max capacity t0 es, clock t0 es -> exists s,
      history (trips_consecutive n) recovers_consecutive (pause min max) (fst (endpoint accrual instant_max capacity t0 es)) s /\
      snd (endpoint accrual instant_max capacity t0 es) = gate_of s.
Proof. exact consecutive_says. Qed.
Print Assumptions C141_consecutive.

(** And so for a policy with a success rate, of responses within a window, and a number of consecutive failures; C99 says how the rate is rounded *)
Theorem C141_unified : forall L export pb policy two accrual rate window_field min_requests n backoff d,
  try_from L export pb = Some policy -> accrual_of (cp_protocol policy) two = Some accrual ->
  field pb two = Some (Some (Pb_unified rate window_field min_requests n (Some backoff))) -> pbo_max backoff = Some d -> in_range d -> n < 2 ^ 32 ->
  exists min max window, required duration_says (pbo_min backoff) min /\ required duration_says (pbo_max backoff) max /\
    defaulting duration_says 10000000000 window_field window /\
    forall instant_max capacity t0 es, clock t0 es -> exists s,
      history (trips_unified n (from_fraction rate) window min_requests) recovers_unified (pause min max) (fst (endpoint accrual instant_max capacity t0 es)) s /\
      snd (endpoint accrual instant_max capacity t0 es) = gate_of s.
Proof. exact unified_says. Qed.
Print Assumptions C141_unified.

(** The times have a jitter exactly if the message has one *)
Theorem C141_jitter : forall L export pb policy two accrual backoff,
  try_from L export pb = Some policy -> accrual_of (cp_protocol policy) two = Some accrual ->
  (exists n, field pb two = Some (Some (Pb_consecutive n (Some backoff)))) \/
  (exists rate window_field min_requests n, field pb two = Some (Some (Pb_unified rate window_field min_requests n (Some backoff)))) ->
  exists q k b, pbo_jitter backoff = EnvModel.Fin q /\ breaker accrual = Some (k, b) /\
    ((forall base secs nanos, BackoffModel.jitter b base secs nanos = Some 0) <-> (q == 0)%Q).
Proof. exact jitter_says. Qed.
Print Assumptions C141_jitter.

(** Without the field for that version of HTTP, or if the message is refused, no request is ever held back at an endpoint *)
Theorem C141_absent : forall L timeout export pb two accrual,
  accrual_of (cp_protocol (received L timeout export pb)) two = Some accrual ->
  field pb two = None \/ try_from L export pb = None ->
  forall instant_max capacity t0 es,
    passed (fst (endpoint accrual instant_max capacity t0 es)) = sends es /\ snd (endpoint accrual instant_max capacity t0 es) = Open.
Proof. exact absent_says. Qed.
Print Assumptions C141_absent.

Definition ex_backoff : pb_backoff := PbBackoff (Some (1, 0)%Z) (Some (60, 0)%Z) (EnvModel.Fin (1 # 2)).
(** HTTP/1 has a number of failures, and HTTP/2 a rate *)
Definition ex_policy : pb_policy :=
  PbPolicy (Some (Some (Pb_default (bs "svc"%string)))) (Some (Some (Pb_detect (Some (1, 0)%Z)
    (Some (PbProto [] (Some (Some (Pb_consecutive 2 (Some ex_backoff))))))
    (Some (PbProto [] (Some (Some (Pb_unified (WindowModel.as_fraction 5000) None 4 3 (Some ex_backoff)))))) (Some [])))).
Definition ex_none : pb_policy :=
  PbPolicy (Some (Some (Pb_default (bs "svc"%string)))) (Some (Some (Pb_http2 (PbProto [] None)))).
Definition failures (n : nat) : list event :=
  repeat Send n ++ map (fun i => Respond i (Http true 500)) (seq 0 n) ++ map (fun i => Run (BackoffModel.Input (N.of_nat i + 1) 0 0) false) (seq 0 n).
Example C141_example : forall L, exists policy a1 a2, try_from L false ex_policy = Some policy /\
  accrual_of (cp_protocol policy) false = Some a1 /\ accrual_of (cp_protocol policy) true = Some a2 /\
  field ex_policy false = Some (Some (Pb_consecutive 2 (Some ex_backoff))) /\
  in_range (60, 0)%Z /\ clock 0 (failures 2) /\ snd (endpoint a1 (2 ^ 64) 100 0 (failures 2)) = Shut /\ snd (endpoint a2 (2 ^ 64) 100 0 (failures 2)) = Open /\
  snd (endpoint a2 (2 ^ 64) 100 0 (failures 3)) = Shut.
Proof.
  intros L. eexists _, _, _. split; [vm_compute; reflexivity|]. split; [reflexivity|]. split; [reflexivity|]. split; [reflexivity|].
  split; [unfold in_range; cbn [fst snd]; lia|]. split; [cbn; lia|]. split; [vm_compute; reflexivity|]. split; vm_compute; reflexivity.
Qed.
Example C141_absent_example : forall L, exists a, accrual_of (cp_protocol (received L 0 false ex_none)) true = Some a /\ field ex_none true = None /\
  snd (endpoint a (2 ^ 64) 100 0 (failures 10)) = Open.
Proof. intros L. eexists. split; [vm_compute; reflexivity|]. split; [reflexivity|]. vm_compute. reflexivity. Qed.
