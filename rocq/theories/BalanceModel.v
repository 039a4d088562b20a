(** Model of how the load of a policy configures the balancer of a backend: linkerd/proxy/balance/src/lib.rs, linkerd/proxy/http/src/balance.rs and
    linkerd/app/outbound/src/http/concrete/balance.rs.
    Durations are nanoseconds.  Of tower's `PeakEwma`, another crate's, there are only the two numbers it is given; f64 does not round. *)
From Coq Require Import List NArith Bool.
From Verif Require Import Bytes BiaserModel ClientPolicyModel.
Import ListNotations.
Open Scope N_scope.

(** lib.rs:38: one millisecond *)
Definition MIN_DEFAULT_RTT : N := 1000000.
(** `Duration::as_millis` *)
Definition as_millis (d : N) : N := d / 1000000.
(** lib.rs:353-361 *)
Definition penalty_biaser_config (decay default_rtt penalty penalty_decay max_retry_after : N) : config :=
  Config (N.max default_rtt MIN_DEFAULT_RTT) decay (N.min (as_millis penalty) u32_max) max_retry_after.
(** lib.rs:389-394: `nanos` *)
Definition nanos (d : N) : N := d mod 1000000000 + N.min (d / 1000000000 * 1000000000) u64_max.
(** How an endpoint's load is estimated: by tower's `PeakEwma::new` with a round trip time and a decay in nanoseconds (lib.rs:396-401), or by the load biaser (lib.rs:309-310) *)
Inductive estimator := By_peak_ewma (default_rtt decay : N) | By_penalty (c : config).
(** lib.rs:375-403 *)
Definition new_peak_ewma (default_rtt decay : N) : estimator := By_peak_ewma (N.max default_rtt MIN_DEFAULT_RTT) (nanos decay).
(** concrete/balance.rs:60-77: `Param<PenaltyPeakEwma>` *)
Definition penalty_param (l : load) : N * N * N * N * N :=
  match l with
  | Penalty_peak_ewma d r p q m => (d, r, p, q, m)
  | Peak_ewma d r => (d, r, 0, 0, 0)
  end.
(** http/src/balance.rs:112-129 with lib.rs:195-222, 288-321 and concrete/balance.rs:44-58 *)
Definition new_service (l : load) : estimator :=
  match l with
  | Peak_ewma _ _ => let (d, r) := peak_ewma_rtt l in new_peak_ewma r d
  | Penalty_peak_ewma _ _ _ _ _ => let '(d, r, p, q, m) := penalty_param l in By_penalty (penalty_biaser_config d r p q m)
  end.
