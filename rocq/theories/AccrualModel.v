(** Model of how a policy's failure accrual becomes the breaker of an endpoint: linkerd/app/outbound/src/sidecar.rs:224-281 (as ingress.rs:533-600),
    linkerd/app/outbound/src/http/logical/policy/router.rs:140-190, http/concrete/balance.rs:165-177 and http/breaker.rs:38-112.
    Policies are those of ClientPolicyModel.v, and breakers those of BreakerModel.v. *)
From Coq Require Import List NArith QArith Bool.
From Verif Require BackoffModel EnvModel.
From Verif Require Import BreakerModel ClientPolicyModel.
Import ListNotations.
Open Scope N_scope.

(** app/outbound/src/sidecar.rs:234-272, ingress.rs:539-600: the accrual of the routes for requests of a version, [two] for HTTP/2; [None]: the policy is not for
    HTTP.  Each target of the router has it (router.rs:160-168, logical.rs:254-258) *)
Definition accrual_of (p : protocol) (two : bool) : option (option accrual) :=
  match p with
  | Detect _ http1 http2 _ => Some (if two then rs_accrual http2 else rs_accrual http1)
  | Http1 h => Some (rs_accrual h)
  | Http2 h => Some (rs_accrual h)
  | Grpc g => Some (rs_accrual g)
  | Opaq _ | Tls _ => None
  end.
(** A breaker's backoff: BackoffModel.v has only whether there is a jitter *)
Definition plain (b : EnvModel.backoff) : BackoffModel.backoff :=
  BackoffModel.Backoff (EnvModel.bo_min b) (EnvModel.bo_max b)
    match EnvModel.bo_jitter b with EnvModel.Fin q => negb (Qeq_bool q 0) | _ => true end.
(** http/breaker.rs:44-110: what the endpoint's task does; [None]: there is none *)
Definition breaker (a : option accrual) : option (BreakerModel.kind * BackoffModel.backoff) :=
  match a with
  | None => None
  | Some (Consecutive max_failures b) => Some (consecutive max_failures, plain b)
  | Some (Unified threshold window min_requests max_consecutive b) => Some (unified max_consecutive threshold window min_requests, plain b)
  end.
(** What is seen at an endpoint of a balancer, http/concrete/balance.rs:165-177 (each has a breaker of its own): its log and its gate.  Without a task the gate is
    open, and its sender, like the receiver of classes, is dropped at once (breaker.rs:45-48); the model keeps classes that nothing takes *)
Definition endpoint (a : option accrual) (instant_max : N) (capacity : nat) (t0 : N) (es : list event) : list entry * gate :=
  match breaker a with
  | Some (k, b) => let w := run instant_max b capacity k t0 es in (w_log w, w_gate w)
  | None => let w := run instant_max (BackoffModel.Backoff 0 1 false) capacity (consecutive 0) t0 (Lost :: es) in (w_log w, w_gate w)
  end.
