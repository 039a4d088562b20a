(** Specification for C78. *)
From Coq Require Import String List NArith Bool.
From Verif Require Import Bytes FilterModel TraceModel ReplayModel PeekModel RetryModel RetrySpec ProfileRetryModel.
From Verif Require BreakerModel ClassifyModel ClassifySpec.
Import ListNotations.
Open Scope N_scope.

(** A response that is a failure by the classes of its route, or, if it has none, by default *)
Definition failed (classes : list ClassifyModel.rclass) (req_headers : headers) (r : response) : Prop :=
  exists c cl,
    ClassifySpec.effective (match classes with [] => ClassifyModel.Default | _ => ClassifyModel.Profile classes end) req_headers c /\
    ClassifySpec.class_of c (rs_status r) (rs_headers r) (peek_trailers (rs_body r)) cl /\
    BreakerModel.is_failure cl = true.

(** A result that is to be retried: such a response, when body number [i] of the request is known to be complete
    or able to be read from the beginning *)
Definition to_retry (classes : list ClassifyModel.rclass) (req_headers : headers) (w : world) (i : nat) (o : outcome) : Prop :=
  is_capped w i = Some false /\ exists r, o = Ok r /\ failed classes req_headers r.

(** How a call stands, and what was done to the budget last, after the withdrawals for its retries *)
Inductive ending (classes : list ClassifyModel.rclass) (req_headers : headers) (d : done) : list account -> Prop :=
| Going : d_outcome d = None -> ending classes req_headers d []
| Answered : forall o, d_outcome d = Some o -> last_answer (d_attempts d) = Some o ->
    ~ to_retry classes req_headers (d_world d) (length (d_attempts d)) o -> ending classes req_headers d [Deposit]
| Refused : forall o, d_outcome d = Some o -> last_answer (d_attempts d) = Some o ->
    to_retry classes req_headers (d_world d) (length (d_attempts d)) o -> ending classes req_headers d [Withdraw false]
| Unready : forall o e, d_outcome d = Some (Err e) -> last_answer (d_attempts d) = Some o ->
    to_retry classes req_headers (d_world d) (length (d_attempts d)) o -> ending classes req_headers d [Withdraw true].

(** Withdrawals that were granted, and deposits *)
Definition granted (l : list account) : nat := length (filter (fun a => match a with Withdraw true => true | _ => false end) l).
Definition deposits (l : list account) : nat := length (filter (fun a => match a with Deposit => true | _ => false end) l).
(** A sum over calls *)
Definition sum (f : done -> nat) (ds : list done) : nat := fold_right (fun d n => f d + n)%nat 0%nat ds.
