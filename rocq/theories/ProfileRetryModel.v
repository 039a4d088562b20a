(** Model of the retries of service profiles: linkerd/app/outbound/src/http/retry.rs and
    linkerd/retry/src/lib.rs.  The loop itself is `tower::retry::Retry`, which is not in /repo:
    it clones the request, calls the service, asks the policy about the result, and if it says so waits
    for the service to be ready and goes on with the clone.  The budget is `tower`'s, too; it is shared by
    all requests of the profile, so that what it answers is left open. *)
From Coq Require Import String List NArith Bool.
From Verif Require Import Bytes FilterModel TraceModel ReplayModel PeekModel RetryModel.
From Verif Require BreakerModel ClassifyModel ProfileModel.
Import ListNotations.
Open Scope N_scope.

(** retry.rs:40: 64 KiB *)
Definition MAX_BUFFERED_BYTES : N := 65536.

(** app/core/src/classify.rs:49-56 *)
Definition request_from (classes : list ClassifyModel.rclass) : ClassifyModel.request :=
  match classes with [] => ClassifyModel.Default | _ => ClassifyModel.Profile classes end.

(** retry.rs:90-94 *)
Definition is_failure (classes : list ClassifyModel.rclass) (req_headers : headers) (rsp : response) : bool :=
  BreakerModel.is_failure
    (ClassifyModel.at_eos
       (ClassifyModel.start (ClassifyModel.classify (request_from classes) req_headers) (rs_status rsp) (rs_headers rsp))
       (peek_trailers (rs_body rsp))).

(** retry.rs:85-108; the body that is asked is the clone's. *)
Definition retryable (classes : list ClassifyModel.rclass) (w : world) (req : request) (result : outcome) : bool :=
  match result with
  | Err _ => false
  | Ok rsp =>
      match is_capped w (q_body req) with
      | Some false => is_failure classes (q_headers req) rsp
      | _ => false
      end
  end.

(** retry.rs:139-148: the client handle and the classifier are kept, which are not modelled;
    of what RetryModel has, nothing is. *)
Definition clone_ext (x : ext) : ext := Ext None None.
(** retry.rs:126-151 *)
Definition clone_request (w : world) (req : request) : world * request :=
  (fst (step w (Clone (q_body req))),
   Request (q_method req) (q_uri req) (q_version req) (q_headers req) (clone_ext (q_ext req)) (length (w_handles w))).

(** What happens in a turn: before a retry, whether the budget allows it and how the service becomes ready;
    then what the service does with the bodies it holds until it answers, and its answer. *)
Record turn := Turn { t_grant : bool; t_ready : option error; t_ops : list op; t_outcome : outcome }.
(** What is done to the budget: a deposit, or a withdrawal that is granted or not.  The metrics count the
    withdrawals and those that are not granted (retry.rs:115-116). *)
Inductive account := Deposit | Withdraw (granted : bool).
(** What is seen of a call: the answer, if there is one yet, the attempts and what is done to the budget *)
Record done := Done { d_outcome : option outcome; d_attempts : list attempt; d_budget : list account; d_world : world }.

(** The service is called, tower 0.5 `Retry::call` *)
Definition send_req (w : world) (q : request) (t : turn) : world * attempt :=
  let '(w, ev) := run w (filter (by_service (q_body q)) (t_ops t)) in
  (w, Attempt q ev (t_outcome t)).

(** Helper: one attempt more *)
Definition add_attempt (a : attempt) (d : done) : done :=
  Done (d_outcome d) (a :: d_attempts d) (d_budget d) (d_world d).
(** Helper: something more is done to the budget *)
Definition account_for (b : account) (d : done) : done :=
  Done (d_outcome d) (d_attempts d) (b :: d_budget d) (d_world d).

Section Loop.
Variable classes : list ClassifyModel.rclass.

(** retry.rs:110-123 and tower 0.5 `ResponseFuture::poll`, with the turns that follow; [last] is a retryable result. *)
Fixpoint again (ts : list turn) (w : world) (req : request) (last : outcome) : done :=
  match ts with
  | [] => Done None [] [] w
  | t :: ts =>
      if negb (t_grant t) then Done (Some last) [] [Withdraw false] w
      else account_for (Withdraw true)
        match t_ready t with
        | Some e => Done (Some (Err e)) [] [] w
        | None =>
            let '(w, clone) := clone_request w req in
            let '(w, a) := send_req w req t in
            add_attempt a
              (if retryable classes w clone (at_outcome a) then again ts w clone (at_outcome a)
               else Done (Some (at_outcome a)) [] [Deposit] w)
        end
  end.

(** tower 0.5 `Retry::call` *)
Definition call_retry (ts : list turn) (w : world) (req : request) : done :=
  match ts with
  | [] => Done None [] [] w
  | t :: ts =>
      let '(w, clone) := clone_request w req in
      let '(w, a) := send_req w req t in
      add_attempt a
        (if retryable classes w clone (at_outcome a) then again ts w clone (at_outcome a)
         else Done (Some (at_outcome a)) [] [Deposit] w)
  end.
End Loop.

(** retry.rs:57-65 *)
Definition new_policy (route : ProfileModel.route) : option (list ClassifyModel.rclass) :=
  match ProfileModel.r_retries route with Some _ => Some (ProfileModel.r_classes route) | None => None end.
(** retry/src/lib.rs:104-115, 156-181 and retry.rs:165-187: [None] means that the request is forwarded as it is,
    once, without buffering and without the budget. *)
Definition call (route : ProfileModel.route) (ts : list turn) (q : request) (b : body) (hint_lower : N) : option done :=
  match new_policy route with
  | None => None
  | Some classes =>
      match try_new b hint_lower MAX_BUFFERED_BYTES with
      | None => None
      | Some w => Some (call_retry classes ts w q)
      end
  end.
