(** The limit on the requests that a proxy serves at a time and the counters of those that fail:
    linkerd/app/inbound/src/http/server.rs:69-84, linkerd/app/outbound/src/http/server.rs:31-48,
    linkerd/stack/src/loadshed.rs, linkerd/stack/src/monitor.rs, linkerd/stack/src/map_err.rs,
    linkerd/app/inbound/src/metrics/error.rs and error/http.rs, linkerd/app/outbound/src/metrics/error.rs
    and error/http.rs, with `tower::limit::GlobalConcurrencyLimitLayer`, which
    linkerd/app/core/src/svc.rs:14 names.

    Each request has a clone of the service of its connection, which is dropped when the request
    was passed on (`hyper_util::service::TowerToHyperService`, linkerd/proxy/http/src/server.rs:176
    and 200), so a permit or a place in the queue of the semaphore does not outlive the attempt to
    be ready.  The semaphore is one for all connections.  Spans and logs are left out. *)
From Coq Require Import String List NArith Bool.
From Verif Require Import Bytes Http1Model RespondModel ForwardModel.
From Verif Require PromModel.
Import ListNotations.
Open Scope N_scope.

(** The two servers: app/inbound/src/http/server.rs and app/outbound/src/http/server.rs *)
Inductive side := Inbound | Outbound.
(** What `poll_ready` returns *)
Inductive readiness := Ready | Pending | Broken (e : RespondModel.error).
(** The one who asks: the text of the labels of their server
    (app/inbound/src/metrics/error/http.rs:21-27), that of `client ..: server: ..: `
    (app/inbound/src/http/server.rs:19-26) and what respond.rs:50-59 keeps of the request *)
Record caller := Caller { c_labels : bytes; c_text : bytes; c_responder : responder }.

(** app/outbound/src/metrics/error.rs:28-46; `linkerd_app_core::proxy::http::ResponseTimeoutError` is
    that of profiles (linkerd/app/outbound/src/http/server.rs:142-145). *)
Fixpoint outbound_kind (e : RespondModel.error) : error_kind :=
  match e with
  | [] => E_unexpected
  | (RespondModel.Io_error, _) :: _ => E_io
  | (RespondModel.Identity_required, _) :: _ => E_identity_required
  | (RespondModel.Fail_fast, _) :: _ => E_fail_fast
  | (RespondModel.Profile_timeout, _) :: _ => E_response_timeout
  | (RespondModel.Load_shed, _) :: _ => E_load_shed
  | _ :: e => outbound_kind e
  end.
(** app/inbound/src/metrics/error.rs:30-60; the errors of connections
    (`ServerUnauthorized`, `ServerTlsTimeoutError`) are none of HTTP's. *)
Fixpoint inbound_kind (e : RespondModel.error) : option error_kind :=
  match e with
  | [] => Some E_unexpected
  | (RespondModel.Route_unauthorized, _) :: _ | (RespondModel.Route_not_found, _) :: _ => None
  | (RespondModel.Fail_fast, _) :: _ => Some E_fail_fast
  | (RespondModel.Io_error, _) :: _ => Some E_io
  | (RespondModel.Gateway_domain_invalid, _) :: _ => Some E_gateway_domain_invalid
  | (RespondModel.Gateway_loop, _) :: _ => Some E_gateway_loop
  | (RespondModel.Load_shed, _) :: _ => Some E_load_shed
  | _ :: e => inbound_kind e
  end.

(** app/inbound/src/http/server.rs:19-26, 77 and 132-144, linkerd/stack/src/map_err.rs:201-215; the
    outbound server wraps nothing. *)
Definition wrap (d : side) (c : caller) (e : RespondModel.error) : RespondModel.error :=
  match d with Inbound => (RespondModel.Other, c_text c ++ RespondModel.to_string e) :: e | Outbound => e end.
(** `derive(PartialEq)`: app/inbound/src/metrics/error/http.rs:21, app/outbound/src/metrics/error/http.rs:19 *)
Definition key_eqb (a b : bytes * error_kind) : bool :=
  beq (fst a) (fst b) && beq (error_text (snd a)) (error_text (snd b)).
(** app/inbound/src/metrics/error/http.rs:76-89, app/outbound/src/metrics/error/http.rs:40-46; the
    counters of the outbound server have no labels of servers. *)
Definition monitor_error (d : side) (c : caller) (e : RespondModel.error) (cs : list ((bytes * error_kind) * N)) :=
  match d with
  | Outbound => PromModel.inc key_eqb ([], outbound_kind e) cs
  | Inbound =>
      match inbound_kind e with
      | Some k => PromModel.inc key_eqb (c_labels c, k) cs
      | None => cs
      end
  end.
(** app/inbound/src/http/server.rs:181-230, app/outbound/src/http/server.rs:120-190 *)
Definition server_rescue (d : side) : RespondModel.error -> rescued :=
  match d with Inbound => inbound_server_rescue | Outbound => outbound_server_rescue end.

(** tower's `ConcurrencyLimit::poll_ready`: a permit, and then the service beneath *)
Definition poll_limit (permits : N) (inner : readiness) : readiness :=
  if permits =? 0 then Pending else inner.
(** linkerd/stack/src/loadshed.rs:47-51 and 64-85: `open`, and what is returned *)
Definition poll_shed (inner : readiness) : bool * option RespondModel.error :=
  match inner with
  | Ready => (true, None)
  | Broken e => (true, Some e)
  | Pending => (false, None)
  end.
(** linkerd/stack/src/loadshed.rs:15-18 *)
Definition LOAD_SHED : RespondModel.error := [(RespondModel.Load_shed, bs "service unavailable"%string)].

(** A request comes, with the readiness of the service beneath; that service answers it or fails; it
    is dropped, by its client, with its response's body or before; the body ends *)
Inductive event :=
| Arrive (id : N) (c : caller) (inner : readiness)
| Finish (id : N) (res : response + RespondModel.error)
| Gone (id : N)
| Body_end (id : N).
(** The permits left, the requests that hold one, the bodies of responses, the counters and the
    answers *)
Record state := State {
  st_permits : N; st_flying : list (N * caller); st_bodies : list N;
  st_counters : list ((bytes * error_kind) * N); st_answers : list (N * responded) }.

(** linkerd/stack/src/monitor.rs:119-137 below linkerd/app/core/src/errors/respond.rs:378-418: an
    error is counted, then answered. *)
Definition fail (d : side) (s : state) (id : N) (c : caller) (e : RespondModel.error) : state :=
  let e := wrap d c e in
  State (st_permits s) (st_flying s) (st_bodies s) (monitor_error d c e (st_counters s))
        ((id, respond (server_rescue d) (c_responder c) (inr e)) :: st_answers s).
(** linkerd/stack/src/monitor.rs:98-107: an error of `poll_ready` is counted, but not answered
    (linkerd/error-respond/src/lib.rs:91-93). *)
Definition break (d : side) (s : state) (id : N) (c : caller) (e : RespondModel.error) : state :=
  let e := wrap d c e in
  State (st_permits s) (st_flying s) (st_bodies s) (monitor_error d c e (st_counters s))
        ((id, Failed e) :: st_answers s).
(** tower's `limit::concurrency::future::ResponseFuture`: the permit is dropped with it. *)
Definition release (s : state) (id : N) : state :=
  match find (fun x => fst x =? id) (st_flying s) with
  | None => s
  | Some _ =>
      State (st_permits s + 1) (filter (fun x => negb (fst x =? id)) (st_flying s)) (st_bodies s)
            (st_counters s) (st_answers s)
  end.
(** linkerd/stack/src/loadshed.rs:64-94, linkerd/stack/src/monitor.rs:98-137 *)
Definition step (d : side) (s : state) (x : event) : state :=
  match x with
  | Arrive id c inner =>
      match poll_shed (poll_limit (st_permits s) inner) with
      | (_, Some e) => break d s id c e
      | (true, None) =>
          State (st_permits s - 1) ((id, c) :: st_flying s) (st_bodies s) (st_counters s) (st_answers s)
      | (false, None) => fail d s id c LOAD_SHED
      end
  | Finish id res =>
      match find (fun x => fst x =? id) (st_flying s) with
      | None => s
      | Some (_, c) =>
          let s := release s id in
          match res with
          | inr e => fail d s id c e
          | inl rsp =>
              State (st_permits s) (st_flying s) (id :: st_bodies s) (st_counters s)
                    ((id, respond (server_rescue d) (c_responder c) (inl rsp)) :: st_answers s)
          end
      end
  | Gone id =>
      let s := release s id in
      State (st_permits s) (st_flying s) (filter (fun i => negb (i =? id)) (st_bodies s)) (st_counters s) (st_answers s)
  | Body_end id =>
      State (st_permits s) (st_flying s) (filter (fun i => negb (i =? id)) (st_bodies s)) (st_counters s) (st_answers s)
  end.
(** A history, with `max_in_flight_requests` permits *)
Definition run (d : side) (max : N) (es : list event) : state := fold_left (step d) es (State max [] [] [] []).
