(** Model of the enforcement of inbound policies: linkerd/app/inbound/src/policy/tcp.rs,
    policy/http.rs and detect.rs. *)
From Coq Require Import List Arith NArith Bool.
From Verif Require Import Bytes RouteModel FilterModel AuthzModel.
Import ListNotations.

(** linkerd/proxy/server-policy/src/http.rs:8-14; an injected failure has a status and a
    message, and a probability, of which only the draws matter. *)
Inductive http_filter :=
| F_inject (status : N) (message : bytes)
| F_redirect (r : redirect)
| F_headers (m : modify_header)
| F_internal (message : bytes).
(** grpc.rs:8-13 *)
Inductive grpc_filter :=
| G_inject (code : N) (message : bytes)
| G_headers (m : modify_header)
| G_internal (message : bytes).

(** server-policy/src/lib.rs:40-45, without the metadata *)
Record route_policy (F : Type) := RoutePolicy { rp_authorizations : list authorization; rp_filters : list F }.
Arguments RoutePolicy {F}. Arguments rp_authorizations {F}. Arguments rp_filters {F}.
(** server-policy/src/http.rs:4-5 *)
Definition http_routes := list (route match_request (route_policy http_filter)).
(** server-policy/src/grpc.rs:4-5 *)
Definition grpc_routes := list (route match_grpc (route_policy grpc_filter)).

(** lib.rs:26-38 *)
Inductive protocol :=
| Detect (http : http_routes) (timeout : N) (tcp : list authorization)
| Http1 (http : http_routes)
| Http2 (http : http_routes)
| Grpc (grpc : grpc_routes)
| Tls (tcp : list authorization)
| Opaque (tcp : list authorization).

(** ** Connections: policy/tcp.rs *)

(** tcp.rs:183-219 *)
Definition check_authorized (p : protocol) (client : ip) (t : tls) : option authorization :=
  match p with
  | Detect _ _ l | Tls l | Opaque l => find_authz l client t
  | _ => None
  end.

(** One connection.  Its receiver of the policy has seen some version of it. *)
Inductive conn :=
| New                         (* not accepted yet *)
| Denied
| Accepted (seen : nat)       (* `new_service` returned `Authorized` *)
| Selecting (seen : nat)      (* in `select!` *)
| Checking (seen : nat)       (* `policy.changed()` returned *)
| Over.
(** What is seen of a connection, tcp.rs:135-178 *)
Inductive seen_ := Published (p : protocol) | Started | Refused | Finished | Terminated.
(** tcp.rs:135-178: the policy's watch channel and one connection *)
Record world := World { w_policy : protocol; w_version : nat; w_conn : conn; w_log : list seen_ }.

(** What can happen: the policy changes, the connection is polled (tcp.rs:158-175) or ends *)
Inductive event :=
| Publish (p : protocol)
(* [seen]: the version that the receiver has seen, which may be an old one. *)
| Accept (seen : nat)
| Call
(* The connection's task goes on; [done]: the forwarded connection ended, and `select!`
   looked at that first. *)
| Step (done : bool).

(** tcp.rs:135-178, one event *)
Definition handle (client : ip) (t : tls) (w : world) (e : event) : world :=
  let set c l := World (w_policy w) (w_version w) c (w_log w ++ l) in
  match e, w_conn w with
  | Publish p, c => World p (S (w_version w)) c (w_log w ++ [Published p])
  (* tcp.rs:64-105 *)
  | Accept k, New =>
      match check_authorized (w_policy w) client t with
      | Some _ => set (Accepted (Nat.min k (w_version w))) [Started]
      | None => set Denied [Refused]
      end
  (* tcp.rs:135-157; the receiver is cloned with what it has seen *)
  | Call, Accepted k => set (Selecting k) []
  (* tcp.rs:158-175; `changed` is [maybe_changed] of tokio's watch *)
  | Step done, Selecting k =>
      if done then set Over [Finished]
      else if Nat.eqb k (w_version w) then w
      else set (Checking (w_version w)) []
  | Step _, Checking k =>
      match check_authorized (w_policy w) client t with
      | Some _ => set (Selecting k) []
      | None => set Over [Terminated]
      end
  | _, _ => w
  end.
(** Any history from the acceptance of a connection; not code of its own *)
Definition run (client : ip) (t : tls) (p : protocol) (es : list event) : world :=
  fold_left (handle client t) es (World p 0 New []).

(** ** Requests: policy/http.rs *)

(** What the client gets, or the headers the application gets.  [R_panic]: a redirect of
    a CONNECT request. *)
Inductive response :=
| R_forward (hs : headers)
| R_not_found | R_unauthorized
| R_http_failure (status : N) (message : bytes)
| R_grpc_failure (code : N) (message : bytes)
| R_redirect (r : redirection)
| R_bad_redirect (e : redirect_error)
| R_invalid_policy
| R_limited
| R_panic.

Section Request.
  Variable pq_valid : bytes -> bool.
  (** [draw i]: whether the i-th injected failure happens. *)
  Variable draw : nat -> bool.

  (** http.rs:348-387; [n] counts the draws *)
  Fixpoint apply_http_filters (n : nat) (fs : list http_filter) (u : uri) (rm : request_match) (hs : headers)
    : headers + response :=
    match fs with
    | [] => inl hs
    | F_inject status message :: fs =>
        if draw n then inr (R_http_failure status message) else apply_http_filters (S n) fs u rm hs
    | F_redirect r :: fs =>
        match redirect_apply pq_valid r u rm with
        | ROk (Some r) => inr (R_redirect r)
        | RErr e => inr (R_bad_redirect e)
        | ROk None => apply_http_filters n fs u rm hs
        | RPanic => inr R_panic
        end
    | F_headers m :: fs => apply_http_filters n fs u rm (modify_apply m hs)
    | F_internal _ :: _ => inr R_invalid_policy
    end.
  (** http.rs:389-409 *)
  Fixpoint apply_grpc_filters (n : nat) (fs : list grpc_filter) (hs : headers) : headers + response :=
    match fs with
    | [] => inl hs
    | G_inject code message :: fs =>
        if draw n then inr (R_grpc_failure code message) else apply_grpc_filters (S n) fs hs
    | G_headers m :: fs => apply_grpc_filters n fs (modify_apply m hs)
    | G_internal _ :: _ => inr R_invalid_policy
    end.

  (** http.rs:213-313, given the route that was found *)
  Definition authorize {S F} (found : option ((option host_match * S) * route_policy F)) (client : ip) (t : tls)
    : (S * route_policy F) + response :=
    match found with
    | None => inr R_not_found
    | Some ((_, m), rp) =>
        match find_authz (rp_authorizations rp) client t with
        | Some _ => inl (m, rp)
        | None => inr R_unauthorized
        end
    end.

  (** http.rs:172-207 with policy.rs:160-169.  [limit] is the rate limit's answer, which is
      asked for only when everything else let the request pass: the second component
      tells whether it was. *)
  Definition call (p : protocol) (client : ip) (t : tls) (req : request) (u : uri) (limit : bool) : response * bool :=
    let finish (r : headers + response) :=
      match r with
      | inl hs => if limit then (R_forward hs, true) else (R_limited, true)
      | inr e => (e, false)
      end in
    match p with
    | Detect routes _ _ | Http1 routes | Http2 routes =>
        match authorize (http_find routes req) client t with
        | inr e => (e, false)
        | inl (m, rp) => finish (apply_http_filters 0 (rp_filters rp) u m (rq_headers req))
        end
    | Grpc routes =>
        match authorize (grpc_find routes req) client t with
        | inr e => (e, false)
        | inl (_, rp) => finish (apply_grpc_filters 0 (rp_filters rp) (rq_headers req))
        end
    | Tls _ | Opaque _ => (R_not_found, false)
    end.
End Request.

(** ** Accepting a connection: detect.rs *)

Inductive variant := V_http1 | V_h2.
(** linkerd/http/detect/src/lib.rs:25-29 *)
Inductive detection := Not_http | Is_http (v : variant) | Read_timeout.
(** Where the connection goes: to [TcpPolicy] and then the application, with its TLS
    status; to the HTTP server, with [HttpPolicyService]; or the panic of detect.rs:205. *)
Inductive destination := To_forward (t : tls) | To_http (v : variant) (t : tls) | To_panic.

(** [is_some] of a [Conditional] *)
Definition tls_is_some (t : tls) : bool := match t with No_tls => false | _ => true end.

(** detect.rs:120-166, given the detection's result and the policy then *)
Definition after_detection (d : detection) (p3 : protocol) (t : tls) : destination :=
  match d with
  | Is_http v => To_http v t
  | Not_http => To_forward t
  | Read_timeout => match p3 with Http1 _ => To_http V_http1 t | _ => To_forward t end
  end.
(** detect.rs:182-210: [p2] *)
Definition http_switch (p2 p3 : protocol) (t : tls) (d : detection) : destination :=
  match p2 with
  | Detect _ _ _ => after_detection d p3 t
  | Http1 _ => if tls_is_some t then after_detection d p3 t else To_http V_http1 t
  | Http2 _ | Grpc _ => To_http V_h2 t
  | Tls _ | Opaque _ => To_panic
  end.
(** detect.rs:243-300: [p0] is the policy when the connection is accepted, [p1] when TLS
    detection, with status [t], is done, [p2] when HTTP detection is chosen, and [p3] when
    it is done. *)
Definition accept (p0 p1 p2 p3 : protocol) (t : tls) (d : detection) : destination :=
  match p0 with
  | Opaque _ => To_forward No_tls
  | _ =>
      match p1 with
      | Tls _ => To_forward t
      | _ => http_switch p2 p3 t d
      end
  end.
