(** Model of the path of an HTTP request through the inbound proxy: linkerd/app/inbound/src/http/server.rs,
    http/set_identity_header.rs and http/router.rs, with the layers that they stack (policy/http.rs, the HTTP server's
    upgrades, linkerd/http/proxy, linkerd/trace-context), to the connection to the application.

    Simplifications: bodies, metrics, taps and access logs are left out; the concurrency limit admits the request, and
    the services are ready; a profile decides about metrics and classes of responses only (router.rs:139-159), so of
    its lookup only the question is modelled; parsing an authority, an IP address and a form are parameters. *)
From Coq Require Import String List NArith Bool.
From Verif Require Import Bytes NameModel FilterModel TraceModel EndpointModel MtlsModel.
From Verif Require RouteModel AuthzModel PolicyModel Http1Model GatewayModel.
Import Http1Model.
Import ListNotations.
Open Scope N_scope.

(** What is known of a connection when its requests arrive: its TLS, its peer, the address that it was made to, the
    protocol that is spoken on it, and the authority of requests that have none (detect.rs:393-400 and
    direct.rs:365-369) *)
Record inbound_conn := InboundConn {
  c_tls : option server_tls; c_client : AuthzModel.ip; c_server : sock; c_variant : PolicyModel.variant;
  c_default : option authority }.

(** tls/src/server.rs:30-65, as the policy sees it (policy.rs:172-200) *)
Definition authz_tls (t : option server_tls) : AuthzModel.tls :=
  match t with
  | Some (Established i _) => AuthzModel.Established (option_map GatewayModel.authz_id i)
  | Some (Passthru _) => AuthzModel.Passthru
  | None => AuthzModel.No_tls
  end.

(** ** set_identity_header.rs *)

(** set_identity_header.rs:5 *)
Definition L5D_CLIENT_ID : bytes := bs "l5d-client-id"%string.
(** set_identity_header.rs:39-56 *)
Definition identity_value (t : option server_tls) : option bytes :=
  match t with
  | Some (Established (Some i) _) =>
      let v := GatewayModel.id_to_str i in
      if GatewayModel.header_value_ok v then Some v else None
  | _ => None
  end.
(** set_identity_header.rs:79-91 *)
Definition set_identity (value : option bytes) (r : request) : request :=
  with_headers r (match value with
                  | Some v => hm_insert (q_headers r) L5D_CLIENT_ID v
                  | None => hm_remove (q_headers r) L5D_CLIENT_ID
                  end).

Section Inbound.
Variable parse_authority : bytes -> option authority.
Variable is_ip : bytes -> bool.
Variable form_parse : bytes -> list (bytes * bytes).
Variable pq_valid : bytes -> bool.
Variable draw : nat -> bool.

(** ** router.rs *)

(** app/core/src/lib.rs:61 *)
Definition DEFAULT_PORT : N := 80.
(** addr/src/lib.rs:50-65 and 125-130: the name of an authority, if it is not an IP address *)
Definition authority_name (a : authority) : option name_addr :=
  if is_ip (a_host a) then None
  else match from_str_and_port (a_host a) (match a_port a with Some p => p | None => DEFAULT_PORT end) with
       | inl n => Some n
       | inr _ => None
       end.
(** router.rs:301-318 *)
Definition logical_name (r : request) : option name_addr :=
  match (match get_header_str (q_headers r) CANONICAL_DST_HEADER with
         | Some dst => match name_addr_from_str dst with inl n => Some n | inr _ => None end
         | None => None
         end) with
  | Some n => Some n
  | None =>
      match (match u_auth (q_uri r) with Some a => authority_name a | None => None end) with
      | Some n => Some n
      | None => match authority_from_header parse_authority (q_headers r) HOST with
                | Some a => authority_name a
                | None => None
                end
      end
  end.
(** http/variant/src/lib.rs:21-30 *)
Definition variant_of (v : version) : option PolicyModel.variant :=
  match v with
  | Http_10 | Http_11 => Some PolicyModel.V_http1
  | Http_2 => Some PolicyModel.V_h2
  | _ => None
  end.
(** router.rs:189-208: the question to the control plane *)
Definition looked_up (allow_profile : list suffix) (logical : option name_addr) : option name_addr :=
  match logical with
  | Some n => if name_match allow_profile (na_name n) then Some n else None
  | None => None
  end.

(** What becomes of a request: the upgrade service answers it, it has no authority, the policy answers it, its task
    panics, or it is sent to an address, as HTTP/1 or HTTP/2, after a question about a name. *)
Inductive outcome :=
| Ill_formed (rsp : response)
| Without_authority
| By_policy (rsp : PolicyModel.response)
| Panics
| Sent (to : sock) (v : PolicyModel.variant) (asked : option name_addr) (r : request).

(** What the policy's matchers look at (http/route/src/http.rs and its matches) *)
Definition as_matched (r : request) : RouteModel.request :=
  RouteModel.Request (q_method r) (option_map a_host (u_auth (q_uri r))) (u_path (q_uri r))
    (option_map form_parse (u_query (q_uri r))) (q_headers r).

(** proxy/http/src/server.rs:169-204: only the server of HTTP/1 has the upgrade service. *)
Definition serve (v : PolicyModel.variant) (r : request) : accepted :=
  match v with
  | PolicyModel.V_http1 => upgrade_call r
  | PolicyModel.V_h2 => Passed r
  end.
(** server.rs:61-90: the layers above the router, but for those that are left out; [tracing]: whether there is a sink
    for spans *)
Definition before_router (tracing : bool) (span : bytes) (c : inbound_conn) (r : request) : normalized :=
  let r := mark_absolute_form r in
  match trace_call tracing (q_headers r) span with
  | Crash => Normalize_panic
  | Forward hs _ =>
      let r := fst (downgrade (with_headers r hs)) in
      let r := set_identity (identity_value (c_tls c)) r in
      normalize_uri parse_authority (c_default c) r
  end.
(** router.rs:118-250, the layers between the policy and the client; [span]: of the client's side *)
Definition after_policy (tracing : bool) (span : bytes) (allow_profile : list suffix) (c : inbound_conn) (r : request) : outcome :=
  let asked := looked_up allow_profile (logical_name r) in
  match variant_of (q_version r) with
  | None => Panics
  | Some v =>
      match trace_call tracing (q_headers r) span with
      | Crash => Panics
      | Forward hs _ => Sent (c_server c) v asked (with_headers r hs)
      end
  end.
(** server.rs:56-91 and router.rs:74-258; [limit]: the rate limit's answer *)
Definition inbound (tracing : bool) (span1 span2 : bytes) (allow_profile : list suffix) (p : PolicyModel.protocol)
    (limit : bool) (c : inbound_conn) (r : request) : outcome :=
  match serve (c_variant c) r with
  | Answered rsp => Ill_formed rsp
  | Passed r =>
      match before_router tracing span1 c r with
      | Normalize_panic => Panics
      | No_authority => Without_authority
      | Normalized r =>
          match fst (PolicyModel.call pq_valid draw p (c_client c) (authz_tls (c_tls c)) (as_matched r) (q_uri r) limit) with
          | PolicyModel.R_forward hs => after_policy tracing span2 allow_profile c (with_headers r hs)
          | PolicyModel.R_panic => Panics
          | e => By_policy e
          end
      end
  end.
End Inbound.
