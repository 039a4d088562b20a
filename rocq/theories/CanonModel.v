(** Model of the names of services that requests carry from proxy to proxy: linkerd/proxy/http/src/strip_header.rs and
    header_from_target.rs, as linkerd/app/outbound/src/ingress.rs, http/logical.rs and http/logical/profile.rs use them,
    with the outbound server and the client that they stand between.

    Simplifications: bodies, metrics, traces, retries and timeouts are left out; filters of a policy's routes change none
    of the headers; the services are ready. *)
From Coq Require Import String List NArith Bool.
From Verif Require Import Bytes NameModel FilterModel EndpointModel.
From Verif Require PolicyModel GatewayModel.
From Verif Require Import Http1Model InboundModel DiscoverModel.
Import Http1Model.
Import ListNotations.
Open Scope N_scope.

(** strip_header.rs:77-80 *)
Definition strip_request (name : bytes) (r : request) : request := with_headers r (hm_remove (q_headers r) name).
(** header_from_target.rs:71-75 *)
Definition header_from_target (h : bytes * bytes) (r : request) : request :=
  with_headers r (hm_insert (q_headers r) (fst h) (snd h)).

(** http/logical.rs:262-269; [None]: the `expect` panics. *)
Definition canonical_dst (a : name_addr) : option (bytes * bytes) :=
  let v := name_addr_to_string a in
  if GatewayModel.header_value_ok v then Some (CANONICAL_DST_HEADER, v) else None.
(** http/logical/profile.rs:284-296: the routes of a profile with that address; [None]: a panic *)
Definition profile_route (a : name_addr) (r : request) : option request :=
  option_map (fun h => header_from_target h r) (canonical_dst a).

(** The clients of HTTP: proxy/http/src/client.rs:85-98 *)
Inductive client := C_http1 | C_h2 | C_upgrade.
(** client.rs:143-168 *)
Definition send (k : client) (r : request) : dispatched :=
  match k with
  | C_http1 => Over_http1 r
  | C_h2 => Over_h2 r (q_version r)
  | C_upgrade => orig_proto_upgrade r
  end.

Section Outbound.
Variable parse_authority : bytes -> option authority.

(** ingress.rs:297-308, 356-379: where a request goes, and what is passed on; [None]: InvalidOverrideHeader *)
Definition ingress_call (orig_dst : sock) (r : request) : option (request_target * request) :=
  match select_target parse_authority orig_dst (q_headers r) with
  | Some t => Some (t, strip_request DST_OVERRIDE r)
  | None => None
  end.

(** From the application to the client: the server (http/server.rs:30-63, with the upgrade service of
    proxy/http/src/server.rs:169-204), the routes of a profile, if there is one, and the endpoint (endpoint.rs:125-128);
    [default]: the authority of requests that have none; [over]: the authority that the endpoint requires. [None]: the
    request is answered, or its task panics. *)
Definition outbound (v : PolicyModel.variant) (default : option authority) (profile : option name_addr)
    (over : option authority) (k : client) (r : request) : option dispatched :=
  match InboundModel.serve v r with
  | Answered _ => None
  | Passed r =>
      match normalize_uri parse_authority default (mark_absolute_form r) with
      | Normalized r =>
          match (match profile with Some a => profile_route a r | None => Some r end) with
          | Some r => option_map (send k) (endpoint_override over r)
          | None => None
          end
      | _ => None
      end
  end.
End Outbound.
