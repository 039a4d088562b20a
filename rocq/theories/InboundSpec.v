(** What the application is told of a request, and where requests go (C114, C115). *)
From Coq Require Import String List NArith.
From Verif Require Import Bytes NameModel NameSpec FilterModel FilterSpec EndpointModel MtlsModel HintSpec Http1Spec.
From Verif Require RouteModel AuthzModel PolicyModel PolicySpec Http1Model.
From Verif Require Import InboundModel.
Import Http1Model.
Import ListNotations.
Open Scope N_scope.

(** Text that can be the value of a header: no control characters but tabs *)
Definition sendable (v : bytes) : Prop := forall b, In b v -> b = 9 \/ (32 <= b /\ b <> 127).
(** The text of an identity *)
Definition spelled (i : id) (v : bytes) : Prop := match i with Dns n => v = n | Uri u => v = u end.
(** What the application should be told: the identity that the client has proved *)
Definition tells (t : option server_tls) (v : bytes) : Prop :=
  exists i, authenticated_as t = Some i /\ spelled i v /\ sendable v.

(** ** Filters of the policy *)
Definition touches (m : modify_header) (n : bytes) : Prop :=
  (exists v, In (n, v) (mh_add m)) \/ (exists v, In (n, v) (mh_set m)) \/ In n (mh_remove m).
(** None of the policy's routes adds, sets or removes a header of that name. *)
Definition keeps (p : PolicyModel.protocol) (n : bytes) : Prop :=
  match p with
  | PolicyModel.Detect routes _ _ | PolicyModel.Http1 routes | PolicyModel.Http2 routes =>
      forall rt ru m, In rt routes -> In ru (RouteModel.rt_rules rt) ->
        In (PolicyModel.F_headers m) (PolicyModel.rp_filters (RouteModel.ru_policy ru)) -> ~ touches m n
  | PolicyModel.Grpc routes =>
      forall rt ru m, In rt routes -> In ru (RouteModel.rt_rules rt) ->
        In (PolicyModel.G_headers m) (PolicyModel.rp_filters (RouteModel.ru_policy ru)) -> ~ touches m n
  | _ => True
  end.

(** ** Headers *)

(** The headers that the proxy itself writes or takes away: the client's identity, trace contexts, and its note about
    HTTP/1 requests that came over HTTP/2 *)
Definition own_headers : list bytes :=
  [bs "l5d-client-id"; bs "traceparent"; bs "grpc-trace-bin"; bs "x-b3-spanid"; bs "l5d-orig-proto"]%string.
(** A header that is of the connection, not of the request: only HTTP/1 has them, and an upgrade needs them. *)
Definition of_connection (c : inbound_conn) (r : request) (n : bytes) : Prop :=
  c_variant c = PolicyModel.V_http1 /\ ~ asks_upgrade r /\ hop_by_hop (q_headers r) n.

(** ** Names *)
Section Names.
Variable parse_authority : bytes -> option authority.
Variable is_ip : bytes -> bool.

(** The name and the port (80 if it is not given) of an authority that is no IP address *)
Definition named (a : authority) (n : name_addr) : Prop :=
  is_ip (a_host a) = false /\ dns_name (a_host a) /\ na_name n = lowers (a_host a) /\
  match a_port a with Some p => na_port n = p | None => na_port n = 80 end.
(** The name that the first `l5d-dst-canonical` header is *)
Definition canonical (hs : headers) (n : name_addr) : Prop :=
  exists v, first_of (bs "l5d-dst-canonical"%string) hs v /\ printable v /\ name_addr_from_str v = inl n.
(** The name that a request is for: that header's, or else its authority's, or else its `host` header's *)
Inductive for_name (r : request) (n : name_addr) : Prop :=
| By_header : canonical (q_headers r) n -> for_name r n
| By_authority a : (forall m, ~ canonical (q_headers r) m) ->
    u_auth (q_uri r) = Some a -> named a n -> for_name r n
| By_host a : (forall m, ~ canonical (q_headers r) m) ->
    (forall b m, u_auth (q_uri r) = Some b -> ~ named b m) ->
    host_authority parse_authority (q_headers r) a -> named a n -> for_name r n.

(** Requests of HTTP/1 with only a path on their first line *)
Definition origin_form (r : request) : Prop :=
  http1 (q_version r) /\ q_absolute r = false /\ ~ authority_uri (q_uri r).
(** The host that the application takes a request to be for: of requests in origin form it gets the `host` header only. *)
Definition told_host (r : request) (h : bytes) : Prop :=
  exists a, a_host a = h /\
    ((origin_form r /\ host_authority parse_authority (q_headers r) a) \/
     (~ origin_form r /\ u_auth (q_uri r) = Some a)).
End Names.

Definition allowed (l : list suffix) (n : name_addr) : Prop := exists s, In s l /\ contained s (na_name n).
Definition suffixes_ok (l : list suffix) : Prop := forall n, In (SName n) l -> dns_name n.

(** ** Versions *)

(** The server of HTTP/1 gets requests of HTTP/1, that of HTTP/2 those of HTTP/2. *)
Definition fits (c : inbound_conn) (r : request) : Prop :=
  match c_variant c with
  | PolicyModel.V_http1 => http1 (q_version r)
  | PolicyModel.V_h2 => q_version r = Http_2
  end.
(** The note of a request of HTTP/2 that was one of HTTP/1 *)
Definition notes (r : request) (v : version) : Prop :=
  exists x rest, first_of (bs "l5d-orig-proto"%string) (q_headers r) x /\
    ((v = Http_11 /\ x = bs "HTTP/1.1"%string ++ rest) \/ (v = Http_10 /\ x = bs "HTTP/1.0"%string ++ rest)).
(** The version that a request is sent with *)
Inductive spoken (r : request) : version -> Prop :=
| Spoken_http1 : http1 (q_version r) -> spoken r (q_version r)
| Spoken_noted v : q_version r = Http_2 -> notes r v -> spoken r v
| Spoken_h2 : q_version r = Http_2 -> (forall v, ~ notes r v) -> spoken r Http_2.

(** A connection shows what an authorization requires: nothing; TLS that the proxy terminated; or, that with a client
    certificate, one of the identities, or a DNS name with one of the suffixes. *)
Definition shows (a : AuthzModel.authentication) (t : option server_tls) : Prop :=
  match a with
  | AuthzModel.Unauthenticated => True
  | AuthzModel.Tls_unauthenticated => exists i p, t = Some (Established i p)
  | AuthzModel.Tls_authenticated identities suffixes => exists i p, t = Some (Established (Some i) p) /\
      match i with
      | Dns name => In name identities \/ exists s before, In s suffixes /\ name = before ++ s
      | Uri uri => In uri identities
      end
  end.
