(** What C57, C58 and C59 say *)
From Coq Require Import String List NArith Bool.
From Verif Require Import Bytes NameModel NameSpec TransportModel FilterModel EndpointModel EndpointSpec ConnectModel.
Import ListNotations.
Open Scope N_scope.

(** The protocol that announces a header *)
Definition header_protocol : bytes := bs "transport.l5d.io/v1"%string.
(** The endpoint is to be told more than it can tell from the connection. *)
Definition needs_header (m : metadata) : Prop := m_port m <> None \/ m_authority m <> None.

(** The last of the messages [h] about [a] announces [w], of a set with the labels [labels]. *)
Definition announces (h : list (option pb_update)) (a : sock) (labels : list (bytes * bytes)) (w : weighted_addr) : Prop :=
  exists before addrs after,
    h = before ++ Some (Pb_add addrs labels) :: after /\
    (forall u, In u after -> ~ mentions u a) /\
    exists pre post, addrs = pre ++ w :: post /\ at_ w a /\ forall x, In x post -> ~ at_ x a.

(** What a header says, for the endpoint at [addr] with metadata [m]: the gateway's target, if
    its authority has a port, and otherwise the port of the endpoint *)
Definition header_for (host : bytes -> bytes) (port_u16 : bytes -> option N) (addr : sock) (m : metadata) (h : header) : Prop :=
  (exists au p, m_authority m = Some au /\ port_u16 au = Some p /\ h_port h = p /\
     (forall n, h_name h = Some n <-> dns_name (host au) /\ n = lowers (host au))) \/
  ((forall au, m_authority m = Some au -> port_u16 au = None) /\ h_port h = s_port addr /\ h_name h = None).

(** The header of requests that require an identity *)
Definition require_id : bytes := bs "l5d-require-id"%string.
(** The identity that a text means *)
Definition means (parse_url : bytes -> option bytes) (s : bytes) (i : id) : Prop :=
  let dns := dns_name s /\ forall r, s <> r ++ [dot] in
  (dns /\ i = Dns (lowers s)) \/ (~ dns /\ exists u, parse_url s = Some u /\ i = Uri u).
(** The first value of the header, if any *)
Definition first_value (hs : headers) (v : bytes) : Prop :=
  exists pre post, hs = pre ++ (require_id, v) :: post /\ ~ In require_id (map fst pre).
(** Header values that are text *)
Definition text (v : bytes) : Prop := Forall (fun b => 32 <= b <= 126 \/ b = 9) v.

(** A connection is served. *)
Definition is_served (s : served) : Prop := s <> Refused_no_identity /\ s <> Transport_header_required.
(** Where a served connection goes to, if not through the gateway *)
Definition goes_to (s : served) (a : sock) : Prop :=
  match s with Local_tcp x _ _ => x = a | Local_http x _ _ _ => x = a | _ => False end.
(** Whose policy is checked *)
Definition checked (s : served) (a : sock) : Prop :=
  match s with Local_tcp _ _ p => p = a | Local_http _ _ _ p => p = a | Gateway _ _ _ _ p => p = a | _ => False end.
(** Which client it is served as *)
Definition served_as (s : served) (c : id) : Prop :=
  match s with Local_tcp _ x _ => x = c | Local_http _ x _ _ => x = c | Gateway _ _ x _ _ => x = c | _ => False end.
