(** Model of how the outbound proxy connects to an endpoint
    (linkerd/app/outbound/src/http/concrete.rs, opaq/concrete.rs, tls/concrete.rs,
    http/endpoint.rs, http/require_id_header.rs and tcp/tagged_transport.rs) and of how the
    inbound proxy takes a connection to its own port (linkerd/app/inbound/src/direct.rs).

    Simplifications: an authority is its text, and what `http::uri::Authority` says of its
    host and port is a parameter; so is parsing a URL. *)
From Coq Require Import List NArith Bool.
From Verif Require Import Bytes NameModel TransportModel FilterModel TraceModel EndpointModel.
Import ListNotations.
Open Scope N_scope.

(** transport-header/src/lib.rs:41 *)
Definition PROTOCOL : bytes :=
  [116; 114; 97; 110; 115; 112; 111; 114; 116; 46; 108; 53; 100; 46; 105; 111; 47; 118; 49].

(** ** Endpoints *)

(** http/concrete.rs:52-62 *)
Record endpoint := Endpoint { e_addr : sock; e_local : bool; e_meta : metadata }.
(** `HashSet<IpAddr>::contains` *)
Definition contains (ips : list (list N)) (ip : list N) : bool := existsb (beq ip) ips.
(** http/concrete.rs:133-147 and http/concrete/balance.rs:147-165; the same for balanced
    endpoints in opaq/concrete.rs:184-192 and tls/concrete.rs:162-170 *)
Definition new_endpoint (inbound_ips : list (list N)) (addr : sock) (meta : metadata) : endpoint :=
  Endpoint addr (contains inbound_ips (s_ip addr)) meta.
(** opaq/concrete.rs:223-230 and tls/concrete.rs:196-202 *)
Definition new_forward (addr : sock) (meta : metadata) : endpoint := Endpoint addr false meta.

(** http/concrete.rs:179-188 *)
Definition port_override (e : endpoint) : option N := if e_local e then None else m_port (e_meta e).
(** http/concrete.rs:190-200 *)
Definition authority_override (e : endpoint) : option bytes := if e_local e then None else m_authority (e_meta e).

(** tls/src/client.rs:39-53 *)
Inductive no_tls := Loopback | Not_provided.
(** http/concrete.rs:255-283 *)
Definition conditional_tls (e : endpoint) : client_tls + no_tls :=
  if e_local e then inr Loopback
  else
    let use_transport_header :=
      (match m_port (e_meta e) with Some _ => true | None => false end) ||
      (match m_authority (e_meta e) with Some _ => true | None => false end) in
    match m_tls (e_meta e) with
    | Some t => inl (ClientTls (t_id t) (t_name t) (if use_transport_header then Some [PROTOCOL] else None))
    | None => inr Not_provided
    end.

(** http/variant/src/lib.rs:9-14: the version of HTTP of the requests *)
Inductive variant := V1 | V2.
(** proxy/http/src/client.rs:22-26: which client is used *)
Inductive client := Client_h2 | Client_http1 | Client_upgrade.
(** http/concrete.rs:301-328 *)
Definition client_params (v : variant) (e : endpoint) : client :=
  match v with
  | V2 => Client_h2
  | V1 =>
      if e_local e then Client_http1
      else match m_hint (e_meta e) with
           | Unknown | Opaque => Client_http1
           | EndpointModel.Http2 => Client_upgrade
           end
  end.
(** http/endpoint.rs:180-198, the version being that of the connection *)
Definition session_protocol (v : variant) (e : endpoint) : option session :=
  match m_hint (e_meta e) with
  | Opaque => None
  | _ => match v with V1 => Some Http1 | V2 => Some TransportModel.Http2 end
  end.

(** ** Connections *)

(** What is connected to, whether with TLS, and what is written when the protocol [np] was
    negotiated *)
Record attempt := Attempt {
  a_addr : sock; a_tls : client_tls + no_tls; a_header : option bytes -> option header }.

Section Connect.
Variable host : bytes -> bytes.
Variable port_u16 : bytes -> option N.

(** tcp/tagged_transport.rs:66-133 and 36-42.  `protocol` is [session_protocol] for HTTP and
    `None` for other connections (opaq/concrete.rs:325-329, tls/concrete.rs:298-302).  A
    connection without TLS has no negotiated protocol. *)
Definition tagged_transport (e : endpoint) (protocol : option session) : attempt :=
  let addr := e_addr e in
  match conditional_tls e with
  | inr reason => Attempt addr (inr reason) (fun _ => None)
  | inl tls =>
      let connect_port := match port_override e with Some p => p | None => s_port addr end in
      let '(name, target_port) :=
        match authority_override e with
        | Some authority =>
            match port_u16 authority with
            | Some override_port => (name_from_str (host authority), override_port)
            | None => (None, s_port addr)
            end
        | None => (None, s_port addr)
        end in
      Attempt (Sock (s_ip addr) connect_port) (inl tls)
        (fun np =>
           match np with
           | Some p => if beq p PROTOCOL then Some (Header target_port name protocol) else None
           | None => None
           end)
  end.
End Connect.

(** ** http/require_id_header.rs *)

(** `==` on identities *)
Definition id_eqb (a b : id) : bool :=
  match a, b with
  | Dns x, Dns y => beq x y
  | Uri x, Uri y => beq x y
  | _, _ => false
  end.

(** require_id_header.rs:7 *)
Definition HEADER_NAME : bytes := [108; 53; 100; 45; 114; 101; 113; 117; 105; 114; 101; 45; 105; 100].

(** What becomes of a request *)
Inductive required := Forwarded (hs : headers) | Identity_required (required : id) (found : option id).

Section Require.
Variable parse_url : bytes -> option bytes.

(** identity/src/lib.rs:38-42 *)
Definition id_from_str (s : bytes) : option id :=
  match parse_dns_id s with Some i => Some i | None => parse_uri_id parse_url s end.

(** require_id_header.rs:60-63: `remove` removes every value and gives the first. *)
Definition extract_id (hs : headers) : option id * headers :=
  match hm_get hs HEADER_NAME with
  | None => (None, hs)
  | Some v =>
      (match to_str v with Some s => id_from_str s | None => None end, hm_remove hs HEADER_NAME)
  end.

(** require_id_header.rs:80-116 *)
Definition require_identity (tls : client_tls + no_tls) (hs : headers) : required :=
  let '(r, hs) := extract_id hs in
  match r with
  | Some require_id =>
      match tls with
      | inl t => if negb (id_eqb require_id (t_id t)) then Identity_required require_id (Some (t_id t)) else Forwarded hs
      | inr _ => Identity_required require_id None
      end
  | None => Forwarded hs
  end.
End Require.

(** ** linkerd/app/inbound/src/direct.rs *)

(** tls/src/server.rs:30-38; [None]: the connection has no TLS *)
Inductive server_tls := Established (client_id : option id) (negotiated : option bytes) | Passthru (sni : bytes).
(** direct.rs:63-70 *)
Record client_info := ClientInfo { c_id : id; c_alpn : option bytes; c_addr : sock; c_local : sock }.

(** Who serves a connection, and whose policy is checked: `OrigDstAddr` *)
Inductive served :=
| Refused_no_identity
| Transport_header_required
| Local_tcp (addr : sock) (client : id) (policy : sock)
| Local_http (addr : sock) (client : id) (protocol : session) (policy : sock)
| Gateway (name : bytes) (port : N) (client : id) (protocol : option session) (policy : sock).

(** direct.rs:250-263 *)
Definition client_info_of (tls : option server_tls) (remote local : sock) : option client_info :=
  match tls with
  | Some (Established (Some client_id) np) => Some (ClientInfo client_id np remote local)
  | _ => None
  end.
(** direct.rs:267-272 *)
Definition header_negotiated (c : client_info) : bool :=
  match c_alpn c with Some p => beq p PROTOCOL | None => false end.
(** direct.rs:149-198 *)
Definition switch (h : header) (c : client_info) : served :=
  match h_name h with
  | None =>
      let addr := Sock (s_ip (c_local c)) (h_port h) in
      match h_protocol h with
      | None => Local_tcp addr (c_id c) addr
      | Some protocol => Local_http addr (c_id c) protocol addr
      end
  | Some name => Gateway name (h_port h) (c_id c) (h_protocol h) (c_local c)
  end.
(** direct.rs:216-228; [h]: the header that is read once the connection was accepted *)
Definition direct (tls : option server_tls) (remote local : sock) (h : header) : served :=
  match client_info_of tls remote local with
  | None => Refused_no_identity
  | Some c => if header_negotiated c then switch h c else Transport_header_required
  end.
