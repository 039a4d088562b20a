(** Model of the clients of the control plane: linkerd/app/core/src/control.rs, with where they connect to
    (EnvModel, DnsModel) and how they authenticate it (MtlsModel).

    The balancer, reconnecting and the recovery of resolutions are modelled elsewhere (BalanceModel, ReconnectModel,
    DnsModel). *)
From Coq Require Import String List NArith ZArith Bool.
From Verif Require Import Bytes NameModel EndpointModel FilterModel Http1Model DnsModel MtlsModel.
From Verif Require EnvModel.
Import ListNotations.
Open Scope N_scope.

(** app/src/env.rs:1067-1077, tls/src/client.rs, `ClientTls::new`: the name is that of the server both as an identity
    and in the handshake. *)
Definition identity_of (c : EnvModel.control_addr) : option client_tls :=
  match EnvModel.ca_identity c with Some n => Some (ClientTls (Dns n) n None) | None => None end.

(** control.rs:431-435 *)
Record target := Target { g_addr : sock; g_tls : option client_tls }.
(** control.rs:388-407: the target of an address that was resolved *)
Definition into_target (c : EnvModel.control_addr) (a : sock) : target := Target a (identity_of c).
(** control.rs:265 with dns-resolve/src/lib.rs:44-63: the targets that the balancer has, one time or another, when
    these are the answers of DNS *)
Definition targets (c : EnvModel.control_addr) (answers : list (list sock)) : list target :=
  map (into_target c) (match dns_resolve (EnvModel.ca_addr c) with Fixed addrs => addrs | Resolved _ => concat answers end).
(** control.rs:107-116, 437-463: the address that is connected to, and what the connection becomes; [None]: an error *)
Definition connect (L : lib) (t : target) (p : peer) (now : Z) : option (sock * connected) :=
  match client_connect L (g_tls t) p now with Some k => Some (g_addr t, k) | None => None end.

(** control.rs:45-56: the capacity, and the timeout in nanoseconds, of the queue before the balancer
    (proxy/balance/src/lib.rs:134-135) *)
Definition queue_of (_ : EnvModel.control_config) : EnvModel.queue_config := EnvModel.QueueConfig 1000 30000000000.

(** addr/src/lib.rs:88-109, the text that is handed to the `http` crate; [show_ip] and [show_sock] are `Display` of
    `IpAddr` and `SocketAddr`. *)
Definition to_http_authority (show_ip : list N -> bytes) (show_sock : sock -> bytes) (a : addr) : bytes :=
  match a with
  | Name n => as_http_authority n
  | Socket s =>
      if s_port s =? 80 then
        if N.of_nat (List.length (s_ip s)) =? 4 then show_ip (s_ip s) else bs "["%string ++ show_ip (s_ip s) ++ bs "]"%string
      else show_sock s
  end.
(** control.rs:215-224; [None]: a panic *)
Definition add_origin (authority : authority) (u : uri) : option uri :=
  let p := into_parts u in
  from_parts (Parts (Some HTTP) (Some authority) (p_path_and_query p)).
