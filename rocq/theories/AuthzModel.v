(** Model of linkerd/proxy/server-policy/src/authz.rs, of the authorization checks of
    linkerd/app/inbound/src/policy.rs, and of the addresses they look at. *)
From Coq Require Import List NArith Bool.
From Verif Require Import Bytes NameModel.
Import ListNotations.
Open Scope N_scope.

(** [std::net::IpAddr]: below 2^32 and 2^128. *)
Inductive ip := V4 (a : N) | V6 (a : N).
(** [ipnet::IpNet], of another crate: an address and a prefix length, at most 32 or 128. *)
Inductive ipnet := Net4 (a p : N) | Net6 (a p : N).

(** linkerd/proxy/transport/src/listen.rs:125-132 with [Ipv6Addr::to_ipv4_mapped]: the
    address of an accepted connection.  ::ffff:a.b.c.d is the IPv4 address. *)
Definition ipv4_mapped (a : ip) : ip :=
  match a with
  | V6 n => if N.shiftr n 32 =? 0xffff then V4 (N.land n 0xffffffff) else a
  | V4 _ => a
  end.

(** [Ipv4Net::network], [broadcast] and [contains], and the same for IPv6; for addresses
    of [w] bits. *)
Definition network (w a p : N) : N := N.ldiff a (N.ones (w - p)).
(** `Ipv4Net::broadcast` and its IPv6 counterpart, of the crate ipnet *)
Definition broadcast (w a p : N) : N := N.lor a (N.ones (w - p)).
(** `Ipv4Net::contains` of an address of the same family, of the crate ipnet *)
Definition range_contains (w a p i : N) : bool := (network w a p <=? i) && (i <=? broadcast w a p).
(** `IpNet::contains`: false across families; used at authz/network.rs:52-54 *)
Definition net_contains (n : ipnet) (i : ip) : bool :=
  match n, i with
  | Net4 a p, V4 i => range_contains 32 a p i
  | Net6 a p, V6 i => range_contains 128 a p i
  | _, _ => false
  end.

(** linkerd/addr/src/addr_match.rs:129-135 *)
Definition ip_match (nets : list ipnet) (i : ip) : bool := existsb (fun n => net_contains n i) nets.

(** authz/network.rs:4-7, 52-54 *)
Record net := Net { n_net : ipnet; n_except : list ipnet }.
(** authz/network.rs:52-54 *)
Definition network_contains (n : net) (i : ip) : bool :=
  net_contains (n_net n) i && negb (existsb (fun e => net_contains e i) (n_except n)).

(** authz.rs:36-53.  A suffix is its `ends_with` text. *)
Definition suffix_of_parts (parts : list bytes) : bytes :=
  match parts with [] => [] | _ => 46 :: join 46 parts end.
(** authz.rs:50-53: `name.ends_with(&self.ends_with)` *)
Definition suffix_contains (sfx name : bytes) : bool := ends_with sfx name.

(** authz.rs:8-31, without the metadata. *)
Inductive authentication :=
| Unauthenticated
| Tls_unauthenticated
| Tls_authenticated (identities : list bytes) (suffixes : list bytes).
(** authz.rs:8-13, without `meta` *)
Record authorization := Authorization { au_networks : list net; au_authentication : authentication }.

(** linkerd/identity/src/lib.rs:24-27; a URI is its serialization. *)
Inductive id := Dns (n : bytes) | Uri (u : bytes).
(** lib.rs:64-69 *)
Definition id_str (i : id) : bytes := match i with Dns n => n | Uri u => u end.
(** lib.rs:38-62; `Url::parse` is of another crate. *)
Definition id_from_str (url_parse : bytes -> option bytes) (s : bytes) : option id :=
  match name_from_str s with
  | Some n => if ends_with [46] n then option_map Uri (url_parse s) else Some (Dns n)
  | None => option_map Uri (url_parse s)
  end.

(** linkerd/tls/src/server.rs:30-65, without the negotiated protocol, the server name and
    the reason for the lack of TLS. *)
Inductive tls := Established (client_id : option id) | Passthru | No_tls.

(** Helper for `BTreeSet::contains`, policy.rs: check_authorized *)
Definition mem (s : bytes) (l : list bytes) : bool := existsb (beq s) l.

(** policy.rs:172-200 *)
Definition is_tls_authorized (t : tls) (a : authorization) : bool :=
  match au_authentication a with
  | Unauthenticated => true
  | Tls_unauthenticated => match t with Established _ => true | _ => false end
  | Tls_authenticated identities suffixes =>
      match t with
      | Established (Some i) =>
          match i with
          | Uri _ => mem (id_str i) identities
          | Dns _ => mem (id_str i) identities || existsb (fun s => suffix_contains s (id_str i)) suffixes
          end
      | _ => false
      end
  end.

(** policy.rs:202-212 *)
Definition is_authorized (a : authorization) (client : ip) (t : tls) : bool :=
  if negb (existsb (fun n => network_contains n client) (au_networks a)) then false
  else is_tls_authorized t a.

(** The search of policy/http.rs:226-229 and policy/tcp.rs:196-213 *)
Definition find_authz (l : list authorization) (client : ip) (t : tls) : option authorization :=
  find (fun a => is_authorized a client t) l.

(** ** What the control plane sends: authz.rs:80-165.  Networks have been read by the API
    crate: [None] when the text or prefix is wrong. *)
Inductive permit := P_unauthenticated | P_mesh (clients : option clients)
with clients := C_unauthenticated | C_identities (identities : list bytes) (suffixes : list (list bytes)).
(** authz.rs:80-165 reads `api::Network`; [None] is a network that the API crate refuses *)
Record api_net := ApiNet { an_net : option ipnet; an_except : list (option ipnet) }.
(** authz.rs:80-165 reads `api::Authz` *)
Record api_authz := ApiAuthz { aa_networks : list api_net; aa_permit : option permit }.

(** Helper: `collect::<Result<Vec<_>, _>>()`; an error is [None] *)
Fixpoint all_some {A} (l : list (option A)) : option (list A) :=
  match l with
  | [] => Some []
  | None :: _ => None
  | Some x :: l => option_map (cons x) (all_some l)
  end.
(** authz.rs:80-165, the part for networks *)
Definition net_of (n : api_net) : option net :=
  match an_net n, all_some (an_except n) with
  | Some m, Some e => Some (Net m e)
  | _, _ => None
  end.
(** authz.rs:80-165, the part for `authn.permit` *)
Definition authn_of (p : permit) : option authentication :=
  match p with
  | P_unauthenticated => Some Unauthenticated
  | P_mesh None => None
  | P_mesh (Some C_unauthenticated) => Some Tls_unauthenticated
  | P_mesh (Some (C_identities ids sfxs)) => Some (Tls_authenticated ids (map suffix_of_parts sfxs))
  end.
(** authz.rs:99-165, without the metadata, which can also be refused *)
Definition authz_of (a : api_authz) : option authorization :=
  match aa_networks a with
  | [] => None
  | ns =>
      match all_some (map net_of ns), aa_permit a with
      | Some ns, Some p => option_map (Authorization ns) (authn_of p)
      | _, _ => None
      end
  end.
(** authz.rs:80-91 *)
Definition mk_authorizations (l : list api_authz) (parents : list authorization) : option (list authorization) :=
  option_map (fun l => l ++ parents) (all_some (map authz_of l)).
(** server-policy/src/lib.rs:159-173: 127.0.0.1/32 and ::1/128 *)
Definition localhost : authorization :=
  Authorization [Net (Net4 (127 * 2 ^ 24 + 1) 32) []; Net (Net6 1 128) []] Unauthenticated.
(** server-policy/src/lib.rs:159-173: mk_authorizations with the loopback authorization *)
Definition server_authorizations (l : list api_authz) : option (list authorization) := mk_authorizations l [localhost].
