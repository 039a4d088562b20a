(** Model of the proxy's mutual TLS: linkerd/meshtls/verifier/src/lib.rs, linkerd/meshtls/src (creds.rs, creds/store.rs,
    creds/receiver.rs, creds/verify.rs, client.rs, server.rs), linkerd/tls/src (client.rs, server.rs),
    linkerd/identity/src (lib.rs, metrics.rs), linkerd/app/src/identity.rs, linkerd/proxy/identity-client/src/certify.rs
    and linkerd/proxy/spire-client/src (lib.rs, api.rs).

    Times are nanoseconds since the UNIX epoch, durations nanoseconds. *)
From Coq Require Import List NArith ZArith Bool.
From Verif Require Import Bytes NameModel.
From Verif Require Import EndpointModel.
Import ListNotations.
Open Scope N_scope.

(** ** Certificates *)

(** `x509_parser`'s names of a certificate *)
Inductive general_name := San_dns (n : bytes) | San_uri (u : bytes) | San_other.
(** A certificate in DER *)
Definition der := bytes.
(** A certificate chain, leaf first, and its private key *)
Record credential := Credential { cr_leaf : der; cr_intermediates : list der; cr_key : bytes }.

(** What other crates do: `X509Certificate::from_der`, which may fail, with the certificate's alternative names, if it
    has that extension and it can be read; its `not_after` in seconds; `Url::parse`'s serialization; whether a chain is
    signed by the trust anchors at a time, by rustls' verifier for servers and by that for clients; whether
    `CertifiedKey::from_der` takes the chain and the key *)
Record lib := Lib {
  x_parses : der -> bool;
  x_names : der -> option (option (list general_name));
  x_not_after : der -> Z;
  x_url : bytes -> option bytes;
  x_trusted_server : der -> list der -> Z -> bool;
  x_trusted_client : der -> list der -> Z -> bool;
  x_key : credential -> bool }.

Section Lib.
Variable L : lib.

(** `PartialEq for Id`, identity/src/lib.rs:23 *)
Definition id_eq (a b : id) : bool :=
  match a, b with Dns x, Dns y => beq x y | Uri x, Uri y => beq x y | _, _ => false end.

(** meshtls/verifier/src/lib.rs:16-20 with identity/src/lib.rs:46-62; a name that cannot be read is skipped *)
Definition read_name (n : general_name) : option id :=
  match n with
  | San_dns n => parse_dns_id n
  | San_uri u => parse_uri_id (x_url L) u
  | San_other => None
  end.
(** meshtls/verifier/src/lib.rs:12-30: `filter_map` *)
Fixpoint read_names (ns : list general_name) : list id :=
  match ns with
  | [] => []
  | n :: ns => match read_name n with Some i => i :: read_names ns | None => read_names ns end
  end.
(** meshtls/verifier/src/lib.rs:5-33 *)
Definition extract_ids (cert : der) : option (list id) :=
  if x_parses L cert then
    match x_names L cert with
    | None => None
    | Some None => Some []
    | Some (Some ns) => Some (read_names ns)
    end
  else None.
(** meshtls/verifier/src/lib.rs:35-41 *)
Definition client_identity (cert : der) : option id :=
  match extract_ids cert with
  | Some (i :: _) => Some i
  | _ => None
  end.
(** meshtls/verifier/src/lib.rs:43-54 *)
Definition verify_id (cert : der) (expected : id) : bool :=
  existsb (id_eq expected) (match extract_ids cert with Some ids => ids | None => [] end).

(** ** Handshakes *)

(** What a peer does in a handshake, as rustls sees it: the chain that it sends, whether it proves that it has the
    leaf's key, and the protocol that is negotiated.  Simplification: a handshake that fails for other reasons is one of
    a peer that proves nothing. *)
Record peer := Peer { p_chain : list der; p_proves : bool; p_alpn : option bytes }.

(** meshtls/src/creds/verify.rs:41-64 as rustls' client calls it: a server must have a certificate. *)
Definition rustls_connect (p : peer) (now : Z) : bool :=
  match p_chain p with
  | [] => false
  | leaf :: rest => x_trusted_server L leaf rest now && p_proves p
  end.
(** meshtls/src/client.rs:84-89, 103-124: the protocol that was negotiated, or an error *)
Definition mtls_connect (server_id : id) (p : peer) (now : Z) : option (option bytes) :=
  if rustls_connect p now then
    match p_chain p with
    | [] => None
    | leaf :: _ => if verify_id leaf server_id then Some (p_alpn p) else None
    end
  else None.

(** tls/src/client.rs:79-82: what a connection became: without TLS for a reason, or with a protocol *)
Inductive connected := Plaintext | Encrypted (alpn : option bytes).
(** tls/src/client.rs:137-148, 158-194, of a transport that is connected; [None] is an error. *)
Definition client_connect (tls : option client_tls) (p : peer) (now : Z) : option connected :=
  match tls with
  | None => Some Plaintext
  | Some t => match mtls_connect (t_id t) p now with Some alpn => Some (Encrypted alpn) | None => None end
  end.

(** meshtls/src/server.rs:129-135 *)
Definition peer_identity (p : peer) : option id :=
  match p_chain p with
  | [] => None
  | leaf :: _ => client_identity leaf
  end.
(** tls/src/server.rs:30-38 *)
Inductive server_tls := Established (client_id : option id) (alpn : option bytes) | Passthru (sni : bytes).
(** meshtls/src/creds/store.rs:47-71 as rustls' server uses it: a server without a certificate refuses, a client may
    have none. [scheme]: whether the client supports the signature scheme (store.rs:170-180). *)
Definition rustls_accept (cfg : option credential) (scheme : bool) (p : peer) (now : Z) : bool :=
  match cfg with
  | None => false
  | Some _ =>
      scheme && match p_chain p with
                | [] => true
                | leaf :: rest => x_trusted_client L leaf rest now && p_proves p
                end
  end.
(** meshtls/src/server.rs:106-126 *)
Definition mtls_accept (cfg : option credential) (scheme : bool) (p : peer) (now : Z) : option server_tls :=
  if rustls_accept cfg scheme p now then Some (Established (peer_identity p) (p_alpn p)) else None.
(** tls/src/server.rs:177-199: what a connection is taken for, given the server name of its ClientHello; the outer
    [None] is an error, the inner that there is no TLS. *)
Definition server_accept (local_name : bytes) (cfg : option credential) (sni : option bytes) (scheme : bool) (p : peer)
    (now : Z) : option (option server_tls) :=
  match sni with
  | Some n =>
      if beq n local_name then
        match mtls_accept cfg scheme p now with Some t => Some (Some t) | None => None end
      else Some (Some (Passthru n))
  | None => Some None
  end.
(** tls/src/server.rs:309-314, for connections with TLS and without *)
Definition authenticated_as (t : option server_tls) : option id :=
  match t with
  | Some (Established i _) => i
  | _ => None
  end.

(** ** The credentials in use *)

(** creds/store.rs:109-126; the server name, which `AnySanVerifier` ignores (verify.rs:45), is left out. *)
Definition validate (local_id : id) (c : credential) (now : Z) : bool :=
  x_trusted_server L (cr_leaf c) (cr_intermediates c) now && verify_id (cr_leaf c) local_id.

(** What remains to be done of `set_certificate`: creds/store.rs:159-160, app/src/identity.rs:153,
    identity/src/metrics.rs:98-116 *)
Inductive publish := To_clients (c : credential) | To_servers (c : credential) | Ready | Metrics (now expiry : Z).
(** The watches of the credentials (creds.rs:54-74), with the configurations' certificates; the readiness of
    app/src/identity.rs:36; the metrics of identity/src/metrics.rs:10-15; what `set_certificate` still does; and the
    configuration of a server with protocols (meshtls/src/server.rs:45-83) with the version that its task has seen, and
    whether it has still to copy the configuration *)
Record store := Store {
  st_client : option credential; st_server : option credential; st_version : N;
  st_ready : bool; st_refreshes : N; st_errors : N; st_refresh_ts : Z; st_expiry_ts : Z;
  st_todo : list publish;
  st_alpn : option credential; st_alpn_seen : N; st_alpn_copy : bool }.
(** creds.rs:54-86, app/src/identity.rs:125-140: without a certificate *)
Definition init_store : store := Store None None 0 false 0 0 0 0 [] None 0 false.

(** What may happen: creds/store.rs:130-163 and its effects one by one; meshtls/src/server.rs:63-78 *)
Inductive op :=
| Set_certificate (c : credential) (now expiry : Z)   (* called when the last call has returned *)
| Publish (now : Z)                                     (* the next of its effects *)
| Alpn_changed                                          (* the task of [spawn_with_alpn] sees a change, *)
| Alpn_copy.                                            (* and copies the configuration that there is then *)

(** creds/store.rs:130-163; [true] if the call succeeds *)
Definition accepts (local_id : id) (c : credential) (now : Z) : bool := validate local_id c now && x_key L c.
(** One step, if it can be taken: identity/src/metrics.rs:86-119 over app/src/identity.rs:145-155 over creds/store.rs:130-163,
    and meshtls/src/server.rs:61-80. The timestamps are floats of seconds in the code. *)
Definition step (local_id : id) (o : op) (s : store) : option store :=
  match o with
  | Set_certificate c now expiry =>
      match st_todo s with
      | [] =>
          if accepts local_id c now then
            Some (Store (st_client s) (st_server s) (st_version s) (st_ready s) (st_refreshes s) (st_errors s)
                        (st_refresh_ts s) (st_expiry_ts s) [To_clients c; To_servers c; Ready; Metrics now expiry]
                        (st_alpn s) (st_alpn_seen s) (st_alpn_copy s))
          else
            Some (Store (st_client s) (st_server s) (st_version s) (st_ready s) (st_refreshes s) (st_errors s + 1)
                        (st_refresh_ts s) (st_expiry_ts s) [] (st_alpn s) (st_alpn_seen s) (st_alpn_copy s))
      | _ => None
      end
  | Publish now =>
      match st_todo s with
      | [] => None
      | To_clients c :: todo =>
          Some (Store (Some c) (st_server s) (st_version s) (st_ready s) (st_refreshes s) (st_errors s)
                      (st_refresh_ts s) (st_expiry_ts s) todo (st_alpn s) (st_alpn_seen s) (st_alpn_copy s))
      | To_servers c :: todo =>
          Some (Store (st_client s) (Some c) (st_version s + 1) (st_ready s) (st_refreshes s) (st_errors s)
                      (st_refresh_ts s) (st_expiry_ts s) todo (st_alpn s) (st_alpn_seen s) (st_alpn_copy s))
      | Ready :: todo =>
          Some (Store (st_client s) (st_server s) (st_version s) true (st_refreshes s) (st_errors s)
                      (st_refresh_ts s) (st_expiry_ts s) todo (st_alpn s) (st_alpn_seen s) (st_alpn_copy s))
      | Metrics _ expiry :: todo =>
          Some (Store (st_client s) (st_server s) (st_version s) (st_ready s) (st_refreshes s + 1) (st_errors s)
                      (if (0 <=? now)%Z then now else st_refresh_ts s)
                      (if (0 <=? expiry)%Z then expiry else st_expiry_ts s) todo (st_alpn s) (st_alpn_seen s) (st_alpn_copy s))
      end
  | Alpn_changed =>
      if st_alpn_copy s then None
      else if st_alpn_seen s =? st_version s then None
      else Some (Store (st_client s) (st_server s) (st_version s) (st_ready s) (st_refreshes s) (st_errors s)
                       (st_refresh_ts s) (st_expiry_ts s) (st_todo s) (st_alpn s) (st_version s) true)
  | Alpn_copy =>
      if st_alpn_copy s then
        Some (Store (st_client s) (st_server s) (st_version s) (st_ready s) (st_refreshes s) (st_errors s)
                    (st_refresh_ts s) (st_expiry_ts s) (st_todo s) (st_server s) (st_alpn_seen s) false)
      else None
  end.

(** ** Certification by the identity controller *)

(** What the controller answers to a request: an error (of the token, of the request), or a certificate and perhaps
    the time until which it is valid, as seconds and nanoseconds *)
Inductive answer := Failed | Certified (leaf : der) (intermediates : list der) (valid_until : option (Z * Z)).

(** `SystemTime::try_from` of a timestamp, certify.rs:174. Simplification: beyond the range it fails, where the conversion
    may also take the last time that there is. *)
Definition to_time (ts : Z * Z) : option Z :=
  let t := (fst ts * 1000000000 + snd ts)%Z in
  if ((-9223372036854775808 * 1000000000 <=? t) && (t <? 9223372036854775808 * 1000000000))%Z then Some t else None.

(** certify.rs:167-182, given the time when it is looked at: the credentials to set, with their expiry *)
Definition certified (key : bytes) (a : answer) (now : Z) : option (credential * Z) :=
  match a with
  | Failed => None
  | Certified leaf inter valid_until =>
      match valid_until with
      | None => None
      | Some ts =>
          match to_time ts with
          | None => None
          | Some expiry => if (expiry <=? now)%Z then None else Some (Credential leaf inter key, expiry)
          end
      end
  end.
(** certify.rs:148-186: the expiry, if the credentials take the certificate *)
Definition certify (local_id : id) (key : bytes) (a : answer) (now : Z) : option Z :=
  match certified key a now with
  | Some (c, expiry) => if accepts local_id c now then Some expiry else None
  | None => None
  end.

(** Durations are below 2^64 seconds; the product of certify.rs:196 panics beyond *)
Definition duration_limit : Z := 18446744073709551616 * 1000000000.
(** certify.rs:192-203; [None] is the panic of an overflow. *)
Definition refresh_in (min_refresh max_refresh : N) (expiry now : Z) : option N :=
  if (expiry <? now)%Z then Some min_refresh
  else
    let d := (expiry - now)%Z in
    if (duration_limit <=? d * 7)%Z then None
    else
      let lifetime := Z.to_N (d * 7 / 10) in
      Some (if lifetime <? min_refresh then min_refresh
            else if max_refresh <? lifetime then max_refresh
            else lifetime).

(** certify.rs:100-131: the expiry of the certificate in use, and when the next request is made; [None] after a panic.
    An attempt has the answer, the time when it is looked at, and that when the delay is computed. *)
Record daemon := Daemon { d_expiry : Z; d_next : Z }.
(** certify.rs:103-130: a turn of the loop *)
Definition attempt (min_refresh max_refresh : N) (local_id : id) (key : bytes) (a : answer) (now later : Z) (d : daemon)
  : option daemon :=
  let expiry := match certify local_id key a now with Some e => e | None => d_expiry d end in
  match refresh_in min_refresh max_refresh expiry later with
  | Some sleep => Some (Daemon expiry (later + Z.of_N sleep))
  | None => None
  end.

(** ** Certificates of SPIRE *)

(** api.rs:24-29 *)
Record svid := Svid { sv_id : id; sv_leaf : der; sv_key : bytes; sv_intermediates : list der }.
(** `X509svid` of the messages; `asn1` splits the certificates, or fails (api.rs:88-100) *)
Record pb_svid := PbSvid { pbs_id : bytes; pbs_certs : option (list der); pbs_key : bytes }.
(** api.rs:83-110 *)
Definition to_svid (pb : pb_svid) : option svid :=
  match pbs_key pb with
  | [] => None
  | key =>
      match pbs_certs pb with
      | None | Some [] => None
      | Some (leaf :: rest) =>
          match parse_uri_id (x_url L) (pbs_id pb) with
          | Some i => Some (Svid i leaf key rest)
          | None => None
          end
      end
  end.
(** api.rs:163-172: those that cannot be read are skipped *)
Fixpoint to_svids (pbs : list pb_svid) : list svid :=
  match pbs with
  | [] => []
  | pb :: pbs => match to_svid pb with Some s => s :: to_svids pbs | None => to_svids pbs end
  end.
(** api.rs:49-56 with 207: of several with the same identity the last is in the map *)
Fixpoint find_svid (i : id) (l : list svid) : option svid :=
  match l with
  | [] => None
  | s :: l => match find_svid i l with Some t => Some t | None => if id_eq (sv_id s) i then Some s else None end
  end.
(** api.rs:203-218: the credentials to set, with their expiry *)
Definition process_svid (i : id) (update : list svid) : option (credential * Z) :=
  match find_svid i update with
  | None => None
  | Some s =>
      if x_parses L (sv_leaf s) then
        if (x_not_after L (sv_leaf s) <? 0)%Z then None
        else Some (Credential (sv_leaf s) (sv_intermediates s) (sv_key s), (x_not_after L (sv_leaf s) * 1000000000)%Z)
      else None
  end.
(** lib.rs:40-57: the consumer of a watch of updates. [sp_watch] is the current one and its version, [sp_seen] the
    version that was processed last, [sp_sets] what the credentials were given, last first *)
Record spire := Spire { sp_watch : list svid; sp_version : N; sp_seen : option N; sp_sets : list (credential * Z) }.
(** An update arrives in the watch (lib.rs:42), or the consumer takes it (lib.rs:48-55). *)
Inductive spire_op := Update (u : list svid) | Consume.
(** lib.rs:47-56 *)
Definition spire_step (i : id) (o : spire_op) (s : spire) : option spire :=
  match o with
  | Update u => Some (Spire u (sp_version s + 1) (sp_seen s) (sp_sets s))
  | Consume =>
      if match sp_seen s with Some v => v =? sp_version s | None => false end then None
      else Some (Spire (sp_watch s) (sp_version s) (Some (sp_version s))
                       (match process_svid i (sp_watch s) with Some c => c :: sp_sets s | None => sp_sets s end))
  end.
End Lib.
