(** What C84 to C89 say *)
From Coq Require Import String List NArith QArith Bool.
From Verif Require Import Bytes NameModel NameSpec EndpointModel DnsModel DnsSpec EnvModel.
From Verif Require AuthzModel PolicyStoreModel PolicyStoreSpec WatchModel RetrySpec ProfileSpec.
Import ListNotations.
Open Scope N_scope.

(** ** Texts (C84) *)

Definition blank (c : N) : Prop := 9 <= c <= 13 \/ c = 32.
Definition blanks (w : bytes) : Prop := Forall blank w.
(** [r] without the blanks around it is [t] *)
Definition bare (r t : bytes) : Prop :=
  exists a b, r = a ++ t ++ b /\ blanks a /\ blanks b /\
    (forall c x, t = c :: x -> ~ blank c) /\ (forall c x, t = x ++ [c] -> ~ blank c).

(** Units of time, in nanoseconds *)
Inductive unit_of : bytes -> N -> Prop :=
| U_ms : unit_of (bs "ms"%string) 1000000
| U_s : unit_of (bs "s"%string) 1000000000
| U_m : unit_of (bs "m"%string) (60 * 1000000000)
| U_h : unit_of (bs "h"%string) (60 * 60 * 1000000000)
| U_d : unit_of (bs "d"%string) (24 * 60 * 60 * 1000000000).
(** [s] says [n] times [k] nanoseconds.  Only zero needs no unit. *)
Definition written (s : bytes) (n k : N) : Prop :=
  exists w1 d u w2, s = w1 ++ d ++ u ++ w2 /\ blanks w1 /\ blanks w2 /\
    RetrySpec.digits d /\ n = RetrySpec.decimal d /\ (unit_of u k \/ (u = [] /\ n = 0 /\ k = 0)).
(** Durations count their seconds with 64 bits, and go round beyond. *)
Definition all_seconds : N := 18446744073709551616 * 1000000000.
Definition lasts (s : bytes) (d : N) : Prop :=
  exists n k, written s n k /\ n <= u64_max /\ d = (n * k) mod all_seconds.

Definition counts (max : N) (s : bytes) (n : N) : Prop := RetrySpec.number s n /\ n <= max.
Definition truth (s : bytes) (b : bool) : Prop := (s = bs "true"%string /\ b = true) \/ (s = bs "false"%string /\ b = false).

(** The elements of a list, without the blanks around them; empty ones do not count. *)
Definition elements (s : bytes) (l : list bytes) : Prop :=
  exists raw, RetrySpec.items s raw /\ ProfileSpec.kept (fun r t => bare r t /\ t <> []) raw l.
Definition list_of {A} (meaning : bytes -> A -> Prop) (s : bytes) (l : list A) : Prop :=
  exists ts, elements s ts /\ Forall2 meaning ts l.
(** A port, or the first and last port of a range *)
Definition port_range (t : bytes) (r : N * N) : Prop :=
  (exists t', ~ In 45 t /\ bare t t' /\ counts 65535 t' (fst r) /\ snd r = fst r) \/
  (exists a b a' b', t = a ++ [45] ++ b /\ ~ In 45 a /\ bare a a' /\ bare b b' /\
     counts 65535 a' (fst r) /\ counts 65535 b' (snd r) /\ fst r <= snd r).
Definition suffix_text (t : bytes) (s : suffix) : Prop :=
  (t = [dot] /\ s = SRoot) \/ (t <> [dot] /\ dns_name t /\ s = SName (lowers t)).

Section Texts.
Variable parse_v6 : bytes -> option (list N).
Variable parse_sock6 : bytes -> option sock.
Variable parse_net : bytes -> option AuthzModel.ipnet.
Variable url_parse : bytes -> option bytes.
Variable parse_f64 : bytes -> option f64.
Variable read_to_string : bytes -> option bytes.
Variable token_ok : bytes -> bool.
Variable documents_ok : bytes -> bool.

Definition net_text (t : bytes) (n : AuthzModel.ipnet) : Prop := parse_net t = Some n.
Definition ip_text (t : bytes) (ip : list N) : Prop :=
  v4_text t ip \/ ((forall ip', ~ v4_text t ip') /\ parse_v6 t = Some ip).
(** The addresses of INBOUND_IPS: neither blanks nor empty elements are allowed. *)
Definition ips_text (s : bytes) (ips : list (list N)) : Prop :=
  exists ts, RetrySpec.items s ts /\ Forall2 ip_text ts ips.
Definition sock4_text (s : bytes) (a : sock) : Prop :=
  exists ip d, v4_text ip (s_ip a) /\ RetrySpec.digits d /\ s = ip ++ bs ":"%string ++ d /\
    s_port a = RetrySpec.decimal d /\ s_port a <= 65535.
Definition sock_text (s : bytes) (a : sock) : Prop :=
  sock4_text s a \/ ((forall a', ~ sock4_text s a') /\ parse_sock6 s = Some a).
Definition name_text (s : bytes) (a : name_addr) : Prop :=
  exists host port, s = host ++ bs ":"%string ++ port /\ ~ In 58 port /\ counts 65535 port (na_port a) /\
    dns_name host /\ na_name a = lowers host.
Definition addr_text (s : bytes) (a : addr) : Prop :=
  match a with
  | Socket a => sock_text s a
  | Name n => (forall a', ~ sock_text s a') /\ name_text s n
  end.
Definition socks_text (s : bytes) (l : list sock) : Prop :=
  exists ts, RetrySpec.items s ts /\ (List.length ts <= 2)%nat /\ Forall2 sock_text ts l.
Definition host_text (s n : bytes) : Prop := dns_name s /\ n = lowers s.
(** An identity: a DNS name that does not end in a dot, or else a URI *)
Definition id_text (s : bytes) (i : AuthzModel.id) : Prop :=
  let dns := dns_name s /\ forall r, s <> r ++ [dot] in
  (dns /\ i = AuthzModel.Dns (lowers s)) \/ (~ dns /\ exists u, url_parse s = Some u /\ i = AuthzModel.Uri u).
Definition number_text (s : bytes) (f : f64) : Prop := parse_f64 s = Some f.
Definition labels_text (s : bytes) (b : bool) : Prop :=
  (s = [] /\ b = false) \/ (lowers s = bs "unsafe"%string /\ b = true).
(** A duration, or nothing *)
Definition lasts_opt (s : bytes) (d : option N) : Prop :=
  (s = [] /\ d = None) \/ (s <> [] /\ exists t, d = Some t /\ lasts s t).

(** ** Settings (C85) *)

(** What a setting is: what the environment says it is, or else its default *)
Inductive configured {A} (e : strings) (meaning : bytes -> A -> Prop) (name : bytes) (default : A) : A -> Prop :=
| Set_to : forall s a, e name = Some (Some s) -> meaning s a -> configured e meaning name default a
| Not_set : e name = Some None -> configured e meaning name default default.
(** The same for settings without a default *)
Definition optional {A} (e : strings) (meaning : bytes -> A -> Prop) (name : bytes) : option A -> Prop :=
  configured e (fun s o => exists a, o = Some a /\ meaning s a) name None.

Definition outbound_proxy (c : config) := ob_proxy (c_outbound c).
Definition inbound_proxy (c : config) := ib_proxy (c_inbound c).
Definition outbound_connect (c : config) := px_connect (outbound_proxy c).
Definition inbound_connect (c : config) := px_connect (inbound_proxy c).
Definition outbound_server (c : config) := px_server (outbound_proxy c).
Definition inbound_server (c : config) := px_server (inbound_proxy c).

(** Durations, with their defaults *)
Definition duration_settings : list (bytes * N * (config -> N)) := [
  (bs "LINKERD2_PROXY_OUTBOUND_CONNECT_TIMEOUT"%string, 1000 * ms, fun c => cc_timeout (outbound_connect c));
  (bs "LINKERD2_PROXY_INBOUND_CONNECT_TIMEOUT"%string, 300 * ms, fun c => cc_timeout (inbound_connect c));
  (bs "LINKERD2_PROXY_OUTBOUND_DETECT_TIMEOUT"%string, 10 * secs, fun c => px_detect_timeout (outbound_proxy c));
  (bs "LINKERD2_PROXY_INBOUND_DETECT_TIMEOUT"%string, 10 * secs, fun c => px_detect_timeout (inbound_proxy c));
  (bs "LINKERD2_PROXY_OUTBOUND_DISCOVERY_IDLE_TIMEOUT"%string, 5 * secs, fun c => ob_discovery_idle (c_outbound c));
  (bs "LINKERD2_PROXY_INBOUND_DISCOVERY_IDLE_TIMEOUT"%string, 90 * secs, fun c => ib_discovery_idle (c_inbound c));
  (bs "LINKERD2_PROXY_OUTBOUND_HTTP1_CONNECTION_POOL_IDLE_TIMEOUT"%string, 3 * secs, fun c => cc_idle_timeout (outbound_connect c));
  (bs "LINKERD2_PROXY_INBOUND_HTTP1_CONNECTION_POOL_IDLE_TIMEOUT"%string, 3 * secs, fun c => cc_idle_timeout (inbound_connect c));
  (bs "LINKERD2_PROXY_OUTBOUND_TCP_FAILFAST_TIMEOUT"%string, 3 * secs, fun c => qc_failfast (ob_tcp_queue (c_outbound c)));
  (bs "LINKERD2_PROXY_OUTBOUND_HTTP_FAILFAST_TIMEOUT"%string, 3 * secs, fun c => qc_failfast (ob_http_queue (c_outbound c)));
  (bs "LINKERD2_PROXY_INBOUND_HTTP_FAILFAST_TIMEOUT"%string, 1 * secs, fun c => qc_failfast (ib_http_queue (c_inbound c)));
  (bs "LINKERD2_PROXY_DESTINATION_PROFILE_INITIAL_TIMEOUT"%string, 500 * ms, fun c => ib_profile_skip (c_inbound c));
  (bs "LINKERD2_PROXY_METRICS_RETAIN_IDLE"%string, 600 * secs, fun c => ad_retain_idle (c_admin c));
  (bs "LINKERD2_PROXY_SHUTDOWN_GRACE_PERIOD"%string, 120 * secs, fun c => c_shutdown_grace c)].
(** Durations without a default *)
Definition duration_options : list (bytes * (config -> option N)) := [
  (bs "LINKERD2_PROXY_OUTBOUND_ACCEPT_KEEPALIVE"%string, fun c => sv_keepalive (outbound_server c));
  (bs "LINKERD2_PROXY_INBOUND_ACCEPT_KEEPALIVE"%string, fun c => sv_keepalive (inbound_server c));
  (bs "LINKERD2_PROXY_OUTBOUND_CONNECT_KEEPALIVE"%string, fun c => cc_keepalive (outbound_connect c));
  (bs "LINKERD2_PROXY_INBOUND_CONNECT_KEEPALIVE"%string, fun c => cc_keepalive (inbound_connect c));
  (bs "LINKERD2_PROXY_OUTBOUND_ACCEPT_USER_TIMEOUT"%string, fun c => sv_user_timeout (outbound_server c));
  (bs "LINKERD2_PROXY_INBOUND_ACCEPT_USER_TIMEOUT"%string, fun c => sv_user_timeout (inbound_server c));
  (bs "LINKERD2_PROXY_OUTBOUND_CONNECT_USER_TIMEOUT"%string, fun c => cc_user_timeout (outbound_connect c));
  (bs "LINKERD2_PROXY_INBOUND_CONNECT_USER_TIMEOUT"%string, fun c => cc_user_timeout (inbound_connect c));
  (bs "LINKERD2_PROXY_DNS_MIN_TTL"%string, fun c => c_dns_min_ttl c);
  (bs "LINKERD2_PROXY_DNS_MAX_TTL"%string, fun c => c_dns_max_ttl c)].
(** Numbers: the largest one, the default *)
Definition number_settings : list (bytes * N * N * (config -> N)) := [
  (bs "LINKERD2_PROXY_OUTBOUND_TCP_QUEUE_CAPACITY"%string, u64_max, 10000, fun c => qc_capacity (ob_tcp_queue (c_outbound c)));
  (bs "LINKERD2_PROXY_OUTBOUND_HTTP_QUEUE_CAPACITY"%string, u64_max, 10000, fun c => qc_capacity (ob_http_queue (c_outbound c)));
  (bs "LINKERD2_PROXY_INBOUND_HTTP_QUEUE_CAPACITY"%string, u64_max, 10000, fun c => qc_capacity (ib_http_queue (c_inbound c)));
  (bs "LINKERD2_PROXY_OUTBOUND_MAX_IN_FLIGHT"%string, u64_max, 100000, fun c => px_max_in_flight (outbound_proxy c));
  (bs "LINKERD2_PROXY_INBOUND_MAX_IN_FLIGHT"%string, u64_max, 100000, fun c => px_max_in_flight (inbound_proxy c));
  (bs "LINKERD2_PROXY_OUTBOUND_MAX_IDLE_CONNS_PER_ENDPOINT"%string, u64_max, 10000, fun c => cc_max_idle (outbound_connect c));
  (bs "LINKERD2_PROXY_MAX_IDLE_CONNS_PER_ENDPOINT"%string, u64_max, 10000, fun c => cc_max_idle (inbound_connect c));
  (bs "LINKERD2_PROXY_HTTP2_INITIAL_STREAM_WINDOW_SIZE"%string, u32_max, 65535, fun c => cc_stream_window (outbound_connect c));
  (bs "LINKERD2_PROXY_HTTP2_INITIAL_STREAM_WINDOW_SIZE"%string, u32_max, 65535, fun c => cc_stream_window (inbound_connect c));
  (bs "LINKERD2_PROXY_HTTP2_INITIAL_CONNECTION_WINDOW_SIZE"%string, u32_max, 1048576, fun c => cc_connection_window (outbound_connect c));
  (bs "LINKERD2_PROXY_HTTP2_INITIAL_CONNECTION_WINDOW_SIZE"%string, u32_max, 1048576, fun c => cc_connection_window (inbound_connect c))].
(** Numbers without a default *)
Definition number_options : list (bytes * N * (config -> option N)) :=
  let http2 (base : bytes) (server : config -> server_config) := [
    (base ++ bs "_MAX_CONCURRENT_STREAMS"%string, u32_max, fun c => hs_max_concurrent_streams (sv_http2 (server c)));
    (base ++ bs "_MAX_FRAME_SIZE"%string, u32_max, fun c => hs_max_frame_size (sv_http2 (server c)));
    (base ++ bs "_MAX_HEADER_LIST_SIZE"%string, u32_max, fun c => hs_max_header_list_size (sv_http2 (server c)));
    (base ++ bs "_MAX_PENDING_ACCEPT_RESET_STREAMS"%string, u64_max, fun c => hs_max_pending_accept_reset_streams (sv_http2 (server c)));
    (base ++ bs "_MAX_SEND_BUF_SIZE"%string, u64_max, fun c => hs_max_send_buf_size (sv_http2 (server c)))] in
  (bs "LINKERD2_PROXY_OUTBOUND_TCP_LISTEN_BACKLOG"%string, u32_max, fun c => sv_backlog (outbound_server c)) ::
  (bs "LINKERD2_PROXY_INBOUND_TCP_LISTEN_BACKLOG"%string, u32_max, fun c => sv_backlog (inbound_server c)) ::
  http2 (bs "LINKERD2_PROXY_OUTBOUND_SERVER_HTTP2"%string) outbound_server ++
  http2 (bs "LINKERD2_PROXY_INBOUND_SERVER_HTTP2"%string) inbound_server.
Definition bool_settings : list (bytes * bool * (config -> bool)) := [
  (bs "LINKERD2_PROXY_INGRESS_MODE"%string, false, fun c => ob_ingress_mode (c_outbound c));
  (bs "LINKERD2_PROXY_OUTBOUND_METRICS_HOSTNAME_LABELS"%string, false, fun c => po_hostname_labels (c_policy c));
  (bs "LINKERD2_PROXY_SHUTDOWN_ENDPOINT_ENABLED"%string, false, fun c => ad_shutdown (c_admin c))].

(** The other settings *)
Record other_settings (e : strings) (c : config) : Prop := {
  s_inbound_addr : configured e sock_text (bs "LINKERD2_PROXY_INBOUND_LISTEN_ADDR"%string)
                     (Sock [0; 0; 0; 0] 4143) (sv_addr (inbound_server c));
  s_admin_addr : configured e sock_text (bs "LINKERD2_PROXY_ADMIN_LISTEN_ADDR"%string)
                   (Sock [127; 0; 0; 1] 4191) (sv_addr (ad_server (c_admin c)));
  (** LISTEN_ADDRS goes before LISTEN_ADDR *)
  s_outbound_addr :
    let a := sv_addr (outbound_server c) in
    let a6 := sv_addr6 (outbound_server c) in
    (exists s l, e (bs "LINKERD2_PROXY_OUTBOUND_LISTEN_ADDRS"%string) = Some (Some s) /\ socks_text s l /\
       ((l = [a] /\ a6 = None) \/ exists b, l = [a; b] /\ a6 = Some b)) \/
    (e (bs "LINKERD2_PROXY_OUTBOUND_LISTEN_ADDRS"%string) = Some None /\ a6 = None /\
       configured e sock_text (bs "LINKERD2_PROXY_OUTBOUND_LISTEN_ADDR"%string) (Sock [127; 0; 0; 1] 4140) a);
  (** Informational headers are on unless the proxy is an ingress *)
  s_headers : configured e (fun s b => truth s (negb b)) (bs "LINKERD2_PROXY_OUTBOUND_DISABLE_INFORMATIONAL_HEADERS"%string)
                (negb (ob_ingress_mode (c_outbound c))) (ob_emit_headers (c_outbound c));
  s_labels : configured e labels_text (bs "LINKERD2_PROXY_INBOUND_METRICS_AUTHORITY_LABELS"%string) false
               (ib_authority_labels (c_inbound c));
  s_suffixes : configured e (list_of suffix_text) (bs "LINKERD2_PROXY_DESTINATION_PROFILE_SUFFIXES"%string)
                 [SName (bs "svc.cluster.local."%string)] (ob_suffixes (c_outbound c)) /\
               ib_suffixes (c_inbound c) = ob_suffixes (c_outbound c);
  s_networks : configured e (list_of net_text) (bs "LINKERD2_PROXY_DESTINATION_PROFILE_NETWORKS"%string) []
                 (ob_networks (c_outbound c));
  s_gateway : configured e (list_of suffix_text) (bs "LINKERD2_PROXY_INBOUND_GATEWAY_SUFFIXES"%string) [] (c_gateway c);
  s_ips : configured e ips_text (bs "LINKERD2_PROXY_INBOUND_IPS"%string) [] (ob_inbound_ips (c_outbound c)) /\
          ib_allowed_ips (c_inbound c) = ob_inbound_ips (c_outbound c);
  (** There is a tap server if its client's name is given. *)
  s_tap : exists o a,
    optional e id_text (bs "LINKERD2_PROXY_TAP_SVC_NAME"%string) o /\
    configured e sock_text (bs "LINKERD2_PROXY_CONTROL_LISTEN_ADDR"%string) (Sock [0; 0; 0; 0] 4190) a /\
    match o with
    | None => c_tap c = None
    | Some i => exists s, c_tap c = Some (i, s) /\ sv_addr s = a
    end;
  s_context : configured e (@eq bytes) (bs "LINKERD2_PROXY_DESTINATION_CONTEXT"%string) [] (ds_context (c_dst c));
  s_workload : e (bs "LINKERD2_PROXY_POLICY_WORKLOAD"%string) = Some (Some (po_workload (c_policy c)));
  s_hostname : forall t, c_trace c = Some t -> e (bs "HOSTNAME"%string) = Some (tr_hostname t) }.

(** The flow control and the keep-alive of servers.  The sizes of the windows only count if both are
    there, and so do the times of the keep-alive. *)
Definition flow_control_of (e : strings) (base : bytes) (f : flow_control) : Prop :=
  exists adaptive stream connection,
    configured e truth (base ++ bs "_ADAPTIVE_FLOW_CONTROL"%string) false adaptive /\
    (adaptive = true /\ f = Adaptive \/
     adaptive = false /\
       optional e (counts u32_max) (base ++ bs "_INITIAL_STREAM_WINDOW_SIZE"%string) stream /\
       optional e (counts u32_max) (base ++ bs "_INITIAL_CONNECTION_WINDOW_SIZE"%string) connection /\
       match stream, connection with
       | Some s, Some c => f = Fixed_windows s c
       | _, _ => f = Fixed_windows 65535 1048576
       end).
Definition keep_alive_of (e : strings) (base : bytes) (k : option (N * N)) : Prop :=
  exists timeout interval,
    optional e lasts (base ++ bs "_KEEP_ALIVE"%string ++ bs "_TIMEOUT"%string) timeout /\
    optional e lasts (base ++ bs "_KEEP_ALIVE"%string ++ bs "_INTERVAL"%string) interval /\
    match timeout, interval with
    | Some t, Some i => k = Some (i, t)
    | _, _ => k = None
    end.

(** The policies of inbound ports *)
Inductive port_policy (e : strings) (c : config) : PolicyStoreModel.config -> Prop :=
| Port_policy : forall nets default known ports opaque,
    configured e (list_of net_text) (bs "LINKERD2_PROXY_POLICY_CLUSTER_NETWORKS"%string) [] nets ->
    configured e (fun s d => PolicyStoreModel.parse_default_policy s nets (px_detect_timeout (inbound_proxy c)) = Some d)
      (bs "LINKERD2_PROXY_INBOUND_DEFAULT_POLICY"%string)
      (PolicyStoreModel.Allow (PolicyStoreModel.all_unauthenticated (px_detect_timeout (inbound_proxy c)))) default ->
    configured e (list_of port_range) (bs "LINKERD2_PROXY_INBOUND_PORTS"%string) [] known ->
    configured e (list_of port_range) (bs "LINKERD2_PROXY_INBOUND_PORTS_DISABLE_PROTOCOL_DETECTION"%string) [] opaque ->
    NoDup ports ->
    (forall p, In p ports <->
       PolicyStoreSpec.opaque_port known p \/
       p = s_port (sv_addr (ad_server (c_admin c))) \/
       (c_gateway c <> [] /\ p = s_port (sv_addr (inbound_server c)))) ->
    port_policy e c (PolicyStoreModel.Discover default ports opaque).

(** ** The control plane (C86) *)

(** Addresses of the proxy's own host *)
Definition loopback (a : addr) : Prop :=
  match a with
  | Name n => lowers (na_name n) = bs "localhost."%string
  | Socket s => (exists x y z, s_ip s = [127; x; y; z]) \/ s_ip s = repeat 0 15 ++ [1]
  end.
(** Where a part of the control plane is and how it is authenticated: not at all on the same host, and
    by its name everywhere else.  A name that is given must be one even if it is not used. *)
Definition reached (e : strings) (base : bytes) (a : control_addr) : Prop :=
  exists s n, e (base ++ bs "_ADDR"%string) = Some (Some s) /\ addr_text s (ca_addr a) /\
    optional e host_text (base ++ bs "_NAME"%string) n /\
    ((loopback (ca_addr a) /\ ca_identity a = None) \/
     (~ loopback (ca_addr a) /\ n <> None /\ ca_identity a = n)).
(** The clients of the control plane *)
Definition clients (c : config) : list (bytes * control_config) :=
  (bs "LINKERD2_PROXY_DESTINATION_SVC"%string, ds_control (c_dst c)) ::
  (bs "LINKERD2_PROXY_POLICY_SVC"%string, po_control (c_policy c)) ::
  match c_identity c with
  | Linkerd control _ _ _ _ _ _ _ => [(bs "LINKERD2_PROXY_IDENTITY_SVC"%string, control)]
  | Spire _ _ _ _ _ => []
  end ++
  match c_trace c with
  | Some t => [(bs "LINKERD2_PROXY_TRACE_COLLECTOR_SVC"%string, tr_control t)]
  | None => []
  end.

(** Connections on the same host are made as those of the inbound proxy are, other ones as those of the
    outbound proxy. *)
Record client_of (e : strings) (c : config) (x : bytes * control_config) : Prop := {
  cl_reached : reached e (fst x) (ct_addr (snd x));
  cl_local : loopback (ca_addr (ct_addr (snd x))) -> ct_connect (snd x) = inbound_connect c;
  cl_remote : ~ loopback (ca_addr (ct_addr (snd x))) -> ct_connect (snd x) = outbound_connect c;
  cl_capacity : qc_capacity (ct_queue (snd x)) = 100;
  cl_policy : fst x = bs "LINKERD2_PROXY_POLICY_SVC"%string -> qc_failfast (ct_queue (snd x)) = 10 * secs;
  cl_local_failfast : fst x <> bs "LINKERD2_PROXY_POLICY_SVC"%string -> loopback (ca_addr (ct_addr (snd x))) ->
    qc_failfast (ct_queue (snd x)) = qc_failfast (ib_http_queue (c_inbound c));
  cl_remote_failfast : fst x <> bs "LINKERD2_PROXY_POLICY_SVC"%string -> ~ loopback (ca_addr (ct_addr (snd x))) ->
    qc_failfast (ct_queue (snd x)) = qc_failfast (ob_http_queue (c_outbound c)) }.

(** ** The identity of the proxy (C87) *)

(** The name of the proxy's identity and the name that clients ask for in TLS *)
Definition tls_names (e : strings) (i : AuthzModel.id) (name : bytes) : Prop :=
  exists s s', id_text s i /\ host_text s' name /\
    ((e (bs "LINKERD2_PROXY_IDENTITY_LOCAL_NAME"%string) = Some (Some s) /\ s' = s) \/
     (e (bs "LINKERD2_PROXY_IDENTITY_LOCAL_NAME"%string) = Some None /\
      e (bs "LINKERD2_PROXY_IDENTITY_SERVER_ID"%string) = Some (Some s) /\
      e (bs "LINKERD2_PROXY_IDENTITY_SERVER_NAME"%string) = Some (Some s'))).
(** What is common to both kinds of identity *)
Record identified (e : strings) (i : AuthzModel.id) (name anchors : bytes) : Prop := {
  t_names : tls_names e i name;
  t_anchors : e (bs "LINKERD2_PROXY_IDENTITY_TRUST_ANCHORS"%string) = Some (Some anchors) /\ anchors <> [];
  t_enabled : e (bs "LINKERD2_PROXY_IDENTITY_DISABLED"%string) = Some None \/
              e (bs "LINKERD2_PROXY_IDENTITY_DISABLED"%string) = Some (Some []) }.
(** The address of SPIRE, by its new or else its old name *)
Definition spire_at (e : strings) (o : option bytes) : Prop :=
  match o with
  | Some a =>
      e (bs "LINKERD2_PROXY_IDENTITY_SPIRE_WORKLOAD_API_ADDRESS"%string) = Some (Some a) \/
      (e (bs "LINKERD2_PROXY_IDENTITY_SPIRE_WORKLOAD_API_ADDRESS"%string) = Some None /\
       e (bs "LINKERD2_PROXY_IDENTITY_SPIRE_SOCKET"%string) = Some (Some a))
  | None =>
      e (bs "LINKERD2_PROXY_IDENTITY_SPIRE_WORKLOAD_API_ADDRESS"%string) = Some None /\
      e (bs "LINKERD2_PROXY_IDENTITY_SPIRE_SOCKET"%string) = Some None
  end.
Definition spiffe (u : bytes) : Prop := exists s r, u = s ++ bs ":"%string ++ r /\ lowers s = bs "spiffe"%string.

(** A backoff: given as a whole, where the jitter may be left out, or not at all *)
Definition sane (b : backoff) : Prop :=
  bo_min b <= bo_max b /\ 0 < bo_max b /\ exists q, bo_jitter b = Fin q /\ (0 <= q)%Q /\ (q <= 100)%Q.
Definition backoff_of (e : strings) (base : bytes) (default b : backoff) : Prop :=
  exists min max jitter,
    optional e lasts (base ++ bs "_EXP_BACKOFF_MIN"%string) min /\
    optional e lasts (base ++ bs "_EXP_BACKOFF_MAX"%string) max /\
    optional e number_text (base ++ bs "_EXP_BACKOFF_JITTER"%string) jitter /\
    ((min = None /\ max = None /\ jitter = None /\ b = default) \/
     (min = Some (bo_min b) /\ max = Some (bo_max b) /\ sane b /\
      bo_jitter b = match jitter with Some j => j | None => Fin 0 end)).

Inductive identity_of (e : strings) : identity_config -> Prop :=
| From_linkerd : forall control token dir minr maxr n anchors,
    identified e (AuthzModel.Dns n) n anchors -> spire_at e None ->
    e (bs "LINKERD2_PROXY_IDENTITY_DIR"%string) = Some (Some dir) -> documents_ok dir = true ->
    e (bs "LINKERD2_PROXY_IDENTITY_TOKEN_FILE"%string) = Some (Some token) -> token_ok token = true ->
    configured e lasts (bs "LINKERD2_PROXY_IDENTITY_MIN_REFRESH"%string) (10 * secs) minr ->
    configured e lasts (bs "LINKERD2_PROXY_IDENTITY_MAX_REFRESH"%string) (86400 * secs) maxr ->
    identity_of e (Linkerd control token dir minr maxr (AuthzModel.Dns n) n anchors)
| From_spire : forall u name anchors api b,
    identified e (AuthzModel.Uri u) name anchors -> spire_at e (Some api) -> spiffe u ->
    backoff_of e (bs "LINKERD2_PROXY_LINKERD2_PROXY_IDENTITY_SPIRE"%string) DEFAULT_SPIRE_BACKOFF b ->
    identity_of e (Spire (AuthzModel.Uri u) name anchors api b).

(** ** Limits on the streams of the control plane (C88) *)

(** Each limit, where there is one, is at most the next. *)
Definition below (a b : option N) : Prop := forall x y, a = Some x -> b = Some y -> x <= y.
Definition ordered (l : WatchModel.limits) : Prop :=
  below (WatchModel.initial l) (WatchModel.idle l) /\ below (WatchModel.initial l) (WatchModel.lifetime l) /\
  below (WatchModel.idle l) (WatchModel.lifetime l).
Definition limits_of (e : strings) (l : WatchModel.limits) : Prop :=
  configured e lasts_opt (bs "LINKERD2_PROXY_CONTROL_STREAM_INITIAL_TIMEOUT"%string) None (WatchModel.initial l) /\
  configured e lasts_opt (bs "LINKERD2_PROXY_CONTROL_STREAM_IDLE_TIMEOUT"%string) None (WatchModel.idle l) /\
  configured e lasts_opt (bs "LINKERD2_PROXY_CONTROL_STREAM_LIFETIME"%string) None (WatchModel.lifetime l).

(** The limits of the streams from the control plane; there are none on the same host. *)
Definition limited (e : strings) (a : control_addr) (l : WatchModel.limits) : Prop :=
  (loopback (ca_addr a) /\ l = WatchModel.Limits None None None) \/ (~ loopback (ca_addr a) /\ limits_of e l).
Definition backoffs (c : config) : list backoff :=
  cc_backoff (outbound_connect c) :: cc_backoff (inbound_connect c) ::
  map (fun x => cc_backoff (ct_connect (snd x))) (clients c) ++
  match c_identity c with Spire _ _ _ _ b => [b] | Linkerd _ _ _ _ _ _ _ _ => [] end.

(** ** Attributes of traces (C89) *)

(** The lines of a text: each ends in a line feed, perhaps after a carriage return; the last one need not. *)
Inductive text_lines : bytes -> list bytes -> Prop :=
| L_none : text_lines [] []
| L_last : forall l, l <> [] -> ~ In 10 l -> text_lines l [l]
| L_lf : forall l s ls, ~ In 10 l -> (forall r, l <> r ++ [13]) -> text_lines s ls -> text_lines (l ++ [10] ++ s) (l :: ls)
| L_crlf : forall l s ls, ~ In 10 l -> text_lines s ls -> text_lines (l ++ [13; 10] ++ s) (l :: ls).
(** A line of an attribute; quotes around the value do not count. *)
Definition attr_line (l : bytes) (k v : bytes) : Prop :=
  exists i j, l = k ++ bs "="%string ++ repeat 34 i ++ v ++ repeat 34 j /\ ~ In 61 k /\
    (forall r, v <> 34 :: r) /\ (forall r, v <> r ++ [34]).
(** A text gives an attribute by its last line about it. *)
Definition gives (s k v : bytes) : Prop :=
  exists ls pre l post, text_lines s ls /\ ls = pre ++ l :: post /\ attr_line l k v /\
    forall l' v', In l' post -> ~ attr_line l' k v'.
(** A source of attributes that is not set, not Unicode or not readable has none. *)
Definition source (e : strings) (name : bytes) (s : bytes) : Prop := e name = Some (Some s).
Definition from (sources : list (bytes -> bytes -> Prop)) (k v : bytes) : Prop :=
  exists pre src post, sources = pre ++ src :: post /\ src k v /\ forall s, In s pre -> forall v', ~ s k v'.
Definition attribute_sources (e : strings) : list (bytes -> bytes -> Prop) := [
  (fun k v => exists s, source e (bs "OTEL_RESOURCE_ATTRIBUTES"%string) s /\ gives s k v);
  (fun k v => exists s, source e (bs "LINKERD2_PROXY_TRACE_EXTRA_ATTRIBUTES"%string) s /\ gives s k v);
  (fun k v => exists p s, source e (bs "LINKERD2_PROXY_TRACE_ATTRIBUTES_PATH"%string) p /\ read_to_string p = Some s /\ gives s k v);
  (fun k v => k = bs "service.name"%string /\ source e (bs "LINKERD2_PROXY_TRACE_SERVICE_NAME"%string) v)].

(** ** Which configurations are accepted (C85) *)

(** A variable is not set, or has a meaning. *)
Definition ok {A} (e : strings) (meaning : bytes -> A -> Prop) (name : bytes) : Prop :=
  exists o, optional e meaning name o.
(** A variable, with a meaning *)
Inductive variable := Var (A : Type) (name : bytes) (meaning : bytes -> A -> Prop).
Definition var_ok (e : strings) (v : variable) : Prop := match v with Var _ name m => ok e m name end.
(** Variables that are refused wherever they are not well formed *)
Definition variables : list variable :=
  map (fun x => Var _ (fst (fst x)) lasts) duration_settings ++
  map (fun x => Var _ (fst x) lasts) duration_options ++
  map (fun x => Var _ (fst (fst (fst x))) (counts (snd (fst (fst x))))) number_settings ++
  map (fun x => Var _ (fst (fst x)) (counts (snd (fst x)))) number_options ++
  map (fun x => Var _ (fst (fst x)) truth) bool_settings ++ [
  Var _ (bs "LINKERD2_PROXY_INBOUND_LISTEN_ADDR"%string) sock_text;
  Var _ (bs "LINKERD2_PROXY_ADMIN_LISTEN_ADDR"%string) sock_text;
  Var _ (bs "LINKERD2_PROXY_CONTROL_LISTEN_ADDR"%string) sock_text;
  Var _ (bs "LINKERD2_PROXY_OUTBOUND_LISTEN_ADDRS"%string) socks_text;
  Var _ (bs "LINKERD2_PROXY_OUTBOUND_DISABLE_INFORMATIONAL_HEADERS"%string) truth;
  Var _ (bs "LINKERD2_PROXY_INBOUND_METRICS_AUTHORITY_LABELS"%string) labels_text;
  Var _ (bs "LINKERD2_PROXY_DESTINATION_PROFILE_SUFFIXES"%string) (list_of suffix_text);
  Var _ (bs "LINKERD2_PROXY_DESTINATION_PROFILE_NETWORKS"%string) (list_of net_text);
  Var _ (bs "LINKERD2_PROXY_INBOUND_GATEWAY_SUFFIXES"%string) (list_of suffix_text);
  Var _ (bs "LINKERD2_PROXY_INBOUND_IPS"%string) ips_text;
  Var _ (bs "LINKERD2_PROXY_TAP_SVC_NAME"%string) id_text;
  Var _ (bs "LINKERD2_PROXY_POLICY_CLUSTER_NETWORKS"%string) (list_of net_text);
  Var _ (bs "LINKERD2_PROXY_INBOUND_PORTS"%string) (list_of port_range);
  Var _ (bs "LINKERD2_PROXY_INBOUND_PORTS_DISABLE_PROTOCOL_DETECTION"%string) (list_of port_range);
  Var _ (bs "LINKERD2_PROXY_DESTINATION_CONTEXT"%string) (@eq bytes)].
(** What else must be so *)
Record acceptable (e : strings) : Prop := {
  a_variables : Forall (var_ok e) variables;
  a_outbound_addr : e (bs "LINKERD2_PROXY_OUTBOUND_LISTEN_ADDRS"%string) = Some None ->
    ok e sock_text (bs "LINKERD2_PROXY_OUTBOUND_LISTEN_ADDR"%string);
  a_limits : exists l, limits_of e l /\ ordered l;
  a_http2 : Forall (fun base => (exists f, flow_control_of e base f) /\ (exists k, keep_alive_of e base k))
    [bs "LINKERD2_PROXY_OUTBOUND_SERVER_HTTP2"%string; bs "LINKERD2_PROXY_INBOUND_SERVER_HTTP2"%string];
  a_backoffs : Forall (fun base => exists b, backoff_of e base b b)
    [bs "LINKERD2_PROXY_OUTBOUND_CONNECT"%string; bs "LINKERD2_PROXY_INBOUND_CONNECT"%string];
  a_default_policy : exists nets,
    configured e (list_of net_text) (bs "LINKERD2_PROXY_POLICY_CLUSTER_NETWORKS"%string) [] nets /\
    ok e (fun s (_ : unit) => PolicyStoreSpec.known s nets) (bs "LINKERD2_PROXY_INBOUND_DEFAULT_POLICY"%string);
  a_destination : exists a, reached e (bs "LINKERD2_PROXY_DESTINATION_SVC"%string) a;
  a_policy : exists a, reached e (bs "LINKERD2_PROXY_POLICY_SVC"%string) a;
  a_workload : exists w, e (bs "LINKERD2_PROXY_POLICY_WORKLOAD"%string) = Some (Some w);
  a_trace :
    (exists a, reached e (bs "LINKERD2_PROXY_TRACE_COLLECTOR_SVC"%string) a) /\ ok e (@eq bytes) (bs "HOSTNAME"%string) \/
    e (bs "LINKERD2_PROXY_TRACE_COLLECTOR_SVC"%string ++ bs "_ADDR"%string) = Some None /\
    e (bs "LINKERD2_PROXY_TRACE_COLLECTOR_SVC"%string ++ bs "_NAME"%string) = Some None;
  a_identity : exists i, identity_of e i /\
    match i with
    | Linkerd control _ _ _ _ _ _ _ => reached e (bs "LINKERD2_PROXY_IDENTITY_SVC"%string) (ct_addr control)
    | Spire _ _ _ _ _ => True
    end }.
End Texts.
