(** Model of the configuration of the proxy, which it reads from its environment:
    linkerd/app/src/env.rs and its modules linkerd/app/src/env/*.rs.  Texts are ASCII; blanks
    outside of ASCII, which Rust's `trim` and `\s` also skip, are not modelled. *)
From Coq Require Import String List NArith QArith Bool.
From Verif Require Import Bytes NameModel EndpointModel DnsModel.
From Verif Require AuthzModel PolicyStoreModel WatchModel ProfileModel.
Import ListNotations.
Open Scope N_scope.

(** env.rs:35-45 *)
Inductive env_error := Invalid_env_var | No_destination | No_policy | Id_and_name_differ.
(** `Result<_, EnvError>` *)
Definition result (A : Type) : Type := (A + env_error)%type.
(** The operator `?` *)
Definition bind {A B} (r : result A) (k : A -> result B) : result B :=
  match r with inl a => k a | inr e => inr e end.
Notation "x <- r ;; k" := (bind r (fun x => k)) (at level 61, r at next level, right associativity).
(** `Option::unwrap_or` *)
Definition or_default {A} (o : option A) (d : A) : A := match o with Some a => a | None => d end.

(** env.rs:23-29, 913-926: the environment.  [None]: the value is not Unicode;
    [Some None]: the variable is not set. *)
Definition strings := bytes -> option (option bytes).
(** env.rs:913-926 *)
Definition get (e : strings) (key : bytes) : result (option bytes) :=
  match e key with Some v => inl v | None => inr Invalid_env_var end.
(** env.rs:956-975; [p] fails with [None] *)
Definition parse {A} (e : strings) (name : bytes) (p : bytes -> option A) : result (option A) :=
  s <- get e name ;;
  match s with
  | Some s => match p s with Some r => inl (Some r) | None => inr Invalid_env_var end
  | None => inl None
  end.

(** ** linkerd/app/src/env/types.rs *)

(** `collect` of an iterator of `Result`s *)
Fixpoint all_of {A B} (p : A -> option B) (l : list A) : option (list B) :=
  match l with
  | [] => Some []
  | x :: l => match p x with
              | Some y => match all_of p l with Some ys => Some (y :: ys) | None => None end
              | None => None
              end
  end.

(** types.rs:26-28, `bool::from_str` *)
Definition parse_bool (s : bytes) : option bool :=
  if beq s (bs "true"%string) then Some true
  else if beq s (bs "false"%string) then Some false
  else None.

(** The digits that a text begins with, and what follows *)
Fixpoint span_digits (s : bytes) : bytes * bytes :=
  match s with
  | c :: r => if is_digit c then let '(d, t) := span_digits r in (c :: d, t) else ([], s)
  | [] => ([], [])
  end.
(** `str::trim_end` *)
Definition trim_blanks_end (s : bytes) : bytes := rev (ProfileModel.drop_spaces (rev s)).
(** `u64` multiplication, which wraps in release builds *)
Definition wrapping_mul (a b : N) : N := (a * b) mod (u64_max + 1).
(** types.rs:45-62, in nanoseconds.  The regular expression is `^\s*(\d+)(ms|s|m|h|d)?\s*$`:
    a unit, if there is one, is what is left after the digits and before the blanks at the end. *)
Definition parse_duration (s : bytes) : option N :=
  let '(digits, rest) := span_digits (ProfileModel.drop_spaces s) in
  match digits with
  | [] => None
  | _ =>
      let unit := trim_blanks_end rest in
      match parse_uint u64_max digits with
      | None => None
      | Some magnitude =>
          if beq unit [] then if magnitude =? 0 then Some 0 else None
          else if beq unit (bs "ms"%string) then Some (magnitude * 1000000)
          else if beq unit (bs "s"%string) then Some (magnitude * 1000000000)
          else if beq unit (bs "m"%string) then Some (wrapping_mul magnitude 60 * 1000000000)
          else if beq unit (bs "h"%string) then Some (wrapping_mul (wrapping_mul magnitude 60) 60 * 1000000000)
          else if beq unit (bs "d"%string) then
            Some (wrapping_mul (wrapping_mul (wrapping_mul magnitude 60) 60) 24 * 1000000000)
          else None
      end
  end.
(** types.rs:38-43; the outer option is the `Result` *)
Definition parse_duration_opt (s : bytes) : option (option N) :=
  match s with [] => Some None | _ => option_map Some (parse_duration s) end.

(** types.rs:95-130: the ranges that are inserted into the set *)
Definition parse_port_range (part : bytes) : option (N * N) :=
  match split_once 45 part with
  | None => option_map (fun p => (p, p)) (parse_uint u16_max (ProfileModel.trim part))
  | Some (low, high) =>
      match parse_uint u16_max (ProfileModel.trim low), parse_uint u16_max (ProfileModel.trim high) with
      | Some low, Some high => if high <? low then None else Some (low, high)
      | _, _ => None
      end
  end.
(** The elements of a list separated by commas, without blanks around them and without empty
    ones: types.rs:98-103, 134-136, 155-157 *)
Definition items (s : bytes) : list bytes :=
  filter (fun i => negb (beq i [])) (map ProfileModel.trim (split 44 s)).
(** types.rs:95-130 *)
Definition parse_port_range_set (s : bytes) : option (list (N * N)) := all_of parse_port_range (items s).
(** types.rs:132-143 with 145-151 *)
Definition parse_dns_suffixes (s : bytes) : option (list suffix) := all_of suffix_from_str (items s).

(** `f64` *)
Inductive f64 := Nan | Inf (negative : bool) | Fin (q : Q).

Section Parsers.
(** `Ipv6Addr::from_str`, `SocketAddrV6::from_str`, `IpNet::from_str`, `Url::parse` (its
    serialization) and `f64::from_str`, which are not in /repo *)
Variable parse_v6 : bytes -> option (list N).
Variable parse_sock6 : bytes -> option sock.
Variable parse_net : bytes -> option AuthzModel.ipnet.
Variable url_parse : bytes -> option bytes.
Variable parse_f64 : bytes -> option f64.

(** `SocketAddr::from_str`: the port of an IPv4 address is digits only *)
Definition parse_sock (s : bytes) : option sock :=
  match split_once 58 s with
  | Some (ip, port) =>
      match parse_v4 ip, (match port with [] => None | _ => parse_digits u16_max 0 port end) with
      | Some ip, Some port => Some (Sock ip port)
      | _, _ => parse_sock6 s
      end
  | None => parse_sock6 s
  end.
(** types.rs:88-93 with linkerd/addr/src/lib.rs:41-47 *)
Definition parse_addr (s : bytes) : option addr :=
  match parse_sock s with
  | Some a => Some (Socket a)
  | None => match name_addr_from_str s with inl n => Some (Name n) | inr _ => None end
  end.
(** types.rs:64-72 *)
Definition parse_socket_addr (s : bytes) : option sock :=
  match parse_addr s with Some (Socket a) => Some a | _ => None end.
(** types.rs:74-80 *)
Definition parse_socket_addrs (s : bytes) : option (list sock) :=
  let addrs := split 44 s in
  if (2 <? List.length addrs)%nat then None else all_of parse_socket_addr addrs.
(** types.rs:82-86: the elements are not trimmed, and none may be empty *)
Definition parse_ip_set (s : bytes) : option (list (list N)) := all_of (parse_ip parse_v6) (split 44 s).
(** types.rs:153-166 *)
Definition parse_networks (s : bytes) : option (list AuthzModel.ipnet) := all_of parse_net (items s).
(** types.rs:12-17 *)
Definition parse_dns_name (s : bytes) : option bytes := name_from_str s.
(** types.rs:19-24 *)
Definition parse_identity (s : bytes) : option AuthzModel.id := AuthzModel.id_from_str url_parse s.
(** types.rs:30-36 *)
Definition parse_number (max : N) (s : bytes) : option N := parse_uint max s.

(** linkerd/addr/src/lib.rs:81-86 *)
Definition is_loopback (a : addr) : bool :=
  match a with
  | Name n => is_localhost (na_name n)
  | Socket s =>
      match s_ip s with
      | [a; _; _; _] => a =? 127
      | ip => beq ip (repeat 0 15 ++ [1])
      end
  end.

(** ** linkerd/app/src/env/control.rs *)

(** control.rs:7-34 *)
Definition mk_receive_limits (e : strings) : result WatchModel.limits :=
  initial <- parse e (bs "LINKERD2_PROXY_CONTROL_STREAM_INITIAL_TIMEOUT"%string) parse_duration_opt ;;
  idle <- parse e (bs "LINKERD2_PROXY_CONTROL_STREAM_IDLE_TIMEOUT"%string) parse_duration_opt ;;
  lifetime <- parse e (bs "LINKERD2_PROXY_CONTROL_STREAM_LIFETIME"%string) parse_duration_opt ;;
  let initial := or_default initial None in
  let idle := or_default idle None in
  let lifetime := or_default lifetime None in
  let exceeds (a b : option N) := match b with Some b => b <? or_default a 0 | None => false end in
  if exceeds initial idle then inr Invalid_env_var
  else if exceeds initial lifetime then inr Invalid_env_var
  else if exceeds idle lifetime then inr Invalid_env_var
  else inl (WatchModel.Limits initial idle lifetime).

(** ** Backoffs and the addresses of the control plane *)

(** linkerd/exp-backoff/src/lib.rs:15-26 *)
Record backoff := Backoff { bo_min : N; bo_max : N; bo_jitter : f64 }.
(** linkerd/exp-backoff/src/lib.rs:69-90; comparisons with a NaN are false *)
Definition try_new (min max : N) (jitter : f64) : option backoff :=
  if max <? min then None
  else if max =? 0 then None
  else match jitter with
       | Fin q => if negb (Qle_bool 0 q) then None
                  else if negb (Qle_bool q 100) then None
                  else Some (Backoff min max jitter)
       | _ => None
       end.
(** env.rs:1032-1057 *)
Definition parse_backoff (e : strings) (base : bytes) (default : backoff) : result backoff :=
  let name suffix := bs "LINKERD2_PROXY_"%string ++ base ++ suffix in
  min <- parse e (name (bs "_EXP_BACKOFF_MIN"%string)) parse_duration ;;
  max <- parse e (name (bs "_EXP_BACKOFF_MAX"%string)) parse_duration ;;
  jitter <- parse e (name (bs "_EXP_BACKOFF_JITTER"%string)) parse_f64 ;;
  match min, max, jitter with
  | None, None, None => inl default
  | Some min, Some max, jitter =>
      match try_new min max (or_default jitter (Fin 0)) with
      | Some b => inl b
      | None => inr Invalid_env_var
      end
  | _, _, _ => inr Invalid_env_var
  end.

(** linkerd/app/core/src/control.rs:17-21: where to connect, and the name by which the server is
    authenticated; [None]: without TLS *)
Record control_addr := ControlAddr { ca_addr : addr; ca_identity : option bytes }.
(** env.rs:1059-1083 *)
Definition parse_control_addr (e : strings) (base : bytes) : result (option control_addr) :=
  a <- parse e (base ++ bs "_ADDR"%string) parse_addr ;;
  n <- parse e (base ++ bs "_NAME"%string) parse_dns_name ;;
  match a, n with
  | None, None => inl None
  | Some addr, n =>
      if is_loopback addr then inl (Some (ControlAddr addr None))
      else match n with
           | Some name => inl (Some (ControlAddr addr (Some name)))
           | None => inr Invalid_env_var
           end
  | None, Some _ => inr Invalid_env_var
  end.

(** ** linkerd/app/src/env/http2.rs *)

(** linkerd/http/h2/src/lib.rs:40-47 *)
Inductive flow_control := Adaptive | Fixed_windows (stream connection : N).
(** linkerd/http/h2/src/lib.rs:3-14 and 27-31: the keep-alive has its interval and its timeout *)
Record h2_server := H2Server {
  hs_flow_control : flow_control; hs_keep_alive : option (N * N); hs_max_concurrent_streams : option N;
  hs_max_frame_size : option N; hs_max_header_list_size : option N;
  hs_max_pending_accept_reset_streams : option N; hs_max_send_buf_size : option N }.
(** env.rs:310 *)
Definition DEFAULT_STREAM_WINDOW : N := 65535.
(** env.rs:311 *)
Definition DEFAULT_CONNECTION_WINDOW : N := 1048576.
(** http2.rs:32-64 *)
Definition parse_flow_control (e : strings) (base : bytes) : result flow_control :=
  adaptive <- parse e (base ++ bs "_ADAPTIVE_FLOW_CONTROL"%string) parse_bool ;;
  match adaptive with
  | Some true => inl Adaptive
  | _ =>
      s <- parse e (base ++ bs "_INITIAL_STREAM_WINDOW_SIZE"%string) (parse_number u32_max) ;;
      c <- parse e (base ++ bs "_INITIAL_CONNECTION_WINDOW_SIZE"%string) (parse_number u32_max) ;;
      match s, c with
      | Some s, Some c => inl (Fixed_windows s c)
      | _, _ => inl (Fixed_windows DEFAULT_STREAM_WINDOW DEFAULT_CONNECTION_WINDOW)
      end
  end.
(** http2.rs:66-78 *)
Definition parse_keep_alive (e : strings) (base : bytes) : result (option (N * N)) :=
  timeout <- parse e (base ++ bs "_TIMEOUT"%string) parse_duration ;;
  interval <- parse e (base ++ bs "_INTERVAL"%string) parse_duration ;;
  match timeout, interval with
  | Some timeout, Some interval => inl (Some (interval, timeout))
  | _, _ => inl None
  end.
(** http2.rs:5-30; a `usize` has 64 bits *)
Definition parse_server (e : strings) (base : bytes) : result h2_server :=
  flow <- parse_flow_control e base ;;
  keep_alive <- parse_keep_alive e (base ++ bs "_KEEP_ALIVE"%string) ;;
  streams <- parse e (base ++ bs "_MAX_CONCURRENT_STREAMS"%string) (parse_number u32_max) ;;
  frame <- parse e (base ++ bs "_MAX_FRAME_SIZE"%string) (parse_number u32_max) ;;
  headers <- parse e (base ++ bs "_MAX_HEADER_LIST_SIZE"%string) (parse_number u32_max) ;;
  resets <- parse e (base ++ bs "_MAX_PENDING_ACCEPT_RESET_STREAMS"%string) (parse_number u64_max) ;;
  buf <- parse e (base ++ bs "_MAX_SEND_BUF_SIZE"%string) (parse_number u64_max) ;;
  inl (H2Server flow keep_alive streams frame headers resets buf).

(** ** The configuration: linkerd/app/core/src/config.rs, linkerd/app/{inbound,outbound}/src/lib.rs *)

(** app/core/src/config.rs:9-16; the second address is that of IPv6 *)
Record server_config := ServerConfig {
  sv_addr : sock; sv_addr6 : option sock; sv_keepalive : option N; sv_user_timeout : option N;
  sv_backlog : option N; sv_http2 : h2_server }.
(** app/core/src/config.rs:18-26; the other settings of HTTP/2 are the library's *)
Record connect_config := ConnectConfig {
  cc_keepalive : option N; cc_user_timeout : option N; cc_timeout : N; cc_backoff : backoff;
  cc_stream_window : N; cc_connection_window : N; cc_max_idle : N; cc_idle_timeout : N }.
(** app/core/src/config.rs:28-34 *)
Record proxy_config := ProxyConfig {
  px_server : server_config; px_connect : connect_config; px_max_in_flight : N; px_detect_timeout : N }.
(** app/core/src/config.rs:36-45 *)
Record queue_config := QueueConfig { qc_capacity : N; qc_failfast : N }.
(** app/outbound/src/lib.rs:56-86 *)
Record outbound_config := OutboundConfig {
  ob_ingress_mode : bool; ob_emit_headers : bool; ob_suffixes : list suffix;
  ob_networks : list AuthzModel.ipnet; ob_proxy : proxy_config; ob_inbound_ips : list (list N);
  ob_discovery_idle : N; ob_tcp_queue : queue_config; ob_http_queue : queue_config }.
(** app/inbound/src/lib.rs:41-60; [ib_policy] is with its `cache_max_idle_age`, which is
    [ib_discovery_idle] *)
Record inbound_config := InboundConfig {
  ib_suffixes : list suffix; ib_proxy : proxy_config; ib_policy : PolicyStoreModel.config;
  ib_profile_skip : N; ib_allowed_ips : list (list N); ib_discovery_idle : N; ib_http_queue : queue_config;
  ib_authority_labels : bool }.
(** app/core/src/control.rs:11-15 *)
Record control_config := ControlConfig { ct_addr : control_addr; ct_connect : connect_config; ct_queue : queue_config }.
(** app/src/dst.rs:13-17 *)
Record dst_config := DstConfig { ds_context : bytes; ds_control : control_config; ds_limits : WatchModel.limits }.
(** app/src/policy.rs:14-19 *)
Record policy_config := PolicyConfig {
  po_control : control_config; po_workload : bytes; po_limits : WatchModel.limits; po_hostname_labels : bool }.
(** app/admin/src/stack.rs:22-28, without profiling *)
Record admin_config := AdminConfig { ad_retain_idle : N; ad_server : server_config; ad_shutdown : bool }.
(** app/src/trace_collector.rs:14-24; [None]: `Disabled` *)
Record trace_config := TraceConfig {
  tr_attributes : list (bytes * bytes); tr_hostname : option bytes; tr_control : control_config }.
(** app/src/identity.rs:18-33.  The Linkerd identity has its token file and the directory of its
    documents. *)
Inductive identity_config :=
| Linkerd (control : control_config) (token dir : bytes) (min_refresh max_refresh : N)
          (id : AuthzModel.id) (server_name trust_anchors : bytes)
| Spire (id : AuthzModel.id) (server_name trust_anchors workload_api : bytes) (b : backoff).
(** app/src/lib.rs:53-74 *)
Record config := Config {
  c_outbound : outbound_config; c_inbound : inbound_config; c_gateway : list suffix;
  c_dns_min_ttl : option N; c_dns_max_ttl : option N; c_identity : identity_config; c_dst : dst_config;
  c_policy : policy_config; c_admin : admin_config; c_tap : option (AuthzModel.id * server_config);
  c_trace : option trace_config; c_shutdown_grace : N }.

(** Nanoseconds in a millisecond and a second, for the defaults *)
Definition ms : N := 1000000.
(** As [ms] *)
Definition secs : N := 1000000000.
(** env.rs:295-296 *)
Definition DEFAULT_INBOUND_CONNECT_BACKOFF : backoff := Backoff (100 * ms) (10 * secs) (Fin (1 # 10)).
(** env.rs:304-305 *)
Definition DEFAULT_OUTBOUND_CONNECT_BACKOFF : backoff := Backoff (100 * ms) (60 * secs) (Fin (1 # 10)).
(** env.rs:242-243 *)
Definition DEFAULT_SPIRE_BACKOFF : backoff := Backoff (100 * ms) (1 * secs) (Fin (1 # 10)).

(** env.rs:490-591 *)
Definition mk_outbound (e : strings) (stream_window connection_window : N) (suffixes : list suffix)
    (networks : list AuthzModel.ipnet) (inbound_ips : list (list N)) : result outbound_config :=
  ingress <- parse e (bs "LINKERD2_PROXY_INGRESS_MODE"%string) parse_bool ;;
  let ingress := or_default ingress false in
  disable <- parse e (bs "LINKERD2_PROXY_OUTBOUND_DISABLE_INFORMATIONAL_HEADERS"%string) parse_bool ;;
  let disable := or_default disable ingress in
  addrs <- parse e (bs "LINKERD2_PROXY_OUTBOUND_LISTEN_ADDRS"%string) parse_socket_addrs ;;
  addr <- match addrs with
          | Some [a] => inl (a, None)
          | Some [a; b] => inl (a, Some b)
          | _ =>
              a <- parse e (bs "LINKERD2_PROXY_OUTBOUND_LISTEN_ADDR"%string) parse_socket_addr ;;
              inl (or_default a (Sock [127; 0; 0; 1] 4140), None)
          end ;;
  accept_keepalive <- parse e (bs "LINKERD2_PROXY_OUTBOUND_ACCEPT_KEEPALIVE"%string) parse_duration ;;
  accept_user_timeout <- parse e (bs "LINKERD2_PROXY_OUTBOUND_ACCEPT_USER_TIMEOUT"%string) parse_duration ;;
  backlog <- parse e (bs "LINKERD2_PROXY_OUTBOUND_TCP_LISTEN_BACKLOG"%string) (parse_number u32_max) ;;
  http2 <- parse_server e (bs "LINKERD2_PROXY_OUTBOUND_SERVER_HTTP2"%string) ;;
  discovery_idle <- parse e (bs "LINKERD2_PROXY_OUTBOUND_DISCOVERY_IDLE_TIMEOUT"%string) parse_duration ;;
  max_idle <- parse e (bs "LINKERD2_PROXY_OUTBOUND_MAX_IDLE_CONNS_PER_ENDPOINT"%string) (parse_number u64_max) ;;
  connect_keepalive <- parse e (bs "LINKERD2_PROXY_OUTBOUND_CONNECT_KEEPALIVE"%string) parse_duration ;;
  connect_user_timeout <- parse e (bs "LINKERD2_PROXY_OUTBOUND_CONNECT_USER_TIMEOUT"%string) parse_duration ;;
  pool <- parse e (bs "LINKERD2_PROXY_OUTBOUND_HTTP1_CONNECTION_POOL_IDLE_TIMEOUT"%string) parse_duration ;;
  connect_timeout <- parse e (bs "LINKERD2_PROXY_OUTBOUND_CONNECT_TIMEOUT"%string) parse_duration ;;
  backoff <- parse_backoff e (bs "OUTBOUND_CONNECT"%string) DEFAULT_OUTBOUND_CONNECT_BACKOFF ;;
  detect <- parse e (bs "LINKERD2_PROXY_OUTBOUND_DETECT_TIMEOUT"%string) parse_duration ;;
  tcp_capacity <- parse e (bs "LINKERD2_PROXY_OUTBOUND_TCP_QUEUE_CAPACITY"%string) (parse_number u64_max) ;;
  tcp_failfast <- parse e (bs "LINKERD2_PROXY_OUTBOUND_TCP_FAILFAST_TIMEOUT"%string) parse_duration ;;
  http_capacity <- parse e (bs "LINKERD2_PROXY_OUTBOUND_HTTP_QUEUE_CAPACITY"%string) (parse_number u64_max) ;;
  http_failfast <- parse e (bs "LINKERD2_PROXY_OUTBOUND_HTTP_FAILFAST_TIMEOUT"%string) parse_duration ;;
  max_in_flight <- parse e (bs "LINKERD2_PROXY_OUTBOUND_MAX_IN_FLIGHT"%string) (parse_number u64_max) ;;
  inl (OutboundConfig ingress (negb disable) suffixes networks
         (ProxyConfig
            (ServerConfig (fst addr) (snd addr) accept_keepalive accept_user_timeout backlog http2)
            (ConnectConfig connect_keepalive connect_user_timeout (or_default connect_timeout (1 * secs)) backoff
               stream_window connection_window (or_default max_idle 10000) (or_default pool (3 * secs)))
            (or_default max_in_flight 100000)
            (or_default detect (10 * secs)))
         inbound_ips
         (or_default discovery_idle (5 * secs))
         (QueueConfig (or_default tcp_capacity 10000) (or_default tcp_failfast (3 * secs)))
         (QueueConfig (or_default http_capacity 10000) (or_default http_failfast (3 * secs)))).

(** env.rs:653-661 *)
Definition parse_authority_labels (s : bytes) : option bool :=
  if beq s [] then Some false
  else if eq_ignore_case s (bs "unsafe"%string) then Some true
  else None.
(** `HashSet::insert` *)
Definition insert (p : N) (l : list N) : list N := if existsb (N.eqb p) l then l else l ++ [p].
(** env.rs:664-728 *)
Definition mk_port_policy (e : strings) (inbound_port admin_port detect_timeout : N) (gateway : list suffix)
    : result PolicyStoreModel.config :=
  nets <- parse e (bs "LINKERD2_PROXY_POLICY_CLUSTER_NETWORKS"%string) parse_networks ;;
  default <- parse e (bs "LINKERD2_PROXY_INBOUND_DEFAULT_POLICY"%string)
               (fun s => PolicyStoreModel.parse_default_policy s (or_default nets []) detect_timeout) ;;
  ports <- parse e (bs "LINKERD2_PROXY_INBOUND_PORTS"%string) parse_port_range_set ;;
  let ports := fold_left (fun l p => insert p l) (flat_map PolicyStoreModel.range (or_default ports [])) [] in
  let ports := match gateway with [] => ports | _ => insert inbound_port ports end in
  let ports := insert admin_port ports in
  opaque <- parse e (bs "LINKERD2_PROXY_INBOUND_PORTS_DISABLE_PROTOCOL_DETECTION"%string) parse_port_range_set ;;
  inl (PolicyStoreModel.Discover
         (or_default default (PolicyStoreModel.Allow (PolicyStoreModel.all_unauthenticated detect_timeout)))
         ports (or_default opaque [])).
(** env.rs:600-752 *)
Definition mk_inbound (e : strings) (stream_window connection_window : N) (suffixes : list suffix)
    (inbound_ips : list (list N)) (gateway : list suffix) (admin_port : N) : result inbound_config :=
  addr <- parse e (bs "LINKERD2_PROXY_INBOUND_LISTEN_ADDR"%string) parse_socket_addr ;;
  let addr := or_default addr (Sock [0; 0; 0; 0] 4143) in
  accept_keepalive <- parse e (bs "LINKERD2_PROXY_INBOUND_ACCEPT_KEEPALIVE"%string) parse_duration ;;
  accept_user_timeout <- parse e (bs "LINKERD2_PROXY_INBOUND_ACCEPT_USER_TIMEOUT"%string) parse_duration ;;
  backlog <- parse e (bs "LINKERD2_PROXY_INBOUND_TCP_LISTEN_BACKLOG"%string) (parse_number u32_max) ;;
  http2 <- parse_server e (bs "LINKERD2_PROXY_INBOUND_SERVER_HTTP2"%string) ;;
  discovery_idle <- parse e (bs "LINKERD2_PROXY_INBOUND_DISCOVERY_IDLE_TIMEOUT"%string) parse_duration ;;
  max_idle <- parse e (bs "LINKERD2_PROXY_MAX_IDLE_CONNS_PER_ENDPOINT"%string) (parse_number u64_max) ;;
  pool <- parse e (bs "LINKERD2_PROXY_INBOUND_HTTP1_CONNECTION_POOL_IDLE_TIMEOUT"%string) parse_duration ;;
  connect_keepalive <- parse e (bs "LINKERD2_PROXY_INBOUND_CONNECT_KEEPALIVE"%string) parse_duration ;;
  connect_user_timeout <- parse e (bs "LINKERD2_PROXY_INBOUND_CONNECT_USER_TIMEOUT"%string) parse_duration ;;
  connect_timeout <- parse e (bs "LINKERD2_PROXY_INBOUND_CONNECT_TIMEOUT"%string) parse_duration ;;
  backoff <- parse_backoff e (bs "INBOUND_CONNECT"%string) DEFAULT_INBOUND_CONNECT_BACKOFF ;;
  detect <- parse e (bs "LINKERD2_PROXY_INBOUND_DETECT_TIMEOUT"%string) parse_duration ;;
  let detect := or_default detect (10 * secs) in
  labels <- parse e (bs "LINKERD2_PROXY_INBOUND_METRICS_AUTHORITY_LABELS"%string) parse_authority_labels ;;
  policy <- mk_port_policy e (s_port addr) admin_port detect gateway ;;
  max_in_flight <- parse e (bs "LINKERD2_PROXY_INBOUND_MAX_IN_FLIGHT"%string) (parse_number u64_max) ;;
  skip <- parse e (bs "LINKERD2_PROXY_DESTINATION_PROFILE_INITIAL_TIMEOUT"%string) parse_duration ;;
  capacity <- parse e (bs "LINKERD2_PROXY_INBOUND_HTTP_QUEUE_CAPACITY"%string) (parse_number u64_max) ;;
  failfast <- parse e (bs "LINKERD2_PROXY_INBOUND_HTTP_FAILFAST_TIMEOUT"%string) parse_duration ;;
  inl (InboundConfig suffixes
         (ProxyConfig
            (ServerConfig addr None accept_keepalive accept_user_timeout backlog http2)
            (ConnectConfig connect_keepalive connect_user_timeout (or_default connect_timeout (300 * ms)) backoff
               stream_window connection_window (or_default max_idle 10000) (or_default pool (3 * secs)))
            (or_default max_in_flight 100000)
            detect)
         policy (or_default skip (500 * ms)) inbound_ips (or_default discovery_idle (90 * secs))
         (QueueConfig (or_default capacity 10000) (or_default failfast (1 * secs)))
         (or_default labels false)).

(** env.rs:756-760, 802-806, 853-857 and env/identity.rs:53-57 *)
Definition connect_for (a : control_addr) (i : inbound_config) (o : outbound_config) : connect_config :=
  if is_loopback (ca_addr a) then px_connect (ib_proxy i) else px_connect (ob_proxy o).
(** env.rs:761-765, 858-862 and env/identity.rs:58-62 *)
Definition failfast_for (a : control_addr) (i : inbound_config) (o : outbound_config) : N :=
  if is_loopback (ca_addr a) then qc_failfast (ib_http_queue i) else qc_failfast (ob_http_queue o).
(** env.rs:766-770, 795-799; `ReceiveLimits::default()` has none *)
Definition limits_for (a : control_addr) (l : WatchModel.limits) : WatchModel.limits :=
  if is_loopback (ca_addr a) then WatchModel.Limits None None None else l.
(** The client of a part of the control plane: env.rs:773-780, 869-876, env/identity.rs:64-77.
    env.rs:307: DEFAULT_CONTROL_QUEUE_CAPACITY *)
Definition control_for (a : control_addr) (i : inbound_config) (o : outbound_config) : control_config :=
  ControlConfig a (connect_for a i o) (QueueConfig 100 (failfast_for a i o)).

(** env.rs:754-783 *)
Definition mk_dst (e : strings) (i : inbound_config) (o : outbound_config) (l : WatchModel.limits) : result dst_config :=
  a <- parse_control_addr e (bs "LINKERD2_PROXY_DESTINATION_SVC"%string) ;;
  a <- match a with Some a => inl a | None => inr No_destination end ;;
  context <- get e (bs "LINKERD2_PROXY_DESTINATION_CONTEXT"%string) ;;
  inl (DstConfig (or_default context []) (control_for a i o) (limits_for a l)).
(** env.rs:785-825; env.rs:308: DEFAULT_CONTROL_FAILFAST_TIMEOUT *)
Definition mk_policy (e : strings) (i : inbound_config) (o : outbound_config) (l : WatchModel.limits) : result policy_config :=
  a <- parse_control_addr e (bs "LINKERD2_PROXY_POLICY_SVC"%string) ;;
  a <- match a with Some a => inl a | None => inr No_policy end ;;
  workload <- get e (bs "LINKERD2_PROXY_POLICY_WORKLOAD"%string) ;;
  workload <- match workload with Some w => inl w | None => inr Invalid_env_var end ;;
  labels <- parse e (bs "LINKERD2_PROXY_OUTBOUND_METRICS_HOSTNAME_LABELS"%string) parse_bool ;;
  inl (PolicyConfig (ControlConfig a (connect_for a i o) (QueueConfig 100 (10 * secs))) workload
         (limits_for a l) (or_default labels false)).
(** The servers of env.rs:829-835 and 884-890 *)
Definition server_like (i : inbound_config) (a : sock) : server_config :=
  let s := px_server (ib_proxy i) in
  ServerConfig a None (sv_keepalive s) (sv_user_timeout s) (sv_backlog s) (sv_http2 s).

(** ** linkerd/app/src/env/trace.rs *)

(** `str::lines`: at line feeds, without a carriage return before them; nothing after the last.
    It is applied to the whole of [split 10]. *)
Fixpoint lines_of (pieces : list bytes) : list bytes :=
  match pieces with
  | [] => []
  | [p] => match p with [] => [] | _ => [p] end
  | p :: ps => (match strip_suffix [13] p with Some q => q | None => p end) :: lines_of ps
  end.
(** `str::lines` *)
Definition lines (s : bytes) : list bytes := lines_of (split 10 s).
(** trace.rs:74-87, one line: what precedes the first `=`, and what follows it without quotes *)
Definition parse_attr (line : bytes) : option (bytes * bytes) :=
  match split_once 61 line with
  | Some (key, val) => Some (key, trim_end 34 (trim_start 34 val))
  | None => None
  end.
(** trace.rs:74-87; the map is a list of which the last entry of a key counts, as
    `collect` and `extend` do *)
Definition parse_attrs (s : bytes) : list (bytes * bytes) := ProfileModel.filter_map parse_attr (lines s).

(** `std::fs::read_to_string`, `TokenSource::if_nonempty_file` and `Documents::load` *)
Variable read_to_string : bytes -> option bytes.
Variable token_ok : bytes -> bool.
Variable documents_ok : bytes -> bool.

(** trace.rs:12-27: values that are not Unicode are as if not set *)
Definition get_ok (e : strings) (key : bytes) : option bytes := match e key with Some v => v | None => None end.
(** trace.rs:36-72 *)
Definition trace_labels (e : strings) : list (bytes * bytes) :=
  match get_ok e (bs "LINKERD2_PROXY_TRACE_SERVICE_NAME"%string) with
  | Some n => [(bs "service.name"%string, n)]
  | None => []
  end ++
  match get_ok e (bs "LINKERD2_PROXY_TRACE_ATTRIBUTES_PATH"%string) with
  | Some p => match read_to_string p with Some s => parse_attrs s | None => [] end
  | None => []
  end ++
  match get_ok e (bs "LINKERD2_PROXY_TRACE_EXTRA_ATTRIBUTES"%string) with Some s => parse_attrs s | None => [] end ++
  match get_ok e (bs "OTEL_RESOURCE_ATTRIBUTES"%string) with Some s => parse_attrs s | None => [] end.
(** `HashMap::get` *)
Definition attribute (l : list (bytes * bytes)) (key : bytes) : option bytes :=
  option_map snd (List.find (fun kv => beq (fst kv) key) (rev l)).
(** env.rs:850-879; the address was parsed at env.rs:450 *)
Definition mk_trace (e : strings) (i : inbound_config) (o : outbound_config) : result (option trace_config) :=
  a <- parse_control_addr e (bs "LINKERD2_PROXY_TRACE_COLLECTOR_SVC"%string) ;;
  match a with
  | None => inl None
  | Some a =>
      hostname <- get e (bs "HOSTNAME"%string) ;;
      inl (Some (TraceConfig (trace_labels e) hostname (control_for a i o)))
  end.
(** env.rs:881-892 with 944-954 *)
Definition mk_tap (e : strings) (i : inbound_config) : result (option (AuthzModel.id * server_config)) :=
  id <- parse e (bs "LINKERD2_PROXY_TAP_SVC_NAME"%string) parse_identity ;;
  a <- parse e (bs "LINKERD2_PROXY_CONTROL_LISTEN_ADDR"%string) parse_socket_addr ;;
  match id with
  | Some id => inl (Some (id, server_like i (or_default a (Sock [0; 0; 0; 0] 4190))))
  | None => inl None
  end.

(** ** linkerd/app/src/env/identity.rs *)

(** identity.rs:131-183 *)
Definition parse_tls_params (e : strings) : result (AuthzModel.id * bytes * bytes) :=
  local <- get e (bs "LINKERD2_PROXY_IDENTITY_LOCAL_NAME"%string) ;;
  let names := match local with
               | Some _ => (bs "LINKERD2_PROXY_IDENTITY_LOCAL_NAME"%string, bs "LINKERD2_PROXY_IDENTITY_LOCAL_NAME"%string)
               | None => (bs "LINKERD2_PROXY_IDENTITY_SERVER_ID"%string, bs "LINKERD2_PROXY_IDENTITY_SERVER_NAME"%string)
               end in
  disabled <- get e (bs "LINKERD2_PROXY_IDENTITY_DISABLED"%string) ;;
  if match disabled with Some (_ :: _) => true | _ => false end then inr Invalid_env_var
  else
    ta <- parse e (bs "LINKERD2_PROXY_IDENTITY_TRUST_ANCHORS"%string)
            (fun s => match s with [] => None | _ => Some s end) ;;
    id <- parse e (fst names) parse_identity ;;
    name <- parse e (snd names) parse_dns_name ;;
    match ta, id, name with
    | Some ta, Some id, Some name => inl (id, name, ta)
    | _, _, _ => inr Invalid_env_var
    end.
(** env.rs:977-997 *)
Definition parse_deprecated {A} (e : strings) (name deprecated : bytes) (f : bytes -> option A) : result (option A) :=
  v <- parse e name f ;;
  match v with Some v => inl (Some v) | None => parse e deprecated f end.
(** `Url::scheme`: what precedes the first colon of the serialization *)
Definition scheme (uri : bytes) : bytes := match split_once 58 uri with Some (s, _) => s | None => [] end.
(** identity.rs:82-129 *)
Definition parse_linkerd_identity (e : strings) : result (control_addr * bytes * bytes * N * N) :=
  control <- parse_control_addr e (bs "LINKERD2_PROXY_IDENTITY_SVC"%string) ;;
  dir <- parse e (bs "LINKERD2_PROXY_IDENTITY_DIR"%string) Some ;;
  tok <- parse e (bs "LINKERD2_PROXY_IDENTITY_TOKEN_FILE"%string) (fun s => if token_ok s then Some s else None) ;;
  minr <- parse e (bs "LINKERD2_PROXY_IDENTITY_MIN_REFRESH"%string) parse_duration ;;
  maxr <- parse e (bs "LINKERD2_PROXY_IDENTITY_MAX_REFRESH"%string) parse_duration ;;
  match control, dir, tok with
  | Some control, Some dir, Some token =>
      if documents_ok dir then
        inl (control, token, dir, or_default minr (10 * secs), or_default maxr (60 * 60 * 24 * secs))
      else inr Invalid_env_var
  | _, _, _ => inr Invalid_env_var
  end.
(** identity.rs:4-80 *)
Definition mk_identity (e : strings) (i : inbound_config) (o : outbound_config) : result identity_config :=
  p <- parse_tls_params e ;;
  let '(id, name, ta) := p in
  spire <- parse_deprecated e (bs "LINKERD2_PROXY_IDENTITY_SPIRE_WORKLOAD_API_ADDRESS"%string)
             (bs "LINKERD2_PROXY_IDENTITY_SPIRE_SOCKET"%string) Some ;;
  match spire with
  | Some api =>
      match id with
      | AuthzModel.Uri uri =>
          if eq_ignore_case (scheme uri) (bs "spiffe"%string) then
            b <- parse_backoff e (bs "LINKERD2_PROXY_IDENTITY_SPIRE"%string) DEFAULT_SPIRE_BACKOFF ;;
            inl (Spire id name ta api b)
          else inr Invalid_env_var
      | _ => inr Invalid_env_var
      end
  | None =>
      if match id with AuthzModel.Dns n => beq n name | _ => false end then
        l <- parse_linkerd_identity e ;;
        let '(a, token, dir, minr, maxr) := l in
        inl (Linkerd (control_for a i o) token dir minr maxr id name ta)
      else inr Id_and_name_differ
  end.

(** env.rs:367-909.  Variables are read before their results are looked at, which is left out. *)
Definition parse_config (e : strings) : result config :=
  limits <- mk_receive_limits e ;;
  stream <- parse e (bs "LINKERD2_PROXY_HTTP2_INITIAL_STREAM_WINDOW_SIZE"%string) (parse_number u32_max) ;;
  let stream := or_default stream DEFAULT_STREAM_WINDOW in
  connection <- parse e (bs "LINKERD2_PROXY_HTTP2_INITIAL_CONNECTION_WINDOW_SIZE"%string) (parse_number u32_max) ;;
  let connection := or_default connection DEFAULT_CONNECTION_WINDOW in
  suffixes <- parse e (bs "LINKERD2_PROXY_DESTINATION_PROFILE_SUFFIXES"%string) parse_dns_suffixes ;;
  let suffixes := or_default suffixes [SName (bs "svc.cluster.local."%string)] in
  networks <- parse e (bs "LINKERD2_PROXY_DESTINATION_PROFILE_NETWORKS"%string) parse_networks ;;
  ips <- parse e (bs "LINKERD2_PROXY_INBOUND_IPS"%string) parse_ip_set ;;
  let ips := or_default ips [] in
  o <- mk_outbound e stream connection suffixes (or_default networks []) ips ;;
  gateway <- parse e (bs "LINKERD2_PROXY_INBOUND_GATEWAY_SUFFIXES"%string) parse_dns_suffixes ;;
  let gateway := or_default gateway [] in
  admin <- parse e (bs "LINKERD2_PROXY_ADMIN_LISTEN_ADDR"%string) parse_socket_addr ;;
  let admin := or_default admin (Sock [127; 0; 0; 1] 4191) in
  i <- mk_inbound e stream connection suffixes ips gateway (s_port admin) ;;
  dst <- mk_dst e i o limits ;;
  policy <- mk_policy e i o limits ;;
  retain <- parse e (bs "LINKERD2_PROXY_METRICS_RETAIN_IDLE"%string) parse_duration ;;
  shutdown <- parse e (bs "LINKERD2_PROXY_SHUTDOWN_ENDPOINT_ENABLED"%string) parse_bool ;;
  min_ttl <- parse e (bs "LINKERD2_PROXY_DNS_MIN_TTL"%string) parse_duration ;;
  max_ttl <- parse e (bs "LINKERD2_PROXY_DNS_MAX_TTL"%string) parse_duration ;;
  trace <- mk_trace e i o ;;
  tap <- mk_tap e i ;;
  identity <- mk_identity e i o ;;
  grace <- parse e (bs "LINKERD2_PROXY_SHUTDOWN_GRACE_PERIOD"%string) parse_duration ;;
  inl (Config o i gateway min_ttl max_ttl identity dst policy
         (AdminConfig (or_default retain (10 * 60 * secs)) (server_like i admin) (or_default shutdown false))
         tap trace (or_default grace (2 * 60 * secs))).
End Parsers.
