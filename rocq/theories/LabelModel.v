(** The text of the metrics the proxy writes itself: linkerd/metrics/src/{fmt,counter,gauge,
    histogram,store}.rs, http/metrics/src, transport-metrics/src, stack/metrics/src,
    opentelemetry/src/metrics.rs, app/core/src/metrics.rs and app/core/src/transport/labels.rs.
    (The registry of the crate prometheus_client, whose text follows this one, is of another crate.)
    A registry is the list of its entries, in the order in which the map is walked. *)
From Coq Require Import String List NArith Bool.
From Verif Require Import Bytes NameModel GatewayModel DnsModel EndpointModel PolicyStoreModel HistogramModel.
Import ListNotations.
Open Scope N_scope.

(** [key="value"]: the form in which every label is written, with the value as it is; fmt.rs:1-8
    and each `write!` of the files above *)
Definition lab (k v : bytes) : bytes := k ++ [61; 34] ++ v ++ [34].
(** fmt.rs:157-165 *)
Definition both (a b : bytes) : bytes := a ++ [44] ++ b.
(** fmt.rs:167-177 *)
Definition and_option (a : bytes) (b : option bytes) : bytes :=
  match b with Some b => a ++ [44] ++ b | None => a end.
(** fmt.rs:179-189 *)
Definition option_and (a : option bytes) (b : bytes) : bytes :=
  match a with Some a => a ++ [44] ++ b | None => b end.

(** fmt.rs:82-86: `fmt_help` *)
Definition fmt_help (name help kind : bytes) : bytes :=
  bs "# HELP "%string ++ name ++ [32] ++ help ++ [10] ++ bs "# TYPE "%string ++ name ++ [32] ++ kind ++ [10].
(** counter.rs:73-75, gauge.rs:46-48: a value without labels, already a number *)
Definition fmt_value (name : bytes) (v : N) : bytes := name ++ [32] ++ to_dec v ++ [10].
(** counter.rs:77-91, gauge.rs:50-64 *)
Definition fmt_value_labeled (name labels : bytes) (v : N) : bytes :=
  name ++ [123] ++ labels ++ [125; 32] ++ to_dec v ++ [10].
(** counter.rs:42-51, 70-75: the count of a counter is shown as [to_f64] of it *)
Definition fmt_counter (name labels : bytes) (n : N) : bytes := fmt_value_labeled name labels (to_f64 n).
(** `KIND` of counter.rs:71, gauge.rs:44 and histogram.rs:182 *)
Definition COUNTER : bytes := bs "counter"%string.
(** gauge.rs:44 *)
Definition GAUGE : bytes := bs "gauge"%string.
(** histogram.rs:182 *)
Definition HISTOGRAM : bytes := bs "histogram"%string.

(** latency.rs:7-35: the bounds of the histogram, that are all whole numbers; [None] is `Inf` *)
Definition LATENCY : list (option N) :=
  [Some 1; Some 2; Some 3; Some 4; Some 5; Some 10; Some 20; Some 30; Some 40; Some 50; Some 100; Some 200;
   Some 300; Some 400; Some 500; Some 1000; Some 2000; Some 3000; Some 4000; Some 5000; Some 10000;
   Some 20000; Some 30000; Some 40000; Some 50000; None].
(** histogram.rs:237-244 *)
Definition le_text (b : option N) : bytes := match b with Some v => to_dec v | None => bs "+Inf"%string end.
(** histogram.rs:207-215: the loop over the buckets, with the count so far *)
Fixpoint fmt_buckets (name labels : bytes) (total : N) (bounds : list (option N)) (counts : list N) : bytes * N :=
  match bounds, counts with
  | b :: bounds, c :: counts =>
      let total := counter_add total c in
      let (rest, total') := fmt_buckets name labels total bounds counts in
      (fmt_counter (name ++ bs "_bucket"%string) (both labels (lab (bs "le"%string) (le_text b))) total ++ rest, total')
  | _, _ => ([], total)
  end.
(** histogram.rs:196-220 *)
Definition fmt_histogram (name labels : bytes) (h : list N * N) : bytes :=
  let (text, total) := fmt_buckets name labels 0 LATENCY (fst h) in
  text ++ fmt_counter (name ++ bs "_count"%string) labels total ++ fmt_counter (name ++ bs "_sum"%string) labels (snd h).

(** http/metrics/src/lib.rs:98-106 *)
Definition prefixed (prefix name : bytes) : bytes :=
  match prefix with [] => name | _ => prefix ++ [95] ++ name end.

(** app/core/src/classify.rs:38-45: how a response was classified.  A status or a code is in [Ok] or in
    [Err]; a message is not empty. *)
Inductive class := C_http (ok : bool) (status : N) | C_grpc (ok : bool) (code : N) | C_error (msg : bytes).
(** app/core/src/metrics.rs:487 *)
Definition class_word (ok : bool) : bytes := if ok then bs "success"%string else bs "failure"%string.
(** app/core/src/metrics.rs:485-512 *)
Definition fmt_class (c : class) : bytes :=
  match c with
  | C_http ok _ =>
      both (lab (bs "classification"%string) (class_word ok))
        (both (lab (bs "grpc_status"%string) []) (lab (bs "error"%string) []))
  | C_grpc ok code =>
      both (lab (bs "classification"%string) (class_word ok))
        (both (lab (bs "grpc_status"%string) (to_dec code)) (lab (bs "error"%string) []))
  | C_error msg =>
      both (lab (bs "classification"%string) (bs "failure"%string))
        (both (lab (bs "grpc_status"%string) []) (lab (bs "error"%string) msg))
  end.
(** http/metrics/src/requests/report.rs:148-153 *)
Definition fmt_status (s : N) : bytes := lab (bs "status_code"%string) (to_dec s).

(** http/metrics/src/requests.rs: what is kept for each status: the latencies (the count of each bucket and
    the sum) and the count of each class *)
Record status_metrics := StatusMetrics { s_latency : list N * N; s_by_class : list (class * N) }.
(** http/metrics/src/requests.rs: what is kept for each target *)
Record http_metrics := HttpMetrics { h_total : N; h_by_status : list (option N * status_metrics) }.

Section Reports.
  Context {K : Type} (fmt_labels : K -> bytes).
  (** metrics/src/store.rs:74-90 and 98-115 (`fmt_by`, `fmt_by_locked`), fmt.rs:102-119 (`fmt_scopes`) *)
  Definition fmt_by {V : Type} (name : bytes) (get : V -> N) (registry : list (K * V)) : bytes :=
    flat_map (fun e => fmt_counter name (fmt_labels (fst e)) (get (snd e))) registry.
  (** the same of a gauge *)
  Definition fmt_gauge_by {V : Type} (name : bytes) (get : V -> N) (registry : list (K * V)) : bytes :=
    flat_map (fun e => fmt_value_labeled name (fmt_labels (fst e)) (get (snd e))) registry.

  (** report.rs:62-83 *)
  Definition fmt_by_status (name : bytes) (registry : list (K * http_metrics)) : bytes :=
    flat_map (fun e => flat_map (fun s =>
      fmt_histogram name (and_option (fmt_labels (fst e)) (option_map fmt_status (fst s))) (s_latency (snd s)))
      (h_by_status (snd e))) registry.
  (** report.rs:85-108 *)
  Definition fmt_by_class (name : bytes) (registry : list (K * http_metrics)) : bytes :=
    flat_map (fun e => flat_map (fun s => flat_map (fun c =>
      fmt_counter name (both (fmt_labels (fst e)) (option_and (option_map fmt_status (fst s)) (fmt_class (fst c)))) (snd c))
      (s_by_class (snd s))) (h_by_status (snd e))) registry.
  (** report.rs:111-145, 19-42 *)
  Definition fmt_http (prefix : bytes) (latencies : bool) (registry : list (K * http_metrics)) : bytes :=
    match registry with
    | [] => []
    | _ =>
        let n := prefixed prefix (bs "request_total"%string) in
        fmt_help n (bs "Total count of HTTP requests."%string) COUNTER ++ fmt_by n h_total registry ++
        (if latencies then
           let n := prefixed prefix (bs "response_latency_ms"%string) in
           fmt_help n (bs "Elapsed times between a request's headers being received and its response stream completing"%string) HISTOGRAM ++
           fmt_by_status n registry
         else []) ++
        let n := prefixed prefix (bs "response_total"%string) in
        fmt_help n (bs "Total count of HTTP responses."%string) COUNTER ++ fmt_by_class n registry
    end.

  (** http/metrics/src/retries.rs:83-124: the counts are of the retryable responses, and of those for which
      there was no budget *)
  Definition fmt_retries (prefix : bytes) (registry : list (K * (N * N))) : bytes :=
    match registry with
    | [] => []
    | _ =>
        let n := prefixed prefix (bs "retryable_total"%string) in
        fmt_help n (bs "Total count of retryable HTTP responses."%string) COUNTER ++
        flat_map (fun e =>
          fmt_counter n (fmt_labels (fst e)) (fst (snd e)) ++
          fmt_counter n (both (fmt_labels (fst e)) (lab (bs "skipped"%string) (bs "no_budget"%string))) (snd (snd e)))
          registry
    end.
End Reports.

(** app/core/src/metrics.rs:146-150, 456-474 *)
Inductive direction := D_in | D_out.
(** metrics.rs:468-472 *)
Definition fmt_direction (d : direction) : bytes :=
  lab (bs "direction"%string) (match d with D_in => bs "inbound"%string | D_out => bs "outbound"%string end).

(** tls/src/client.rs:30-60: why there is no TLS, or the identity of the server *)
Inductive client_tls := T_disabled | T_loopback | T_not_provided | T_ingress | T_server (i : EndpointModel.id).
(** transport/labels.rs:155-171, tls/src/client.rs:239-253 *)
Definition fmt_tls_connect (t : client_tls) : bytes :=
  let no why := both (lab (bs "tls"%string) (bs "no_identity"%string)) (lab (bs "no_tls_reason"%string) why) in
  match t with
  | T_disabled => lab (bs "tls"%string) (bs "disabled"%string)
  | T_loopback => no (bs "loopback"%string)
  | T_not_provided => no (bs "not_provided_by_service_discovery"%string)
  | T_ingress => no (bs "ingress_without_override"%string)
  | T_server i => both (lab (bs "tls"%string) (bs "true"%string)) (lab (bs "server_id"%string) (id_display i))
  end.
(** tls/src/server.rs:42-64 *)
Inductive server_tls :=
| S_disabled | S_loopback | S_port_skipped | S_no_client_hello
| S_established (client : option EndpointModel.id) | S_passthru (sni : bytes).
(** transport/labels.rs:126-145, tls/src/server.rs:294-303 *)
Definition fmt_tls_accept (t : server_tls) : bytes :=
  let no why := both (lab (bs "tls"%string) (bs "no_identity"%string)) (lab (bs "no_tls_reason"%string) why) in
  match t with
  | S_disabled => lab (bs "tls"%string) (bs "disabled"%string)
  | S_loopback => no (bs "loopback"%string)
  | S_port_skipped => no (bs "port_skipped"%string)
  | S_no_client_hello => no (bs "no_tls_from_remote"%string)
  | S_established client =>
      both (lab (bs "tls"%string) (bs "true"%string))
        (lab (bs "client_id"%string) (match client with Some i => id_display i | None => [] end))
  | S_passthru sni => both (lab (bs "tls"%string) (bs "opaque"%string)) (lab (bs "sni"%string) sni)
  end.

(** metrics.rs:152-163 *)
Definition prefix_labels (prefix : bytes) (labels : list (bytes * bytes)) : option bytes :=
  match labels with
  | [] => None
  | (k, v) :: rest =>
      Some (lab (prefix ++ [95] ++ k) v ++
            flat_map (fun e => [44] ++ lab (prefix ++ [95] ++ fst e) (snd e)) rest)
  end.

(** metrics.rs:345-357: `ServerLabel` *)
Definition fmt_server (m : meta) (port : N) : bytes :=
  both (lab (bs "srv_group"%string) (group m)) (both (lab (bs "srv_kind"%string) (kind m))
    (both (lab (bs "srv_name"%string) (name m)) (lab (bs "srv_port"%string) (to_dec port)))).
(** metrics.rs:389-402: the part for the route *)
Definition fmt_route (m : meta) : bytes :=
  both (lab (bs "route_group"%string) (group m)) (both (lab (bs "route_kind"%string) (kind m))
    (lab (bs "route_name"%string) (name m))).
(** metrics.rs:406-419: the part for the authorization *)
Definition fmt_authz (m : meta) : bytes :=
  both (lab (bs "authz_group"%string) (group m)) (both (lab (bs "authz_kind"%string) (kind m))
    (lab (bs "authz_name"%string) (name m))).

(** metrics.rs:78-98: `RouteAuthzLabels` and what it holds *)
Record policy_labels := PolicyLabels { p_server : meta; p_port : N; p_route : meta; p_authz : meta }.
(** metrics.rs:389-419: `RouteLabels` and `RouteAuthzLabels` *)
Definition fmt_policy (p : policy_labels) : bytes :=
  both (both (fmt_server (p_server p) (p_port p)) (fmt_route (p_route p))) (fmt_authz (p_authz p)).

(** metrics.rs:66-72 *)
Record in_endpoint := InEndpoint {
  i_tls : server_tls; i_authority : option bytes; i_addr : sock; i_policy : policy_labels }.
(** metrics.rs:111-117 *)
Inductive zone_locality := Z_unknown | Z_local | Z_remote.
(** metrics.rs:100-107; the text of the labels is made with `prefix_labels("dst", ..)` from those of the
    endpoint when the record is made (outbound/src/http/concrete.rs), here when it is written *)
Record out_endpoint := OutEndpoint {
  o_tls : client_tls; o_authority : option bytes; o_labels : list (bytes * bytes); o_zone : zone_locality;
  o_addr : sock }.
(** metrics.rs:59-63 *)
Inductive endpoint_labels := E_in (e : in_endpoint) | E_out (e : out_endpoint).
(** metrics.rs:139-144; the same of the labels, which are those of the route, with "rt" (metrics.rs:261-278) *)
Record route_labels := RouteLabels { r_direction : direction; r_addr : name_addr; r_labels : list (bytes * bytes) }.
(** metrics.rs:53-57 *)
Record control_labels := ControlLabels { k_addr : DnsModel.addr; k_tls : client_tls }.
(** transport/labels.rs:14-26: an inbound server has a policy, an outbound one has not *)
Inductive transport_key :=
| K_in_server (tls : server_tls) (target : sock) (policy : meta) (port : N)
| K_out_server (target : sock)
| K_out_client (e : out_endpoint)
| K_in_client.
(** metrics.rs:132-137: the names are constants of the proxy *)
Record stack_labels := StackLabels { t_direction : direction; t_protocol : bytes; t_name : bytes }.

Section Display.
  (** `Display` of `std::net::SocketAddr` and `IpAddr` *)
  Variable show_sock : sock -> bytes.
  Variable show_ip : list N -> bytes.

  (** transport/labels.rs:175-186 *)
  Definition fmt_target (a : sock) : bytes :=
    both (lab (bs "target_addr"%string) (show_sock a))
      (both (lab (bs "target_ip"%string) (show_ip (s_ip a))) (lab (bs "target_port"%string) (to_dec (s_port a)))).
  (** metrics.rs:476-481 *)
  Definition fmt_authority (a : bytes) : bytes := lab (bs "authority"%string) a.
  (** metrics.rs:323-341 *)
  Definition fmt_in_endpoint (e : in_endpoint) : bytes :=
    (match i_authority e with Some a => fmt_authority a ++ [44] | None => [] end) ++
    both (both (fmt_target (i_addr e)) (fmt_tls_accept (i_tls e))) (fmt_policy (i_policy e)).
  (** metrics.rs:429-454 *)
  Definition fmt_out_endpoint (e : out_endpoint) : bytes :=
    (match o_authority e with Some a => fmt_authority a ++ [44] | None => [] end) ++
    both (fmt_target (o_addr e)) (fmt_tls_connect (o_tls e)) ++
    (match prefix_labels (bs "dst"%string) (o_labels e) with Some l => [44] ++ l | None => [] end).
  (** metrics.rs:314-321 *)
  Definition fmt_endpoint (l : endpoint_labels) : bytes :=
    match l with
    | E_in e => both (fmt_direction D_in) (fmt_in_endpoint e)
    | E_out e => both (fmt_direction D_out) (fmt_out_endpoint e)
    end.
  (** addr/src/lib.rs:241-245 *)
  Definition show_name (a : name_addr) : bytes := without_trailing_dot (na_name a) ++ [58] ++ to_dec (na_port a).
  (** addr/src/lib.rs:133-140 *)
  Definition show_addr (a : DnsModel.addr) : bytes :=
    match a with DnsModel.Name n => show_name n | DnsModel.Socket s => show_sock s end.
  (** metrics.rs:281-298, service-profiles/src/lib.rs:240-244 *)
  Definition fmt_route_labels (l : route_labels) : bytes :=
    fmt_direction (r_direction l) ++ [44] ++ lab (bs "dst"%string) (show_name (r_addr l)) ++
    (match prefix_labels (bs "rt"%string) (r_labels l) with Some l => [44] ++ l | None => [] end).
  (** metrics.rs:248-257 *)
  Definition fmt_control (l : control_labels) : bytes :=
    lab (bs "addr"%string) (show_addr (k_addr l)) ++ [44] ++ fmt_tls_connect (k_tls l).
  (** transport/labels.rs:53-73, 76-116 *)
  Definition fmt_key (k : transport_key) : bytes :=
    let peer p := [44] ++ lab (bs "peer"%string) p ++ [44] in
    match k with
    | K_in_server tls a m port =>
        fmt_direction D_in ++ peer (bs "src"%string) ++
        and_option (both (fmt_target a) (fmt_tls_accept tls)) (Some (fmt_server m port))
    | K_out_server a =>
        fmt_direction D_out ++ peer (bs "src"%string) ++
        and_option (both (fmt_target a) (fmt_tls_accept S_loopback)) None
    | K_out_client e => fmt_direction D_out ++ peer (bs "dst"%string) ++ fmt_out_endpoint e
    | K_in_client => fmt_direction D_in ++ peer (bs "dst"%string) ++ fmt_tls_connect T_loopback
    end.
  (** metrics.rs:533-544 *)
  Definition fmt_stack (l : stack_labels) : bytes :=
    fmt_direction (t_direction l) ++ [44] ++ lab (bs "protocol"%string) (t_protocol l) ++ [44] ++
    lab (bs "name"%string) (t_name l).

  (** transport-metrics/src/lib.rs:36-59; the name of an error code is its identifier *)
  Record tcp_metrics := TcpMetrics {
    c_opened : N; c_open : N; c_read : N; c_written : N; c_closed : list (option bytes * N) }.
  (** transport-metrics/src/lib.rs:86-94, errno/src/lib.rs:18-45 *)
  Definition fmt_eos (e : option bytes) : bytes :=
    lab (bs "errno"%string) (match e with Some e => e | None => [] end).
  (** transport-metrics/src/report.rs:50-74, 29-48, transport-metrics/src/lib.rs:25-32 *)
  Definition fmt_transport (registry : list (transport_key * tcp_metrics)) : bytes :=
    match registry with
    | [] => []
    | _ =>
        let counter n h get := fmt_help n h COUNTER ++ fmt_by fmt_key n get registry in
        counter (bs "tcp_open_total"%string) (bs "Total count of opened connections"%string) c_opened ++
        fmt_help (bs "tcp_open_connections"%string) (bs "Number of currently-open connections"%string) GAUGE ++
        fmt_gauge_by fmt_key (bs "tcp_open_connections"%string) c_open registry ++
        counter (bs "tcp_read_bytes_total"%string) (bs "Total count of bytes read from peers"%string) c_read ++
        counter (bs "tcp_write_bytes_total"%string) (bs "Total count of bytes written to peers"%string) c_written ++
        fmt_help (bs "tcp_close_total"%string) (bs "Total count of closed connections"%string) COUNTER ++
        flat_map (fun e => flat_map (fun c =>
          fmt_counter (bs "tcp_close_total"%string) (both (fmt_key (fst e)) (fmt_eos (fst c))) (snd c))
          (c_closed (snd e))) registry
    end.

  (** opentelemetry/src/metrics.rs:8-19 *)
  Record export_metrics := ExportMetrics { x_streams : N; x_requests : N; x_spans : N }.
  (** opentelemetry/src/metrics.rs:48-61 *)
  Definition fmt_export (m : export_metrics) : bytes :=
    let counter n h v := fmt_help n h COUNTER ++ fmt_value n (to_f64 v) in
    counter (bs "opentelemetry_span_export_streams"%string) (bs "Total count of opened span export streams"%string) (x_streams m) ++
    counter (bs "opentelemetry_span_export_requests"%string) (bs "Total count of span export request messages"%string) (x_requests m) ++
    counter (bs "opentelemetry_span_exports"%string) (bs "Total count of spans exported"%string) (x_spans m).

  (** stack/metrics/src/lib.rs:28-36 *)
  Record stack_metrics := StackMetrics {
    t_created : N; t_dropped : N; t_ready : N; t_not_ready : N; t_millis : N; t_failed : N }.
  (** stack/metrics/src/lib.rs:60-95, 97-111 *)
  Definition fmt_stacks (registry : list (stack_labels * stack_metrics)) : bytes :=
    match registry with
    | [] => []
    | _ =>
        let counter n h get := fmt_help n h COUNTER ++ fmt_by fmt_stack n get registry in
        let polls ready get :=
          fmt_by (fun l => both (fmt_stack l) (lab (bs "ready"%string) ready)) (bs "stack_poll_total"%string) get registry in
        counter (bs "stack_create_total"%string) (bs "Total number of services created"%string) t_created ++
        counter (bs "stack_drop_total"%string) (bs "Total number of services dropped"%string) t_dropped ++
        fmt_help (bs "stack_poll_total"%string) (bs "Total number of stack polls"%string) COUNTER ++
        polls (bs "true"%string) t_ready ++ polls (bs "false"%string) t_not_ready ++ polls (bs "error"%string) t_failed ++
        counter (bs "stack_poll_total_ms"%string)
          (bs "Total number of milliseconds this service has spent awaiting readiness"%string) t_millis
    end.

  (** app/core/src/metrics.rs:36-51: what the proxy has counted *)
  Record counted := Counted {
    g_endpoint : list (endpoint_labels * http_metrics);
    g_route : list (route_labels * http_metrics);
    g_retry : list (route_labels * (N * N));
    g_actual : list (route_labels * http_metrics);
    g_control : list (control_labels * http_metrics);
    g_transport : list (transport_key * tcp_metrics);
    g_export : export_metrics;
    g_stack : list (stack_labels * stack_metrics) }.
  (** metrics.rs:167-235: the order and the prefixes of the reports *)
  Definition report (c : counted) : bytes :=
    fmt_http fmt_endpoint [] true (g_endpoint c) ++
    fmt_http fmt_route_labels (bs "route"%string) true (g_route c) ++
    fmt_retries fmt_route_labels (bs "route"%string) (g_retry c) ++
    fmt_http fmt_route_labels (bs "route_actual"%string) false (g_actual c) ++
    fmt_http fmt_control (bs "control"%string) true (g_control c) ++
    fmt_transport (g_transport c) ++
    fmt_export (g_export c) ++
    fmt_stacks (g_stack c).
End Display.
