(** What the text of the metrics says.

    [read] is a reader of the text format of Prometheus, for values that are whole numbers: it is what a
    scraper does with the page.  [shown] says which series the page should have, with which labels and
    which values.  [in_text] is what of a key the labels show. *)
From Coq Require Import String List NArith Bool.
From Verif Require Import Bytes NameModel GatewayModel DnsModel EndpointModel PolicyStoreModel LabelModel.
Import ListNotations.
Open Scope N_scope.

(* ---- the reader ---- *)

Definition pair := (bytes * bytes)%type.
Definition letter (c : N) : bool := ((65 <=? c) && (c <=? 90)) || ((97 <=? c) && (c <=? 122)) || (c =? 95).
Definition word_char (c : N) : bool := letter c || is_digit c.
(** The name of a label, or of a metric without a colon *)
Definition word (s : bytes) : bool := match s with c :: _ => letter c && forallb word_char s | [] => false end.

(** Where the reader is within the braces of a series *)
Inductive state := Key (so_far : bytes) | Quote (key : bytes) | Value (key so_far : bytes) | Escape (key so_far : bytes) | After.
(** The labels, and what follows the closing brace *)
Fixpoint scan (st : state) (done : list pair) (s : bytes) : option (list pair * bytes) :=
  match s with
  | [] => None
  | c :: s =>
      match st with
      | Key k =>
          if c =? 61 then (if word k then scan (Quote k) done s else None)
          else if (c =? 125) && beq k [] then Some (done, s)
          else scan (Key (k ++ [c])) done s
      | Quote k => if c =? 34 then scan (Value k []) done s else None
      | Value k v =>
          if c =? 34 then scan After (done ++ [(k, v)]) s
          else if c =? 92 then scan (Escape k v) done s
          else scan (Value k (v ++ [c])) done s
      | Escape k v =>
          if c =? 110 then scan (Value k (v ++ [10])) done s
          else if (c =? 34) || (c =? 92) then scan (Value k (v ++ [c])) done s
          else None
      | After =>
          if c =? 44 then scan (Key []) done s
          else if c =? 125 then Some (done, s)
          else None
      end
  end.

Definition number (s : bytes) : option N :=
  match s with
  | [] => None
  | _ => if forallb is_digit s then Some (fold_left (fun a c => a * 10 + (c - 48)) s 0) else None
  end.

(** A series and its value *)
Record sample := Sample { m_name : bytes; m_labels : list pair; m_value : N }.
Definition series (s : sample) : bytes * list pair := (m_name s, m_labels s).

(** The longest start of [s] that is made of word characters, and the rest *)
Fixpoint span (s : bytes) : bytes * bytes :=
  match s with
  | c :: t => if word_char c then let (a, b) := span t in (c :: a, b) else ([], s)
  | [] => ([], [])
  end.
Definition read_sample (s : bytes) : option sample :=
  let (n, rest) := span s in
  if word n then
    match rest with
    | 32 :: v => option_map (Sample n []) (number v)
    | 123 :: rest =>
        match scan (Key []) [] rest with
        | Some (ls, 32 :: v) => option_map (Sample n ls) (number v)
        | _ => None
        end
    | _ => None
    end
  else None.

(** A line of the page *)
Inductive line := Help (name text : bytes) | Kind (name kind : bytes) | Value_of (s : sample).
Definition read_line (s : bytes) : option line :=
  match strip_prefix (bs "# HELP "%string) s with
  | Some t => option_map (fun p => Help (fst p) (snd p)) (split_once 32 t)
  | None =>
      match strip_prefix (bs "# TYPE "%string) s with
      | Some t => option_map (fun p => Kind (fst p) (snd p)) (split_once 32 t)
      | None => option_map Value_of (read_sample s)
      end
  end.
Fixpoint all {A B} (f : A -> option B) (l : list A) : option (list B) :=
  match l with
  | [] => Some []
  | a :: l => match f a, all f l with Some b, Some bs => Some (b :: bs) | _, _ => None end
  end.
(** Every line ends with a newline. *)
Definition read (text : bytes) : option (list line) :=
  match rev (split 10 text) with [] :: ls => all read_line (rev ls) | _ => None end.

Definition samples (ls : list line) : list sample :=
  flat_map (fun l => match l with Value_of s => [s] | _ => [] end) ls.

(** A page is made of families: the name, the help and the kind, and then the series *)
Record family := Family { f_name : bytes; f_help : bytes; f_kind : bytes; f_samples : list sample }.
Definition family_lines (f : family) : list line :=
  Help (f_name f) (f_help f) :: Kind (f_name f) (f_kind f) :: map Value_of (f_samples f).
(** The names of the series of a family are its own, and for a histogram those of its parts. *)
Definition named_for (f : family) (s : sample) : Prop :=
  ((f_kind f = bs "counter"%string \/ f_kind f = bs "gauge"%string) /\ m_name s = f_name f) \/
  (f_kind f = bs "histogram"%string /\
   (m_name s = f_name f ++ bs "_bucket"%string \/ m_name s = f_name f ++ bs "_count"%string \/
    m_name s = f_name f ++ bs "_sum"%string)).

(* ---- the labels of each key ---- *)

Definition l (k : string) (v : bytes) : pair := (bs k, v).

Definition direction_pairs (d : direction) : list pair :=
  [l "direction" (match d with D_in => bs "inbound"%string | D_out => bs "outbound"%string end)].
Definition no_tls (why : string) : list pair := [l "tls" (bs "no_identity"%string); l "no_tls_reason" (bs why)].
Definition client_tls_pairs (t : client_tls) : list pair :=
  match t with
  | T_disabled => [l "tls" (bs "disabled"%string)]
  | T_loopback => no_tls "loopback"
  | T_not_provided => no_tls "not_provided_by_service_discovery"
  | T_ingress => no_tls "ingress_without_override"
  | T_server i => [l "tls" (bs "true"%string); l "server_id" (id_display i)]
  end.
Definition server_tls_pairs (t : server_tls) : list pair :=
  match t with
  | S_disabled => [l "tls" (bs "disabled"%string)]
  | S_loopback => no_tls "loopback"
  | S_port_skipped => no_tls "port_skipped"
  | S_no_client_hello => no_tls "no_tls_from_remote"
  | S_established c => [l "tls" (bs "true"%string); l "client_id" (match c with Some i => id_display i | None => [] end)]
  | S_passthru sni => [l "tls" (bs "opaque"%string); l "sni" sni]
  end.
Definition server_pairs (m : meta) (port : N) : list pair :=
  [l "srv_group" (group m); l "srv_kind" (kind m); l "srv_name" (name m); l "srv_port" (to_dec port)].
Definition policy_pairs (p : policy_labels) : list pair :=
  server_pairs (p_server p) (p_port p) ++
  [l "route_group" (group (p_route p)); l "route_kind" (kind (p_route p)); l "route_name" (name (p_route p));
   l "authz_group" (group (p_authz p)); l "authz_kind" (kind (p_authz p)); l "authz_name" (name (p_authz p))].
Definition authority_pairs (a : option bytes) : list pair :=
  match a with Some a => [l "authority" a] | None => [] end.
Definition prefixed_pairs (prefix : bytes) (ls : list pair) : list pair :=
  map (fun e => (prefix ++ [95] ++ fst e, snd e)) ls.
Definition stack_pairs (k : stack_labels) : list pair :=
  direction_pairs (t_direction k) ++ [l "protocol" (t_protocol k); l "name" (t_name k)].
Definition status_pairs (s : option N) : list pair :=
  match s with Some s => [l "status_code" (to_dec s)] | None => [] end.
Definition class_pairs (c : class) : list pair :=
  match c with
  | C_http ok _ => [l "classification" (if ok then bs "success"%string else bs "failure"%string); l "grpc_status" []; l "error" []]
  | C_grpc ok code =>
      [l "classification" (if ok then bs "success"%string else bs "failure"%string); l "grpc_status" (to_dec code); l "error" []]
  | C_error msg => [l "classification" (bs "failure"%string); l "grpc_status" []; l "error" msg]
  end.

Section Display.
  Variable show_sock : sock -> bytes.
  Variable show_ip : list N -> bytes.

  Definition target_pairs (a : sock) : list pair :=
    [l "target_addr" (show_sock a); l "target_ip" (show_ip (s_ip a)); l "target_port" (to_dec (s_port a))].
  Definition in_endpoint_pairs (e : in_endpoint) : list pair :=
    authority_pairs (i_authority e) ++ target_pairs (i_addr e) ++ server_tls_pairs (i_tls e) ++ policy_pairs (i_policy e).
  Definition out_endpoint_pairs (e : out_endpoint) : list pair :=
    authority_pairs (o_authority e) ++ target_pairs (o_addr e) ++ client_tls_pairs (o_tls e) ++
    prefixed_pairs (bs "dst"%string) (o_labels e).
  Definition endpoint_pairs (k : endpoint_labels) : list pair :=
    match k with
    | E_in e => direction_pairs D_in ++ in_endpoint_pairs e
    | E_out e => direction_pairs D_out ++ out_endpoint_pairs e
    end.
  Definition route_pairs (k : route_labels) : list pair :=
    direction_pairs (r_direction k) ++ [l "dst" (show_name (r_addr k))] ++ prefixed_pairs (bs "rt"%string) (r_labels k).
  Definition control_pairs (k : control_labels) : list pair :=
    [l "addr" (show_addr show_sock (k_addr k))] ++ client_tls_pairs (k_tls k).
  Definition key_pairs (k : transport_key) : list pair :=
    match k with
    | K_in_server t a m port =>
        direction_pairs D_in ++ [l "peer" (bs "src"%string)] ++ target_pairs a ++ server_tls_pairs t ++ server_pairs m port
    | K_out_server a =>
        direction_pairs D_out ++ [l "peer" (bs "src"%string)] ++ target_pairs a ++ server_tls_pairs S_loopback
    | K_out_client e => direction_pairs D_out ++ [l "peer" (bs "dst"%string)] ++ out_endpoint_pairs e
    | K_in_client => direction_pairs D_in ++ [l "peer" (bs "dst"%string)] ++ client_tls_pairs T_loopback
    end.

  (* ---- what the page shows ---- *)

  (** A count is shown up to 2^53, from where it starts again; the count of the buckets up to one is kept in
      64 bits. *)
  Definition seen (n : N) : N := n mod (2 ^ 53 + 1).
  Definition up_to (i : nat) (counts : list N) : N := fold_right N.add 0 (firstn (S i) counts) mod 2 ^ 64.

  (** The bounds of the latencies, in milliseconds: 1 to 5, and 10, 100, 1000 and 10000 times as much, and infinity *)
  Definition latency_bounds : list (option N) :=
    flat_map (fun m => map (fun d => Some (d * m)) [1; 2; 3; 4; 5]) [1; 10; 100; 1000; 10000] ++ [None].

  (** The series of the requests of the targets of a registry *)
  Inductive http_shown {K : Type} (pairs : K -> list pair) (prefix : bytes) (latencies : bool)
      (registry : list (K * http_metrics)) : bytes -> list pair -> N -> Prop :=
  | requests k m : In (k, m) registry ->
      http_shown pairs prefix latencies registry (prefix ++ bs "request_total"%string) (pairs k) (seen (h_total m))
  | responses k m st s c n : In (k, m) registry -> In (st, s) (h_by_status m) -> In (c, n) (s_by_class s) ->
      http_shown pairs prefix latencies registry (prefix ++ bs "response_total"%string)
        (pairs k ++ status_pairs st ++ class_pairs c) (seen n)
  | latency_bucket k m st s i b : latencies = true -> In (k, m) registry -> In (st, s) (h_by_status m) ->
      nth_error latency_bounds i = Some b ->
      http_shown pairs prefix latencies registry (prefix ++ bs "response_latency_ms_bucket"%string)
        (pairs k ++ status_pairs st ++ [l "le" (match b with Some v => to_dec v | None => bs "+Inf"%string end)])
        (seen (up_to i (fst (s_latency s))))
  | latency_count k m st s : latencies = true -> In (k, m) registry -> In (st, s) (h_by_status m) ->
      http_shown pairs prefix latencies registry (prefix ++ bs "response_latency_ms_count"%string)
        (pairs k ++ status_pairs st) (seen (up_to 25 (fst (s_latency s))))
  | latency_sum k m st s : latencies = true -> In (k, m) registry -> In (st, s) (h_by_status m) ->
      http_shown pairs prefix latencies registry (prefix ++ bs "response_latency_ms_sum"%string)
        (pairs k ++ status_pairs st) (seen (snd (s_latency s))).

  Inductive shown (c : counted) : bytes -> list pair -> N -> Prop :=
  | of_endpoint n ls v : http_shown endpoint_pairs [] true (g_endpoint c) n ls v -> shown c n ls v
  | of_route n ls v : http_shown route_pairs (bs "route_"%string) true (g_route c) n ls v -> shown c n ls v
  | of_actual n ls v : http_shown route_pairs (bs "route_actual_"%string) false (g_actual c) n ls v -> shown c n ls v
  | of_control n ls v : http_shown control_pairs (bs "control_"%string) true (g_control c) n ls v -> shown c n ls v
  | of_retryable k m : In (k, m) (g_retry c) ->
      shown c (bs "route_retryable_total"%string) (route_pairs k) (seen (fst m))
  | of_no_budget k m : In (k, m) (g_retry c) ->
      shown c (bs "route_retryable_total"%string) (route_pairs k ++ [l "skipped" (bs "no_budget"%string)]) (seen (snd m))
  | of_opened k m : In (k, m) (g_transport c) -> shown c (bs "tcp_open_total"%string) (key_pairs k) (seen (c_opened m))
  | of_open k m : In (k, m) (g_transport c) -> shown c (bs "tcp_open_connections"%string) (key_pairs k) (c_open m)
  | of_read k m : In (k, m) (g_transport c) -> shown c (bs "tcp_read_bytes_total"%string) (key_pairs k) (seen (c_read m))
  | of_written k m : In (k, m) (g_transport c) ->
      shown c (bs "tcp_write_bytes_total"%string) (key_pairs k) (seen (c_written m))
  | of_closed k m e n : In (k, m) (g_transport c) -> In (e, n) (c_closed m) ->
      shown c (bs "tcp_close_total"%string)
        (key_pairs k ++ [l "errno" (match e with Some e => e | None => [] end)]) (seen n)
  | of_streams : shown c (bs "opentelemetry_span_export_streams"%string) [] (seen (x_streams (g_export c)))
  | of_exports : shown c (bs "opentelemetry_span_export_requests"%string) [] (seen (x_requests (g_export c)))
  | of_spans : shown c (bs "opentelemetry_span_exports"%string) [] (seen (x_spans (g_export c)))
  | of_created k m : In (k, m) (g_stack c) -> shown c (bs "stack_create_total"%string) (stack_pairs k) (seen (t_created m))
  | of_dropped k m : In (k, m) (g_stack c) -> shown c (bs "stack_drop_total"%string) (stack_pairs k) (seen (t_dropped m))
  | of_ready k m : In (k, m) (g_stack c) ->
      shown c (bs "stack_poll_total"%string) (stack_pairs k ++ [l "ready" (bs "true"%string)]) (seen (t_ready m))
  | of_not_ready k m : In (k, m) (g_stack c) ->
      shown c (bs "stack_poll_total"%string) (stack_pairs k ++ [l "ready" (bs "false"%string)]) (seen (t_not_ready m))
  | of_failed k m : In (k, m) (g_stack c) ->
      shown c (bs "stack_poll_total"%string) (stack_pairs k ++ [l "ready" (bs "error"%string)]) (seen (t_failed m))
  | of_millis k m : In (k, m) (g_stack c) -> shown c (bs "stack_poll_total_ms"%string) (stack_pairs k) (seen (t_millis m)).

  (* ---- clean values ---- *)

  (** Without a quote, a backslash or a newline *)
  Definition clean (s : bytes) : Prop := Forall (fun c => c <> 34 /\ c <> 92 /\ c <> 10) s.
  Definition clean_id (i : id) : Prop := clean (id_display i).
  Definition clean_client_tls (t : client_tls) : Prop := match t with T_server i => clean_id i | _ => True end.
  Definition clean_server_tls (t : server_tls) : Prop :=
    match t with S_established (Some i) => clean_id i | S_passthru sni => clean sni | _ => True end.
  Definition clean_meta (m : meta) : Prop := clean (group m) /\ clean (kind m) /\ clean (name m).
  Definition clean_opt (a : option bytes) : Prop := match a with Some a => clean a | None => True end.
  (** The names of labels given by the control plane have only letters, digits and underscores. *)
  Definition clean_labels (ls : list pair) : Prop := Forall (fun e => forallb word_char (fst e) = true /\ clean (snd e)) ls.
  Definition clean_out (e : out_endpoint) : Prop :=
    clean_opt (o_authority e) /\ clean_client_tls (o_tls e) /\ clean_labels (o_labels e).
  Definition clean_endpoint (k : endpoint_labels) : Prop :=
    match k with
    | E_in e =>
        clean_opt (i_authority e) /\ clean_server_tls (i_tls e) /\ clean_meta (p_server (i_policy e)) /\
        clean_meta (p_route (i_policy e)) /\ clean_meta (p_authz (i_policy e))
    | E_out e => clean_out e
    end.
  Definition clean_route (k : route_labels) : Prop := clean (na_name (r_addr k)) /\ clean_labels (r_labels k).
  Definition clean_addr (a : DnsModel.addr) : Prop :=
    match a with DnsModel.Name n => clean (na_name n) | DnsModel.Socket _ => True end.
  Definition clean_control (k : control_labels) : Prop := clean_addr (k_addr k) /\ clean_client_tls (k_tls k).
  Definition clean_key (k : transport_key) : Prop :=
    match k with
    | K_in_server t _ m _ => clean_server_tls t /\ clean_meta m
    | K_out_client e => clean_out e
    | _ => True
    end.
  Definition clean_stack (k : stack_labels) : Prop := clean (t_protocol k) /\ clean (t_name k).
  (** A message is clean, and each histogram has a count for each bucket. *)
  Definition clean_http {K} (key : K -> Prop) (registry : list (K * http_metrics)) : Prop :=
    Forall (fun e => key (fst e) /\
      Forall (fun s => List.length (fst (s_latency (snd s))) = List.length latency_bounds /\
        Forall (fun c => match fst c with C_error msg => clean msg | _ => True end) (s_by_class (snd s)))
        (h_by_status (snd e))) registry.
  Definition clean_counted (c : counted) : Prop :=
    clean_http clean_endpoint (g_endpoint c) /\ clean_http clean_route (g_route c) /\
    Forall (fun e => clean_route (fst e)) (g_retry c) /\ clean_http clean_route (g_actual c) /\
    clean_http clean_control (g_control c) /\
    Forall (fun e => clean_key (fst e) /\ Forall (fun x => clean_opt (fst x)) (c_closed (snd e))) (g_transport c) /\
    Forall (fun e => clean_stack (fst e)) (g_stack c).

  (* ---- keys that the text tells apart ---- *)

  (** What of a key is in the text: not the zone, not the dot that ends a name, not whether an identity is a name
      or a URI, and of a policy its group, kind and name. *)
  Definition in_text_id (i : id) : id := Uri (id_display i).
  Definition in_text_client_tls (t : client_tls) : client_tls :=
    match t with T_server i => T_server (in_text_id i) | t => t end.
  Definition in_text_server_tls (t : server_tls) : server_tls :=
    match t with
    | S_established (Some i) => S_established (Some (in_text_id i))
    | S_established None => S_established (Some (Uri []))
    | t => t
    end.
  Definition in_text_meta (m : meta) : meta := M_resource (group m) (kind m) (name m).
  Definition in_text_policy (p : policy_labels) : policy_labels :=
    PolicyLabels (in_text_meta (p_server p)) (p_port p) (in_text_meta (p_route p)) (in_text_meta (p_authz p)).
  Definition in_text_out (e : out_endpoint) : out_endpoint :=
    OutEndpoint (in_text_client_tls (o_tls e)) (o_authority e) (o_labels e) Z_unknown (o_addr e).
  Definition in_text_endpoint (k : endpoint_labels) : endpoint_labels :=
    match k with
    | E_in e => E_in (InEndpoint (in_text_server_tls (i_tls e)) (i_authority e) (i_addr e) (in_text_policy (i_policy e)))
    | E_out e => E_out (in_text_out e)
    end.
  Definition in_text_route (k : route_labels) : direction * bytes * list pair :=
    (r_direction k, show_name (r_addr k), r_labels k).
  Definition in_text_control (k : control_labels) : bytes * client_tls :=
    (show_addr show_sock (k_addr k), in_text_client_tls (k_tls k)).
  Definition in_text_key (k : transport_key) : transport_key :=
    match k with
    | K_in_server t a m port => K_in_server (in_text_server_tls t) a (in_text_meta m) port
    | K_out_client e => K_out_client (in_text_out e)
    | k => k
    end.

  (** No key, status, class or error code is twice in its map.  A class is kept under the status of its
      response, and its message is not empty; nor is the name of an error code. *)
  Definition fits (st : option N) (c : class) : Prop :=
    match c with C_http _ s => st = Some s | C_grpc _ _ => True | C_error msg => msg <> [] end.
  Definition apart_http {K I} (in_text : K -> I) (registry : list (K * http_metrics)) : Prop :=
    NoDup (map (fun e => in_text (fst e)) registry) /\
    Forall (fun e => NoDup (map fst (h_by_status (snd e))) /\
      Forall (fun s => NoDup (map fst (s_by_class (snd s))) /\ Forall (fun c => fits (fst s) (fst c)) (s_by_class (snd s)))
        (h_by_status (snd e))) registry.
  Definition apart (c : counted) : Prop :=
    apart_http in_text_endpoint (g_endpoint c) /\ apart_http in_text_route (g_route c) /\
    NoDup (map (fun e => in_text_route (fst e)) (g_retry c)) /\ apart_http in_text_route (g_actual c) /\
    apart_http in_text_control (g_control c) /\
    NoDup (map (fun e => in_text_key (fst e)) (g_transport c)) /\
    Forall (fun e => NoDup (map fst (c_closed (snd e))) /\ Forall (fun x => fst x <> Some []) (c_closed (snd e))) (g_transport c) /\
    NoDup (map fst (g_stack c)).
End Display.
