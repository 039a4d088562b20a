(** Model of what is recorded of a request in a span: trace-context/src/service.rs and
    app/core/src/http_tracing.rs. *)
From Coq Require Import String List NArith Bool.
From Verif Require Import Bytes FilterModel TraceModel ExportModel.
Import ListNotations.
Open Scope N_scope.

(** [http::Uri] as its parts.  The authority is its text. *)
Record uri := Uri {
  u_scheme : option bytes; u_authority : option bytes; u_path : bytes; u_query : option bytes }.
(** [http::Request] without its body. *)
Record request := Request { q_method : bytes; q_uri : uri; q_headers : headers }.

(** [http::uri::Authority::host]: what follows the last [@], to the closing bracket if it starts
    with a bracket, to the first colon otherwise (the http crate's uri/authority.rs). *)
Definition host (a : bytes) : bytes :=
  let hp := match rsplit_once 64 a with Some (_, hp) => hp | None => a end in
  if beq (firstn 1 hp) [91]
  then match split_once 93 hp with Some (h, _) => h ++ [93] | None => hp end
  else match split_once 58 hp with Some (h, _) => h | None => hp end.
(** [http::uri::Authority::port]: what follows the last colon of the whole text, when it is a
    number of at most 16 bits. *)
Definition port (a : bytes) : option N :=
  match rsplit_once 58 a with Some (_, p) => parse_uint u16_max p | None => None end.

(** service.rs:134-166: [UrlLabel]'s [Display] *)
Definition url_label (u : uri) : bytes :=
  match u_scheme u with Some s => s ++ bs "://" | None => [] end ++
  match u_authority u with
  | Some a =>
      match split_once 64 a with
      | Some (creds, _) =>
          if existsb (N.eqb 58) creds then bs "REDACTED:REDACTED@" else bs "REDACTED@"
      | None => []
      end ++ host a ++ match port a with Some p => 58 :: to_dec p | None => [] end
  | None => []
  end ++ u_path u ++
  match u_query u with Some q => 63 :: q | None => [] end.

(** service.rs:45: the [HashMap] of labels. *)
Definition labels := list (bytes * bytes).
(** [HashMap::insert], the map as the list of its entries. *)
Definition insert (k v : bytes) (m : labels) : labels :=
  filter (fun e => negb (beq (fst e) k)) m ++ [(k, v)].
(** [insert] of a value that may not be there. *)
Definition insert_opt (k : bytes) (v : option bytes) (m : labels) : labels :=
  match v with Some v => insert k v m | None => m end.

Section Parse.
(** [str::parse::<http::Uri>] *)
Variable parse_uri : bytes -> option uri.
(** [String::from_utf8_lossy] *)
Variable lossy : bytes -> bytes.

(** service.rs:97-113: [HEADER_LABELS] *)
Definition header_labels : list (bytes * bytes) :=
  [ (bs "user-agent", bs "user_agent.original");
    (bs "content-length", bs "http.request.header.content-length");
    (bs "content-type", bs "http.request.header.content-type");
    (bs "l5d-orig-proto", bs "http.request.header.l5d-orig-proto") ].
(** service.rs:93-119 *)
Definition populate_header_values (m : labels) (hs : headers) : labels :=
  fold_left (fun m e => insert_opt (snd e) (option_map lossy (hm_get hs (fst e))) m) header_labels m.

(** service.rs:67-73.  [":authority"] is not the name of a header: it is never found. *)
Definition host_header (hs : headers) : option bytes :=
  match hm_get hs (bs "x-forwarded-host") with
  | Some v => Some v
  | None => hm_get hs (bs "host")
  end.
(** service.rs:75-77 *)
Definition host_uri (hs : headers) : option uri :=
  match host_header hs with
  | Some v => match to_str v with Some s => parse_uri s | None => None end
  | None => None
  end.
(** [Uri::host] *)
Definition uri_host (u : uri) : option bytes := option_map host (u_authority u).
(** [Uri::port] *)
Definition uri_port (u : uri) : option N :=
  match u_authority u with Some a => port a | None => None end.
(** service.rs:75-86 *)
Definition host_labels (m : labels) (hs : headers) : labels :=
  match host_uri hs with
  | Some u =>
      insert_opt (bs "server.port") (option_map to_dec (uri_port u))
        (insert_opt (bs "server.address") (uri_host u) m)
  | None => m
  end.

(** service.rs:45-91 *)
Definition request_labels (q : request) : labels :=
  let m := insert (bs "http.request.method") (q_method q) [] in
  let m := insert_opt (bs "url.scheme") (u_scheme (q_uri q)) m in
  let m := insert (bs "url.path") (u_path (q_uri q)) m in
  let m := insert_opt (bs "url.query") (u_query (q_uri q)) m in
  let m := insert (bs "url.full") (url_label (q_uri q)) m in
  let m := insert (bs "network.transport") (bs "tcp") m in
  populate_header_values (host_labels m (q_headers q)) (q_headers q).
(** service.rs:121-131.  The status is its number. *)
Definition add_response_labels (m : labels) (status : N) : labels :=
  insert (bs "http.response.status_code") (to_dec status) m.

(** A request the layer passed on, and what it keeps of it when its trace is sampled. *)
Record kept := Kept { k_span : span; k_start : N; k_labels : labels; k_name : bytes }.
(** service.rs:189-205: what is kept of a request.  [enabled] says whether there is a collector
    (http_tracing.rs:15-24), and [id] is the random one.  A request that makes the task panic
    keeps nothing. *)
Definition begin_span (enabled : bool) (q : request) (id : bytes) (now : N) : option kept :=
  match trace_call enabled (q_headers q) id with
  | Forward hs (Some sp) =>
      Some (Kept sp now (request_labels (Request (q_method q) (q_uri q) hs)) (u_path (q_uri q)))
  | _ => None
  end.
(** service.rs:206-216, http_tracing.rs:45-52: the span of a request that was answered *)
Definition end_span (k : kind) (shared : labels) (r : kept) (status now : N) : raw :=
  Raw (s_trace_id (k_span r)) (s_span_id (k_span r)) (s_parent_id (k_span r)) (k_name r) (k_start r) now
    (add_response_labels (k_labels r) status) k shared.

(** app/src/trace_collector.rs:11 *)
Definition SPAN_BUFFER_CAPACITY : N := 100.
(** What happens at the layer: a request arrives (they are numbered in the order of arrival), is
    answered, fails (or its future is dropped), the exporter takes a span off the channel, the
    exporter's end of the channel goes away. *)
Inductive event :=
| Arrives (q : request) (id : bytes) (now : N) | Answered (i : nat) (status now : N)
| Fails (i : nat) | Takes | Closes.
(** The requests in flight, the channel, whether it is open, and what the exporter took. *)
Record state := State {
  st_flights : list (option kept); st_channel : list raw; st_open : bool; st_taken : list raw }.
(** otel_collector.rs:38: the channel when it is made. *)
Definition init : state := State [] [] true [].
(** Forgets a request. *)
Fixpoint clear (i : nat) (l : list (option kept)) : list (option kept) :=
  match l, i with
  | [], _ => []
  | _ :: l, O => None :: l
  | x :: l, S i => x :: clear i l
  end.
(** [tokio::sync::mpsc::Sender::try_send] on the channel of otel_collector.rs:38 *)
Definition try_send (s : raw) (st : state) : list raw :=
  if st_open st && (N.of_nat (List.length (st_channel st)) <? SPAN_BUFFER_CAPACITY)
  then st_channel st ++ [s] else st_channel st.
(** service.rs:189-226 with the channel.  A request is answered or fails once: it is forgotten
    then. *)
Definition step (enabled : bool) (k : kind) (shared : labels) (st : state) (e : event) : state :=
  match e with
  | Arrives q id now =>
      State (st_flights st ++ [begin_span enabled q id now]) (st_channel st) (st_open st) (st_taken st)
  | Answered i status now =>
      match nth_error (st_flights st) i with
      | Some (Some r) =>
          State (clear i (st_flights st)) (try_send (end_span k shared r status now) st)
            (st_open st) (st_taken st)
      | _ => st
      end
  | Fails i => State (clear i (st_flights st)) (st_channel st) (st_open st) (st_taken st)
  | Takes =>
      match st_channel st with
      | s :: l => State (st_flights st) l (st_open st) (st_taken st ++ [s])
      | [] => st
      end
  | Closes => State (st_flights st) [] false (st_taken st)
  end.
(** Any history; not code of its own *)
Definition run (enabled : bool) (k : kind) (shared : labels) (es : list event) : state :=
  fold_left (step enabled k shared) es init.
End Parse.
