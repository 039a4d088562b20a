(** Specification for C142: what a span says of a request. *)
From Coq Require Import String List NArith.
From Verif Require Import Bytes FilterModel FilterSpec TraceModel TraceSpec ExportModel SpanModel.
Import ListNotations.
Open Scope N_scope.

(** ** The text of an authority: [userinfo@host:port] *)
(** A host: in brackets, or without a colon. *)
Definition host_text (h : bytes) : Prop :=
  (exists x, h = 91 :: x ++ [93] /\ ~ In 93 x /\ ~ In 64 x) \/
  (~ In 58 h /\ ~ In 64 h /\ hd_error h <> Some 91).
Definition authority_parts (ui : option bytes) (h : bytes) (p : option bytes) (a : bytes) : Prop :=
  host_text h /\ (forall t, p = Some t -> ~ In 58 t /\ ~ In 64 t) /\
  a = match ui with Some c => c ++ [64] | None => [] end ++ h ++
      match p with Some t => 58 :: t | None => [] end.
(** The [http] crate makes no other. *)
Definition authority_text (a : bytes) : Prop := exists ui h p, authority_parts ui h p a.
Definition well_formed (u : uri) : Prop := forall a, u_authority u = Some a -> authority_text a.

(** The credentials have two parts: there is a colon before any [@]. *)
Definition two_parts (c : bytes) : Prop := exists x y, c = x ++ 58 :: y /\ ~ In 64 x.
(** What is shown in place of the credentials. *)
Definition redacted (ui : option bytes) (r : bytes) : Prop :=
  match ui with
  | None => r = []
  | Some c => two_parts c /\ r = bs "REDACTED:REDACTED@" \/ ~ two_parts c /\ r = bs "REDACTED@"
  end.
(** The port, when the text says one. *)
Definition port_number (p : option bytes) (n : N) : Prop :=
  exists t, p = Some t /\ parse_uint 65535 t = Some n.
Definition port_text (p : option bytes) (r : bytes) : Prop :=
  (exists n, port_number p n /\ r = bs ":" ++ to_dec n) \/ ((forall n, ~ port_number p n) /\ r = []).

(** The whole of a URL, without the credentials. *)
Definition full_url (u : uri) (v : bytes) : Prop :=
  exists a, v = match u_scheme u with Some s => s ++ bs "://" | None => [] end ++ a ++ u_path u ++
                match u_query u with Some q => bs "?" ++ q | None => [] end /\
    match u_authority u with
    | None => a = []
    | Some t => exists ui h p r n, authority_parts ui h p t /\ redacted ui r /\ port_text p n /\
                  a = r ++ h ++ n
    end.

(** ** The labels *)
(** The header that says where the request goes. *)
Definition host_line (hs : headers) (v : bytes) : Prop :=
  first_value (bs "x-forwarded-host") hs v \/
  (forall w, ~ first_value (bs "x-forwarded-host") hs w) /\ first_value (bs "host") hs v.
Definition visible (v : bytes) : Prop := forall b, In b v -> (32 <= b /\ b < 127) \/ b = 9.
(** The headers that are copied, and the labels they are copied to. *)
Definition copied : list (bytes * bytes) :=
  [ (bs "user-agent", bs "user_agent.original");
    (bs "content-length", bs "http.request.header.content-length");
    (bs "content-type", bs "http.request.header.content-type");
    (bs "l5d-orig-proto", bs "http.request.header.l5d-orig-proto") ].

Section Labels.
Variable parse_uri : bytes -> option uri.
Variable lossy : bytes -> bytes.

(** The authority of that header. *)
Definition host_authority (hs : headers) (a : bytes) : Prop :=
  exists v u, host_line hs v /\ visible v /\ parse_uri v = Some u /\ u_authority u = Some a.

Inductive says (q : request) : bytes -> bytes -> Prop :=
| says_method : says q (bs "http.request.method") (q_method q)
| says_scheme s : u_scheme (q_uri q) = Some s -> says q (bs "url.scheme") s
| says_path : says q (bs "url.path") (u_path (q_uri q))
| says_query s : u_query (q_uri q) = Some s -> says q (bs "url.query") s
| says_full v : full_url (q_uri q) v -> says q (bs "url.full") v
| says_transport : says q (bs "network.transport") (bs "tcp")
| says_address a ui h p : host_authority (q_headers q) a -> authority_parts ui h p a ->
    says q (bs "server.address") h
| says_port a ui h p n : host_authority (q_headers q) a -> authority_parts ui h p a ->
    port_number p n -> says q (bs "server.port") (to_dec n)
| says_header name label v : In (name, label) copied -> first_value name (q_headers q) v ->
    says q label (lossy v).

(** Two authorities that differ in the credentials only. *)
Definition same_but_credentials (a a' : bytes) : Prop :=
  exists c c' h p, authority_parts (Some c) h p a /\ authority_parts (Some c') h p a' /\
    (two_parts c <-> two_parts c').
Definition uris_alike (u u' : uri) : Prop :=
  u_scheme u = u_scheme u' /\ u_path u = u_path u' /\ u_query u = u_query u' /\
  (u_authority u = u_authority u' \/
   exists a a', u_authority u = Some a /\ u_authority u' = Some a' /\ same_but_credentials a a').
(** Two headers that say the same host and port. *)
Definition hosts_alike (hs hs' : headers) : Prop :=
  exists v v' u u' a a' ui ui' h p,
    host_line hs v /\ host_line hs' v' /\ visible v /\ visible v' /\
    parse_uri v = Some u /\ parse_uri v' = Some u' /\
    u_authority u = Some a /\ u_authority u' = Some a' /\
    authority_parts ui h p a /\ authority_parts ui' h p a'.

(** ** The spans *)
Variable enabled : bool.
Variable k : kind.
Variable shared : labels.

Definition arrivals (es : list event) : nat :=
  List.length (List.filter (fun e => match e with Arrives _ _ _ => true | _ => false end) es).
(** Nothing in [es] ends request [i]. *)
Definition unended (i : nat) (es : list event) : Prop :=
  ~ In (Fails i) es /\ forall status now, ~ In (Answered i status now) es.
(** Request [i] of the history arrived at [t], and neither failed nor was answered so far. *)
Definition in_flight (es : list event) (i : nat) (q : request) (id : bytes) (t : N) : Prop :=
  exists pre mid, es = pre ++ Arrives q id t :: mid /\ i = arrivals pre /\ unended i mid.
(** [s] records request [q], sent on with the span id [id] at [t] and answered [status] at [t']. *)
Definition records (q : request) (id : bytes) (t status t' : N) (s : raw) : Prop :=
  enabled = true /\
  (exists c, unpack_trace_context (q_headers q) = Ctx c /\ N.odd (c_flags c) = true /\
     r_trace_id s = c_trace_id c /\ r_parent_id s = c_parent_id c) /\
  r_span_id s = id /\ r_name s = u_path (q_uri q) /\ r_start s = t /\ r_end s = t' /\
  r_kind s = k /\ r_shared s = shared /\ NoDup (map fst (r_labels s)) /\
  forall n v, In (n, v) (r_labels s) <->
    n = bs "http.response.status_code" /\ v = to_dec status \/ says q n v.
(** [s] is the span of request [i]. *)
Definition span_of (es : list event) (i : nat) (s : raw) : Prop :=
  exists before after q id t status t', es = before ++ Answered i status t' :: after /\
    in_flight before i q id t /\ records q id t status t' s.
(** The request's trace is sampled. *)
Definition sampled (q : request) : Prop :=
  enabled = true /\ exists c, unpack_trace_context (q_headers q) = Ctx c /\ N.odd (c_flags c) = true.
End Labels.

(** What [well_formed] asks of every URI of a history. *)
Definition proper (q : request) : Prop := well_formed (q_uri q).
Definition proper_history (es : list event) : Prop :=
  forall q id t, In (Arrives q id t) es -> proper q.
