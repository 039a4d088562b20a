(** Model of the admin server: linkerd/app/admin/src/server.rs, server/readiness.rs, server/json.rs,
    server/log/level.rs, server/log/stream.rs, stack.rs, linkerd/metrics/src/serve.rs and
    linkerd/tracing/src/level.rs.

    Simplifications: of bodies only what they are made of is modelled, not their JSON, gzip or text
    formats; the tracing subscriber and the metrics can always be read; profiling, a feature that is
    off, is left out; log streams are started, and what they then carry is not modelled. *)
From Coq Require Import String List Arith NArith Bool.
From Verif Require Import Bytes FilterModel TraceModel AuthzModel.
From Verif Require RouteModel PolicyModel.
Import ListNotations.
Open Scope N_scope.

(** ** Requests and responses *)

(** A request: its client is that of the `ClientHandle` in its extensions; of its body, the data
    frames, and whether reading it then fails *)
Record request := Request {
  q_method : bytes; q_path : bytes; q_query : option bytes; q_headers : headers;
  q_client : option ip; q_frames : list bytes; q_broken : bool }.

(** Bodies *)
Inductive body :=
| Nothing
| Text (t : bytes)
| Json_error (message : bytes)                    (* with the status *)
| Environment (vars : list (bytes * option bytes))
| Metrics (gzip : bool)
| Log_level (filter : bytes)
| Log_stream (filter : bytes).
(** Responses; of the headers, `content-type`, `content-encoding` and `allow` *)
Record response := Response {
  r_status : N; r_type : option bytes; r_encoding : option bytes; r_allow : list bytes; r_body : body }.

(** `http::Method::GET` *)
Definition GET : bytes := bs "GET"%string.
(** `http::Method::PUT` *)
Definition PUT : bytes := bs "PUT"%string.
(** `http::Method::POST` *)
Definition POST : bytes := bs "POST"%string.
(** stream.rs:49 *)
Definition QUERY : bytes := bs "QUERY"%string.
(** `header::ACCEPT` *)
Definition ACCEPT : bytes := bs "accept"%string.
(** `header::ACCEPT_ENCODING` *)
Definition ACCEPT_ENCODING : bytes := bs "accept-encoding"%string.
(** json.rs:1 *)
Definition JSON_MIME : bytes := bs "application/json"%string.
(** server.rs:76 and others *)
Definition PLAIN : bytes := bs "text/plain"%string.

(** `str::contains`, of a string *)
Fixpoint contains (p s : bytes) : bool :=
  starts_with p s || match s with [] => false | _ :: s => contains p s end.

(** ** readiness.rs *)

(** What the server shares: how many latches there are (readiness.rs:9-13), the filter of the log, if
    logs are enabled (tracing/src/level.rs:8-9), the messages on the shutdown channel and whether
    there is a receiver *)
Record state := State { s_latches : nat; s_level : option bytes; s_shutdowns : nat; s_receiver : bool }.
(** readiness.rs:20-22: no latch is left *)
Definition is_ready (s : state) : bool := Nat.eqb (s_latches s) 0.

(** ** server.rs *)

Section Admin.
(** server.rs:33-42: is the shutdown endpoint enabled?  Are log streams compiled in? *)
Variable enable_shutdown streaming : bool.
(** The environment, `std::env::vars_os` *)
Variable env : list (bytes * bytes).
(** `OsString::to_string_lossy` and `str::from_utf8` *)
Variable lossy : bytes -> bytes.
Variable utf8 : bytes -> bool.
(** Parsing of log filters, of the crate tracing-subscriber: tracing/src/level.rs:36-41, with the
    directive that turns access logs off, as it is displayed (level.rs:50-54); and that of log streams,
    stream.rs:132-136 *)
Variable parse_filter parse_stream : bytes -> option bytes.

(** server.rs:72-85 *)
Definition ready_rsp (s : state) : response :=
  if is_ready s then Response 200 (Some PLAIN) None [] (Text (bs "ready"%string))
  else Response 503 None None [] (Text (bs "not ready"%string)).
(** server.rs:87-93 *)
Definition live_rsp : response := Response 200 (Some PLAIN) None [] (Text (bs "live"%string)).
(** server.rs:164-170 *)
Definition internal_error_rsp (message : bytes) : response := Response 500 (Some PLAIN) None [] (Text message).
(** server.rs:172-177 *)
Definition not_found : response := Response 404 None None [] Nothing.
(** server.rs:179-184 *)
Definition method_not_allowed : response := Response 405 None None [] Nothing.
(** server.rs:186-194 *)
Definition forbidden_not_localhost : response :=
  Response 403 (Some PLAIN) None [] (Text (bs "Requests are only permitted from localhost."%string)).
(** server.rs:196-210; `Ipv4Addr::is_loopback` and `Ipv6Addr::is_loopback` *)
Definition client_is_localhost (q : request) : bool :=
  match q_client q with
  | None => false
  | Some (V4 a) => N.shiftr a 24 =? 127
  | Some (V6 a) => match ipv4_mapped (V6 a) with
                   | V4 b => N.shiftr b 24 =? 127
                   | V6 b => b =? 1
                   end
  end.

(** json.rs:11-22 *)
Definition json_error_rsp (message : bytes) (status : N) : response :=
  Response status (Some JSON_MIME) None [] (Json_error message).
(** json.rs:24-26 *)
Definition json_rsp (b : body) : response := Response 200 (Some JSON_MIME) None [] b.
(** json.rs:29-54; `HeaderMap::get` is the first value. *)
Definition accepts_json (q : request) : option response :=
  match hm_get (q_headers q) ACCEPT with
  | None => None
  | Some accept =>
      if negb (utf8 accept) then Some (json_error_rsp (bs "Accept header must be UTF-8"%string) 400)
      else if contains JSON_MIME accept || contains (bs "application/*"%string) accept || contains (bs "*/*"%string) accept
      then None
      else Some (Response 406 None None [] (Text JSON_MIME))
  end.

(** server.rs:121-126: `std::env::var`, with what is not Unicode replaced *)
Definition env_var (name : bytes) : option bytes :=
  match List.find (fun kv => beq (fst kv) name) env with
  | Some (_, v) => Some (lossy v)
  | None => None
  end.
(** server.rs:95-139 *)
Definition env_rsp (q : request) : response :=
  if negb (beq (q_method q) GET) then method_not_allowed
  else match accepts_json q with
       | Some not_acceptable => not_acceptable
       | None =>
           match q_query q with
           | Some query =>
               if contains (bs "="%string) query
               then json_error_rsp (bs "env.json query parameters may not contain key-value pairs"%string) 400
               else json_rsp (Environment (map (fun p => (p, env_var p)) (split 38 query)))
           | None => json_rsp (Environment (map (fun kv => (lossy (fst kv), Some (lossy (snd kv)))) env))
           end
       end.

(** server.rs:141-162 *)
Definition shutdown (s : state) : response * state :=
  if negb enable_shutdown
  then (Response 404 (Some PLAIN) None [] (Text (bs "shutdown endpoint is not enabled"%string)), s)
  else if s_receiver s
  then (Response 200 (Some PLAIN) None [] (Text (bs "shutdown"%string)),
        State (s_latches s) (s_level s) (S (s_shutdowns s)) (s_receiver s))
  else (Response 500 (Some PLAIN) None [] (Text (bs "shutdown listener dropped"%string)), s).

(** metrics/src/serve.rs:22-33 *)
Definition is_gzip (q : request) : bool :=
  existsb (fun v => match to_str v with Some v => contains (bs "gzip"%string) v | None => false end)
    (RouteModel.get_all ACCEPT_ENCODING (q_headers q)).
(** metrics/src/serve.rs:37-59 *)
Definition metrics_rsp (q : request) : response :=
  if is_gzip q then Response 200 (Some PLAIN) (Some (bs "gzip"%string)) [] (Metrics true)
  else Response 200 (Some PLAIN) None [] (Metrics false).

(** `Collected::aggregate`, then `Buf::chunk`, of the crates http-body-util and bytes: frames without
    data are left out, and of the others the first is the chunk. *)
Fixpoint first_chunk (frames : list bytes) : bytes :=
  match frames with
  | [] => []
  | [] :: frames => first_chunk frames
  | f :: _ => f
  end.

(** log/level.rs:10-48; tracing/src/level.rs:30-48.  `io::Error::other` makes `serve` fail, which is
    answered by server.rs:250-253. *)
Definition level_serve (level : bytes) (q : request) (s : state) : response * state :=
  if beq (q_method q) GET then (Response 200 None None [] (Log_level level), s)
  else if beq (q_method q) PUT then
    if q_broken q then (internal_error_rsp [], s)
    else
      let chunk := first_chunk (q_frames q) in
      let set := if utf8 chunk then parse_filter chunk else None in
      match set with
      | Some filter => (Response 204 None None [] Nothing, State (s_latches s) (Some filter) (s_shutdowns s) (s_receiver s))
      | None => (Response 400 None None [] (Text []), s)
      end
  else (Response 405 None None [GET; PUT] Nothing, s).

(** log/stream.rs:26-130, up to the start of the stream *)
Definition stream_serve (q : request) : response :=
  match accepts_json q with
  | Some not_acceptable => not_acceptable
  | None =>
      let filter (f : bytes) := match parse_stream f with
                                | Some f => Response 200 (Some JSON_MIME) None [] (Log_stream f)
                                | None => json_error_rsp [] 400
                                end in
      if beq (q_method q) GET then
        match q_query q with
        | None => json_error_rsp (bs "Missing query string for log-streaming filter"%string) 400
        | Some query => filter query
        end
      else if beq (q_method q) QUERY then
        if q_broken q then json_error_rsp [] 400
        else let chunk := first_chunk (q_frames q) in
             if utf8 chunk then filter chunk else json_error_rsp [] 400
      else Response 405 None None [GET; QUERY] Nothing
  end.

(** server.rs:228-306 *)
Definition call (s : state) (q : request) : response * state :=
  if beq (q_path q) (bs "/live"%string) then (live_rsp, s)
  else if beq (q_path q) (bs "/ready"%string) then (ready_rsp s, s)
  else if beq (q_path q) (bs "/metrics"%string) then (metrics_rsp q, s)
  else if beq (q_path q) (bs "/proxy-log-level"%string) then
    if negb (client_is_localhost q) then (forbidden_not_localhost, s)
    else match s_level s with
         | Some level => level_serve level q s
         | None => (not_found, s)
         end
  else if streaming && beq (q_path q) (bs "/logs.json"%string) then
    if negb (client_is_localhost q) then (forbidden_not_localhost, s)
    else (stream_serve q, s)
  else if beq (q_path q) (bs "/env.json"%string) then (env_rsp q, s)
  else if beq (q_path q) (bs "/shutdown"%string) then
    if beq (q_method q) POST
    then if client_is_localhost q then shutdown s else (forbidden_not_localhost, s)
    else (method_not_allowed, s)
  else (not_found, s).

(** ** stack.rs *)

(** http/detect/src/lib.rs *)
Inductive detection := Detected (v : PolicyModel.variant) | Not_http | Timed_out.
(** stack.rs:138-178: the connection is served as HTTP, or is refused. *)
Definition admin_http (t : tls) (d : detection) : option PolicyModel.variant :=
  match d with
  | Detected v => Some v
  | Timed_out => match t with
                 | No_tls => Some PolicyModel.V_http1
                 | Established _ => Some PolicyModel.V_h2
                 | Passthru => None
                 end
  | Not_http => None
  end.
(** stack.rs:109-123: the policy of the admin port, then the server.  The policy looks at [req] and [u],
    which are of the same request as [q]; its filters make the headers.  proxy/http/src/server.rs:158-163
    and client_handle.rs:75-78: the client is the peer. *)
Definition admin_request (pq_valid : bytes -> bool) (draw : nat -> bool) (p : PolicyModel.protocol) (t : tls)
    (limit : bool) (remote : ip) (req : RouteModel.request) (u : uri) (q : request) (s : state)
  : (response + PolicyModel.response) * state :=
  match fst (PolicyModel.call pq_valid draw p remote t req u limit) with
  | PolicyModel.R_forward hs =>
      let '(r, s) := call s (Request (q_method q) (q_path q) (q_query q) hs (Some remote) (q_frames q) (q_broken q)) in
      (inl r, s)
  | r => (inr r, s)
  end.

(** ** Histories *)

(** Requests to the server; latches that are cloned and dropped (readiness.rs:9-13 and 32-35); the end of
    the receiver of shutdowns *)
Inductive event := Called (q : request) | Latch_cloned | Latch_dropped | Receiver_gone.
(** One event: a latch that is not there cannot be cloned or dropped. *)
Definition step (s : state) (e : event) : option state :=
  match e with
  | Called q => Some (snd (call s q))
  | Latch_cloned =>
      match s_latches s with
      | O => None
      | n => Some (State (S n) (s_level s) (s_shutdowns s) (s_receiver s))
      end
  | Latch_dropped =>
      match s_latches s with
      | O => None
      | S n => Some (State n (s_level s) (s_shutdowns s) (s_receiver s))
      end
  | Receiver_gone => Some (State (s_latches s) (s_level s) (s_shutdowns s) false)
  end.
(** A history *)
Fixpoint run (s : state) (es : list event) : option state :=
  match es with
  | [] => Some s
  | e :: es => match step s e with Some s => run s es | None => None end
  end.
(** readiness.rs:16-19: at first there is one latch. *)
Definition init (level : option bytes) : state := State 1 level 0 true.
End Admin.
