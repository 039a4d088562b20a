(** Model of the access log: linkerd/http/access-log/src/lib.rs, which records the fields of a request and of its response in a
    span, and linkerd/tracing/src/access_log.rs, which writes the fields of the span when it closes.
    Instants and durations are numbers of nanoseconds.  A span closes when the future that holds it is dropped: spans of the
    inner services, which would keep it open, are left out.  The texts of the client's address, of the time, of the method and
    of the URI are given as they are displayed.  The JSON format is modelled up to the object that is written, without the
    escapes of its text; `tracing_subscriber`'s `JsonFields` merges what is recorded later into that object. *)
From Coq Require Import String List NArith Bool.
From Verif Require Import Bytes FilterModel TraceModel Http1Model.
Import ListNotations.
Open Scope N_scope.

(** tracing/src/access_log.rs:26-30 *)
Inductive format := Apache | Json.
(** tracing/src/access_log.rs:157-166 *)
Definition parse_format (s : bytes) : option format :=
  if eq_ignore_case s (bs "json"%string) then Some Json
  else if eq_ignore_case s (bs "apache"%string) then Some Apache
  else None.
(** tracing/src/lib.rs:90-99: the format, from the value of LINKERD2_PROXY_ACCESS_LOG *)
Definition access_log_format (env : option bytes) : option format :=
  match env with Some s => parse_format s | None => None end.

(** The value of a field: `record_str` and `record_debug` are given a text, `record_u64` a number. *)
Inductive value := Str (s : bytes) | Num (n : N).
(** Fields of a span, with their names *)
Definition fields := list (bytes * value).
(** What has been written for a span: a line of text, or an object *)
Inductive text := Line (s : bytes) | Object (o : fields).

(** access-log/src/lib.rs:27-32: the connection *)
Record conn := Conn { c_addr : bytes; c_id : option bytes }.
(** The part of a request that is logged *)
Record asked := Asked { a_method : bytes; a_uri : bytes; a_version : version; a_headers : headers }.
(** The part of a response that is logged *)
Record answered := Answered { s_status : N; s_headers : headers }.
(** `Debug` of `http::Version` *)
Definition version_text (v : version) : bytes :=
  match v with
  | Http_09 => bs "HTTP/0.9"%string
  | Http_10 => bs "HTTP/1.0"%string
  | Http_11 => bs "HTTP/1.1"%string
  | Http_2 => bs "HTTP/2.0"%string
  | Http_3 => bs "HTTP/3.0"%string
  end.

(** access-log/src/lib.rs:103-109 *)
Definition get_header (hs : headers) (name : bytes) : bytes :=
  match get_header_str hs name with Some v => v | None => [] end.
(** access-log/src/lib.rs:111-119 *)
Definition trace_id (hs : headers) : bytes :=
  let found :=
    match hm_get hs (bs "x-b3-traceid"%string) with
    | Some v => Some v
    | None => match hm_get hs (bs "x-request-id"%string) with
              | Some v => Some v
              | None => hm_get hs (bs "x-amzn-trace-id"%string)
              end
    end in
  match found with
  | Some v => match to_str v with Some s => s | None => [] end
  | None => []
  end.
(** access-log/src/lib.rs:121-125 *)
Definition client_id (c : conn) : bytes := match c_id c with Some n => n | None => bs "-"%string end.
(** access-log/src/lib.rs:127-142: the fields that have a value when the span is made, in their order *)
Definition new_span (c : conn) (now : bytes) (q : asked) : fields :=
  [(bs "client.addr"%string, Str (c_addr c));
   (bs "client.id"%string, Str (client_id c));
   (bs "timestamp"%string, Str now);
   (bs "method"%string, Str (a_method q));
   (bs "uri"%string, Str (a_uri q));
   (bs "version"%string, Str (version_text (a_version q)));
   (bs "trace_id"%string, Str (trace_id (a_headers q)));
   (bs "request_bytes"%string, Str (get_header (a_headers q) (bs "content-length"%string)));
   (bs "user_agent"%string, Str (get_header (a_headers q) (bs "user-agent"%string)));
   (bs "host"%string, Str (get_header (a_headers q) (bs "host"%string)))].

(** tracing/src/access_log.rs:105-115 *)
Definition SKIPPED_FIELDS : list bytes :=
  map bs ["trace_id"%string; "request_bytes"%string; "total_ns"%string; "processing_ns"%string; "response_bytes"%string; "user_agent"%string; "host"%string].
(** The text of a value *)
Definition value_text (v : value) : bytes := match v with Str s => s | Num n => to_dec n end.
(** tracing/src/access_log.rs:137-153 *)
Definition visit (f : bytes * value) : bytes :=
  let '(name, v) := f in
  let val := value_text v in
  if existsb (beq name) SKIPPED_FIELDS then []
  else if beq name (bs "timestamp"%string) then bs " ["%string ++ val ++ bs "]"%string
  else if beq name (bs "client.addr"%string) then val
  else if beq name (bs "client.id"%string) then bs " "%string ++ val ++ bs " -"%string
  else if beq name (bs "method"%string) then [32; 34] ++ val
  else if beq name (bs "version"%string) then bs " "%string ++ val ++ [34]
  else bs " "%string ++ val.
(** `BTreeMap::insert`, up to the order *)
Definition put (o : fields) (f : bytes * value) : fields :=
  filter (fun x => negb (beq (fst x) (fst f))) o ++ [f].
(** tracing/src/access_log.rs:62-76 *)
Definition on_new_span (fmt : format) (fs : fields) : text :=
  match fmt with
  | Apache => Line (concat (map visit fs))
  | Json => Object (fold_left put fs [])
  end.
(** tracing/src/access_log.rs:78-94 *)
Definition on_record (t : text) (fs : fields) : text :=
  match t with
  | Line s => Line (s ++ concat (map visit fs))
  | Object o => Object (fold_left put fs o)
  end.

(** access-log/src/lib.rs:34-38, with what the span has, and whether the future is done *)
Record future := Future { f_text : text; f_start : N; f_processing : N; f_done : bool }.
(** What the inner future answers to a poll *)
Inductive outcome := Pending | Failed | Responded (r : answered).
(** A poll: when it begins, when the inner future's poll is over, and the answer *)
Record polled := Poll { p_from : N; p_to : N; p_outcome : outcome }.
(** access-log/src/lib.rs:102-162, at [start]; the span is disabled, and nothing recorded, if there is no access log *)
Definition call (fmt : option format) (c : conn) (now : bytes) (q : asked) (start : N) : option future :=
  match fmt with
  | Some fmt => Some (Future (on_new_span fmt (new_span c now q)) start 0 false)
  | None => None
  end.
(** access-log/src/lib.rs:171-209; [N]'s subtraction is that of `saturating_duration_since` *)
Definition poll (f : future) (p : polled) : future :=
  match p_outcome p with
  | Pending => Future (f_text f) (f_start f) (f_processing f + (p_to p - p_from p)) false
  | Failed => Future (f_text f) (f_start f) (f_processing f) true
  | Responded r =>
      let total_ns := p_to p - f_start f in
      let processing_ns := (p_to p - p_from p) + f_processing f in
      let t := match get_header_str (s_headers r) (bs "content-length"%string) with
               | Some x => on_record (f_text f) [(bs "response_bytes"%string, Str x)]
               | None => f_text f
               end in
      let t := on_record t [(bs "status"%string, Num (s_status r))] in
      let t := on_record t [(bs "total_ns"%string, Str (to_dec total_ns))] in
      let t := on_record t [(bs "processing_ns"%string, Str (to_dec processing_ns))] in
      Future t (f_start f) (f_processing f) true
  end.

(** The requests of a proxy, in the order in which they began, each with its future until that is dropped; and what was
    written to the standard error output *)
Record world := World { w_format : option format; w_requests : list (option future); w_written : list text }.
(** What happens to the requests *)
Inductive event :=
| Begins (c : conn) (now : bytes) (q : asked) (start : N)
| Polled (i : nat) (p : polled)
| Dropped (i : nat).
(** Helper: replaces the element at a place *)
Fixpoint set {A} (l : list A) (i : nat) (x : A) : list A :=
  match l, i with
  | [], _ => []
  | _ :: l, O => x :: l
  | y :: l, S i => y :: set l i x
  end.
(** A poll of a future that is done, or of one that was dropped, cannot happen.  When the future is dropped its span closes,
    and `on_close` writes it (tracing/src/access_log.rs:96-102). *)
Definition step (w : world) (e : event) : option world :=
  match e with
  | Begins c now q start =>
      Some (World (w_format w) (w_requests w ++ [call (w_format w) c now q start]) (w_written w))
  | Polled i p =>
      match nth_error (w_requests w) i with
      | Some (Some f) => if f_done f then None else Some (World (w_format w) (set (w_requests w) i (Some (poll f p))) (w_written w))
      | Some None => match w_format w with None => Some w | Some _ => None end
      | None => None
      end
  | Dropped i =>
      match nth_error (w_requests w) i with
      | Some (Some f) => Some (World (w_format w) (set (w_requests w) i None) (w_written w ++ [f_text f]))
      | Some None => match w_format w with None => Some w | Some _ => None end
      | None => None
      end
  end.
(** All that happens *)
Fixpoint run (w : world) (h : list event) : option world :=
  match h with
  | [] => Some w
  | e :: h => match step w e with Some w => run w h | None => None end
  end.
(** No request yet, with the value of LINKERD2_PROXY_ACCESS_LOG *)
Definition start (env : option bytes) : world := World (access_log_format env) [] [].
(** `eprintln!` of the lines *)
Definition printed (w : world) : bytes :=
  concat (map (fun t => match t with Line s => s ++ [10] | Object _ => [] end) (w_written w)).
