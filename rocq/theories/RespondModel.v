(** Model of how the proxy answers for the errors it meets: synthesizing responses
    (linkerd/app/core/src/errors/respond.rs), rescuing the bodies of gRPC responses
    (linkerd/app/core/src/errors/body.rs), which errors become which response
    (app/outbound/src/http/{server,endpoint}.rs, app/inbound/src/http/{server,router}.rs,
    app/admin/src/stack.rs) and what the outbound proxy makes of the headers in which a peer's
    proxy reports its errors (app/outbound/src/http/handle_proxy_error_headers.rs).

    Simplifications: logging and spans are not modelled; the type of an error is one of those that
    this code asks for, or another one; its text and its sources are data; the location of a
    redirect is its text. *)
From Coq Require Import String List NArith Bool.
From Verif Require Import Bytes FilterModel TraceModel Http1Model.
Import ListNotations.
Open Scope N_scope.

(** ** Errors *)

(** `tonic::Code` *)
Inductive code :=
  | Ok_code | Cancelled | Unknown | Invalid_argument | Deadline_exceeded | Not_found | Already_exists
  | Permission_denied | Resource_exhausted | Failed_precondition | Aborted | Out_of_range
  | Unimplemented | Internal | Unavailable | Data_loss | Unauthenticated.
(** app/core/src/errors.rs:34-55 *)
Definition code_header (c : code) : bytes :=
  match c with
  | Ok_code => bs "0"%string
  | Cancelled => bs "1"%string
  | Unknown => bs "2"%string
  | Invalid_argument => bs "3"%string
  | Deadline_exceeded => bs "4"%string
  | Not_found => bs "5"%string
  | Already_exists => bs "6"%string
  | Permission_denied => bs "7"%string
  | Resource_exhausted => bs "8"%string
  | Failed_precondition => bs "9"%string
  | Aborted => bs "10"%string
  | Out_of_range => bs "11"%string
  | Unimplemented => bs "12"%string
  | Internal => bs "13"%string
  | Unavailable => bs "14"%string
  | Data_loss => bs "15"%string
  | Unauthenticated => bs "16"%string
  end.
(** `tonic::Code::from(i32)`, of a code that was a `u16` (app/outbound/src/http/server.rs:178-179) *)
Definition code_of (n : N) : code :=
  match n with
  | 0 => Ok_code | 1 => Cancelled | 2 => Unknown | 3 => Invalid_argument | 4 => Deadline_exceeded
  | 5 => Not_found | 6 => Already_exists | 7 => Permission_denied | 8 => Resource_exhausted
  | 9 => Failed_precondition | 10 => Aborted | 11 => Out_of_range | 12 => Unimplemented
  | 13 => Internal | 14 => Unavailable | 15 => Data_loss | 16 => Unauthenticated
  | _ => Unknown
  end.

(** The types of errors that are asked for in app/outbound/src/http/server.rs:120-190,
    app/outbound/src/http/endpoint.rs:162-176, app/inbound/src/http/server.rs:181-230,
    app/inbound/src/http/router.rs:508-519 and app/admin/src/stack.rs:352-365, those that the
    filters of inbound routes return (app/inbound/src/policy/http.rs:348-409), and any other *)
Inductive kind :=
  | Fail_fast | Load_shed | Stream_timeout | Profile_timeout | Identity_required | Dispatcher_failed
  | No_route | Outbound_redirect (status : N) (location : bytes)
  | Outbound_injected (status : N) (message : bytes) | Outbound_grpc_injected (code : N) (message : bytes)
  | H2_error | Downgraded_h2 | Io_error | Connect_timeout
  | Route_not_found | Route_unauthorized | Invalid_redirect
  | Inbound_redirect (status : N) (location : bytes)
  | Inbound_injected (status : N) (message : bytes) | Inbound_grpc_injected (code : N) (message : bytes)
  | Invalid_policy | Rate_limited | Gateway_domain_invalid | Gateway_loop
  | Other.
(** `linkerd_error::Error` (error/src/lib.rs:9): the error, its source, the source of that and so
    on, each with its text *)
Definition error := list (kind * bytes).
(** `error.to_string()` *)
Definition to_string (e : error) : bytes := match e with (_, t) :: _ => t | [] => [] end.

(** error/src/lib.rs:29-38.  The type asked for is a function of the kind. *)
Fixpoint cause_ref {A} (ask : kind -> option A) (e : error) : option (A * bytes) :=
  match e with
  | [] => None
  | (k, t) :: sources =>
      match ask k with Some a => Some (a, t) | None => cause_ref ask sources end
  end.
(** error/src/lib.rs:14-26 *)
Fixpoint is_caused_by (ask : kind -> bool) (e : error) : bool :=
  match e with
  | [] => false
  | (k, _) :: sources => if ask k then true else is_caused_by ask sources
  end.

(** ** respond.rs *)

(** `Cow<'static, str>` *)
Inductive cow := Borrowed (s : bytes) | Owned (s : bytes).
(** respond.rs:29-36 *)
Record synthetic := Synthetic {
  grpc_status : code; http_status : N; close_connection : bool; message : cow; location : option bytes }.

(** `HeaderValue::from_str`: visible bytes, spaces, tabs and bytes beyond ASCII *)
Definition header_value (s : bytes) : option bytes :=
  if forallb (fun c => ((32 <=? c) && negb (c =? 127)) || (c =? 9)) s then Some s else None.

(** respond.rs:75-77 *)
Definition UNEXPECTED : bytes := bs "unexpected error"%string.
(** respond.rs:79-87 *)
Definition internal_error (msg : cow) : synthetic := Synthetic Internal 500 true msg None.
(** respond.rs:75-77 *)
Definition unexpected_error : synthetic := internal_error (Borrowed UNEXPECTED).
(** respond.rs:89-97 *)
Definition bad_gateway (msg : bytes) : synthetic := Synthetic Unavailable 502 true (Owned msg) None.
(** respond.rs:99-107 *)
Definition gateway_timeout (msg : bytes) : synthetic := Synthetic Deadline_exceeded 504 true (Owned msg) None.
(** respond.rs:109-117 *)
Definition gateway_timeout_nonfatal (msg : bytes) : synthetic := Synthetic Deadline_exceeded 504 false (Owned msg) None.
(** respond.rs:119-127 *)
Definition unavailable (msg : bytes) : synthetic := Synthetic Unavailable 503 true (Owned msg) None.
(** respond.rs:129-137 *)
Definition permission_denied (msg : bytes) : synthetic := Synthetic Permission_denied 403 false (Owned msg) None.
(** respond.rs:139-147 *)
Definition rate_limited (msg : bytes) : synthetic := Synthetic Resource_exhausted 429 false (Owned msg) None.
(** respond.rs:149-157 *)
Definition loop_detected (msg : bytes) : synthetic := Synthetic Aborted 508 true (Owned msg) None.
(** respond.rs:159-167 *)
Definition not_found (msg : bytes) : synthetic := Synthetic Not_found 404 false (Owned msg) None.
(** respond.rs:169-180; None: the panic of line 177 *)
Definition redirect (status : N) (location : bytes) : option synthetic :=
  match header_value location with
  | Some l => Some (Synthetic Not_found status false (Borrowed (bs "redirected"%string)) (Some l))
  | None => None
  end.
(** respond.rs:182-190 *)
Definition injected (status : N) (msg : bytes) : synthetic := Synthetic Failed_precondition status false (Owned msg) None.
(** respond.rs:192-200 *)
Definition grpc (c : code) (msg : bytes) : synthetic := Synthetic c 200 false (Owned msg) None.

(** respond.rs:203-211 *)
Definition message_value (s : synthetic) : bytes :=
  match message s with
  | Borrowed msg => msg
  | Owned msg => match header_value msg with Some v => v | None => UNEXPECTED end
  end.

(** `http::header::CONTENT_TYPE` *)
Definition CONTENT_TYPE : bytes := bs "content-type"%string.
(** `http::header::LOCATION` *)
Definition LOCATION : bytes := bs "location"%string.
(** app/core/src/errors.rs:13 *)
Definition L5D_PROXY_CONNECTION : bytes := bs "l5d-proxy-connection"%string.
(** app/core/src/errors.rs:14 *)
Definition L5D_PROXY_ERROR : bytes := bs "l5d-proxy-error"%string.
(** app/core/src/errors.rs:15 *)
Definition GRPC_CONTENT_TYPE : bytes := bs "application/grpc"%string.
(** app/core/src/errors.rs:16 *)
Definition GRPC_MESSAGE : bytes := bs "grpc-message"%string.
(** app/core/src/errors.rs:17 *)
Definition GRPC_STATUS : bytes := bs "grpc-status"%string.
(** respond.rs:230 and 262, handle_proxy_error_headers.rs:143 *)
Definition CLOSE : bytes := bs "close"%string.

(** respond.rs:214-235 *)
Definition grpc_response (s : synthetic) (emit_headers : bool) : response :=
  let hs := [(CONTENT_LENGTH, bs "0"%string); (CONTENT_TYPE, GRPC_CONTENT_TYPE); (GRPC_STATUS, code_header (grpc_status s))] in
  let hs := if emit_headers then hm_append (hm_append hs GRPC_MESSAGE (message_value s)) L5D_PROXY_ERROR (message_value s) else hs in
  let hs := if close_connection s && emit_headers then hm_append hs L5D_PROXY_CONNECTION CLOSE else hs in
  Response 200 Http_2 hs.
(** respond.rs:238-279 *)
Definition http_response (s : synthetic) (v : version) (emit_headers is_orig_proto_upgrade : bool) : response :=
  let hs := [(CONTENT_LENGTH, bs "0"%string)] in
  let hs := if emit_headers then hm_append hs L5D_PROXY_ERROR (message_value s) else hs in
  let hs :=
    if close_connection s then
      let hs := if version_eqb v Http_11 && negb is_orig_proto_upgrade then hm_append hs CONNECTION CLOSE else hs in
      if emit_headers then hm_append hs L5D_PROXY_CONNECTION CLOSE else hs
    else hs in
  let hs := match location s with Some loc => hm_append hs LOCATION loc | None => hs end in
  Response (http_status s) v hs.

(** What `HttpRescue::rescue` (respond.rs:24-27) returns, or that it panics *)
Inductive rescued := Rescued (s : synthetic) | Not_rescued (e : error) | Rescue_panics.

(** respond.rs:50-59, without what is only logged.  `client`: the request carried a handle of its
    connection. *)
Record responder := Responder {
  p_version : version; is_grpc : bool; is_orig_proto_upgrade : bool; client : bool; emit_headers : bool }.
(** respond.rs:307-354 *)
Definition new_respond (emit client : bool) (req : request) : responder :=
  match q_version req with
  | Http_2 =>
      let is_grpc :=
        match hm_get (q_headers req) CONTENT_TYPE with
        | Some v => match to_str v with Some s => starts_with GRPC_CONTENT_TYPE s | None => false end
        | None => false
        end in
      Responder Http_2 is_grpc false client emit
  | version => Responder version false (q_was_upgrade req) client emit
  end.

(** The body of a response (body.rs:23-36), without the body it wraps *)
Inductive body := Passthru | Grpc_rescue (emit_headers : bool) | Body_rescued.
(** What becomes of a request: the response it had, with that body; a synthetic one, and whether
    the connection of the client is told to close; the error; a panic *)
Inductive responded :=
  | Responded (rsp : response) (b : body) | Synthesized (rsp : response) (closed : bool)
  | Failed (e : error) | Panicked.
(** respond.rs:378-418 *)
Definition respond (rescue : error -> rescued) (r : responder) (res : response + error) : responded :=
  match res with
  | inl rsp => Responded rsp (if is_grpc r then Grpc_rescue (emit_headers r) else Passthru)
  | inr error =>
      match rescue error with
      | Not_rescued error => Failed error
      | Rescue_panics => Panicked
      | Rescued s =>
          Synthesized
            (if is_grpc r then grpc_response s (emit_headers r)
             else http_response s (p_version r) (emit_headers r) (is_orig_proto_upgrade r))
            (close_connection s && client r)
      end
  end.

(** ** body.rs *)

(** What polling a body for a frame gives *)
Inductive polled :=
  | Pending | Data (d : bytes) | Trailers (hs : headers) | Body_error (e : error) | Body_end | Body_panics.
(** body.rs:121-152 *)
Definition rescue_trailers (rescue : error -> rescued) (emit : bool) (e : error) : polled :=
  match rescue e with
  | Rescued s =>
      let t := hm_insert [] GRPC_STATUS (code_header (grpc_status s)) in
      Trailers
        (if emit
         then hm_insert t GRPC_MESSAGE
                (let msg := match message s with Borrowed m | Owned m => m end in
                 match header_value msg with Some v => v | None => bs "Unexpected error"%string end)
         else t)
  | Not_rescued e => Body_error e
  | Rescue_panics => Body_panics
  end.
(** body.rs:72-94; `inner`: what polling the inner body gives, if it is polled *)
Definition poll_frame (rescue : error -> rescued) (b : body) (inner : polled) : body * polled :=
  match b with
  | Passthru => (b, inner)
  | Grpc_rescue emit =>
      match inner with
      | Body_error e =>
          match rescue_trailers rescue emit e with
          | Trailers hs => (Body_rescued, Trailers hs)
          | other => (b, other)
          end
      | poll => (b, poll)
      end
  | Body_rescued => (b, Body_end)
  end.
(** Polling a body again and again; each time the inner body would give the next of a list. *)
Fixpoint poll_all (rescue : error -> rescued) (b : body) (inner : list polled) : list polled :=
  match inner with
  | [] => []
  | p :: inner => let (b, q) := poll_frame rescue b p in q :: poll_all rescue b inner
  end.
(** body.rs:96-104; `inner`: whether the inner body says so *)
Definition is_end_stream (b : body) (inner : bool) : bool :=
  match b with Passthru | Grpc_rescue _ => inner | Body_rescued => true end.
(** body.rs:106-114; `inner`: the inner body's least and greatest length *)
Definition size_hint (b : body) (inner : N * option N) : N * option N :=
  match b with Passthru | Grpc_rescue _ => inner | Body_rescued => (0, Some 0) end.

(** ** Which errors become which responses *)

(** app/outbound/src/http/server.rs:120-190 *)
Definition outbound_server_rescue (e : error) : rescued :=
  if is_caused_by (fun k => match k with Fail_fast => true | _ => false end) e then Rescued (gateway_timeout (to_string e))
  else if is_caused_by (fun k => match k with Load_shed => true | _ => false end) e then Rescued (unavailable (to_string e))
  else if is_caused_by (fun k => match k with Stream_timeout => true | _ => false end) e then Rescued (gateway_timeout_nonfatal (to_string e))
  else if is_caused_by (fun k => match k with Profile_timeout => true | _ => false end) e then Rescued (gateway_timeout (to_string e))
  else if is_caused_by (fun k => match k with Identity_required => true | _ => false end) e then Rescued (bad_gateway (to_string e))
  else if is_caused_by (fun k => match k with Dispatcher_failed => true | _ => false end) e then Rescued (bad_gateway (to_string e))
  else if is_caused_by (fun k => match k with No_route => true | _ => false end) e then Rescued (not_found (to_string e))
  else match cause_ref (fun k => match k with Outbound_redirect status loc => Some (status, loc) | _ => None end) e with
  | Some ((status, loc), _) => match redirect status loc with Some s => Rescued s | None => Rescue_panics end
  | None =>
  match cause_ref (fun k => match k with Outbound_injected status msg => Some (status, msg) | _ => None end) e with
  | Some ((status, msg), _) => Rescued (injected status msg)
  | None =>
  match cause_ref (fun k => match k with Outbound_grpc_injected c msg => Some (c, msg) | _ => None end) e with
  | Some ((c, msg), _) => Rescued (grpc (code_of c) msg)
  | None =>
  if is_caused_by (fun k => match k with H2_error => true | _ => false end) e then Not_rescued e
  else Rescued unexpected_error
  end end end.

(** app/outbound/src/http/endpoint.rs:162-176 *)
Definition outbound_client_rescue (e : error) : rescued :=
  if is_caused_by (fun k => match k with Downgraded_h2 => true | _ => false end) e then Rescued (bad_gateway (to_string e))
  else if is_caused_by (fun k => match k with Io_error => true | _ => false end) e then Rescued (bad_gateway (to_string e))
  else if is_caused_by (fun k => match k with Connect_timeout => true | _ => false end) e then Rescued (gateway_timeout (to_string e))
  else Not_rescued e.

(** app/inbound/src/http/server.rs:181-230 *)
Definition inbound_server_rescue (e : error) : rescued :=
  if is_caused_by (fun k => match k with Route_not_found => true | _ => false end) e then Rescued (not_found (to_string e))
  else if is_caused_by (fun k => match k with Route_unauthorized => true | _ => false end) e then Rescued (permission_denied (to_string e))
  else if is_caused_by (fun k => match k with Invalid_redirect => true | _ => false end) e then Rescued unexpected_error
  else match cause_ref (fun k => match k with Inbound_redirect status loc => Some (status, loc) | _ => None end) e with
  | Some ((status, loc), _) => match redirect status loc with Some s => Rescued s | None => Rescue_panics end
  | None =>
  if is_caused_by (fun k => match k with Invalid_policy => true | _ => false end) e then Rescued (internal_error (Owned (to_string e)))
  else if is_caused_by (fun k => match k with Rate_limited => true | _ => false end) e then Rescued (rate_limited (to_string e))
  else if is_caused_by (fun k => match k with Gateway_domain_invalid => true | _ => false end) e then Rescued (not_found (to_string e))
  else if is_caused_by (fun k => match k with Gateway_loop => true | _ => false end) e then Rescued (loop_detected (to_string e))
  else if is_caused_by (fun k => match k with Fail_fast => true | _ => false end) e then Rescued (gateway_timeout (to_string e))
  else if is_caused_by (fun k => match k with Load_shed => true | _ => false end) e then Rescued (unavailable (to_string e))
  else if is_caused_by (fun k => match k with H2_error => true | _ => false end) e then Not_rescued e
  else Rescued unexpected_error
  end.

(** app/inbound/src/http/router.rs:508-519 *)
Definition inbound_client_rescue (e : error) : rescued :=
  if is_caused_by (fun k => match k with Io_error => true | _ => false end) e then Rescued (bad_gateway (to_string e))
  else if is_caused_by (fun k => match k with Connect_timeout => true | _ => false end) e then Rescued (gateway_timeout (to_string e))
  else Not_rescued e.

(** app/admin/src/stack.rs:352-365 *)
Definition admin_rescue (e : error) : rescued :=
  match cause_ref (fun k => match k with Route_not_found => Some tt | _ => None end) e with
  | Some (_, cause) => Rescued (not_found cause)
  | None =>
  match cause_ref (fun k => match k with Route_unauthorized => Some tt | _ => None end) e with
  | Some (_, cause) => Rescued (permission_denied cause)
  | None => Rescued unexpected_error
  end end.

(** app/inbound/src/http/server.rs:163-179, router.rs:492-506 and app/admin/src/stack.rs:336-350:
    `tls`: whether the connection's TLS was terminated, and if so the client's identity *)
Definition inbound_emit_headers {id} (tls : option (option id)) : bool :=
  match tls with Some (Some _) => true | _ => false end.

(** ** handle_proxy_error_headers.rs *)

(** handle_proxy_error_headers.rs:64-77; `closable` is that of app/outbound/src/http/concrete.rs:
    of an endpoint that requests are forwarded to, not of those of a balancer. *)
Definition is_closable (closable is_meshed : bool) : bool := closable && is_meshed.
(** handle_proxy_error_headers.rs:131-156, called at 112-125: the response, and whether the
    connection of the client is told to close.  `HeaderMap::remove` returns the first value. *)
Definition update_response (closable : bool) (rsp : response) : response * bool :=
  let hs := hm_remove (r_headers rsp) L5D_PROXY_ERROR in
  let hdr := hm_get hs L5D_PROXY_CONNECTION in
  let hs := hm_remove hs L5D_PROXY_CONNECTION in
  let rsp := Response (r_status rsp) (r_version rsp) hs in
  if negb closable then (rsp, false)
  else match hdr with
       | Some h =>
           if beq h CLOSE then
             (if version_eqb (r_version rsp) Http_11
              then Response (r_status rsp) (r_version rsp) (hm_insert hs CONNECTION CLOSE)
              else rsp, true)
           else (rsp, false)
       | None => (rsp, false)
       end.
