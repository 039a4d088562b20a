(** What C65, C66 and C67 say *)
From Coq Require Import String List NArith Bool.
From Verif Require Import Bytes HintSpec FilterModel Http1Model Http1Spec RespondModel.
Import ListNotations.
Open Scope N_scope.

(** The number of a code of gRPC *)
Definition number (c : code) : N :=
  match c with
  | Ok_code => 0 | Cancelled => 1 | Unknown => 2 | Invalid_argument => 3 | Deadline_exceeded => 4
  | Not_found => 5 | Already_exists => 6 | Permission_denied => 7 | Resource_exhausted => 8
  | Failed_precondition => 9 | Aborted => 10 | Out_of_range => 11 | Unimplemented => 12
  | Internal => 13 | Unavailable => 14 | Data_loss => 15 | Unauthenticated => 16
  end.

(** ** The answers *)

(** The answer to a request that failed: its status, that of a gRPC client, whether the client's
    connection is to be closed, what is said about it and where to go instead *)
Record answer := Answer {
  a_status : N; a_grpc : N; a_close : bool; a_message : bytes; a_location : option bytes }.
(** The answer, or the error itself *)
Inductive verdict := Answers (a : answer) | Passes.
(** A rule: the verdict that a cause has, given the text of the whole error and its own *)
Definition rule := bytes -> kind -> bytes -> option verdict.

(** The verdict on an error: that of the first rule that applies to one of its causes, on the
    outermost of those *)
Definition decided (rules : list rule) (e : error) (v : verdict) : Prop :=
  exists i r pre k t post,
    nth_error rules i = Some r /\ e = pre ++ (k, t) :: post /\ r (to_string e) k t = Some v /\
    (forall k' t', In (k', t') pre -> r (to_string e) k' t' = None) /\
    (forall j r' k' t', (j < i)%nat -> nth_error rules j = Some r' -> In (k', t') e -> r' (to_string e) k' t' = None).

Definition saying_it (status grpc : N) (close : bool) (whole : bytes) : option verdict :=
  Some (Answers (Answer status grpc close whole None)).
Definition unexpected : option verdict := Some (Answers (Answer 500 13 true (bs "unexpected error"%string) None)).
Definition elsewhere (status : N) (location : bytes) : option verdict :=
  Some (Answers (Answer status 5 false (bs "redirected"%string) (Some location))).
(** Codes that are none of gRPC's are unknown ones. *)
Definition known (c : N) : N := if c <=? 16 then c else 2.

(** Requests of applications *)
Definition outbound_rules : list rule :=
  [fun whole k _ => match k with Fail_fast => saying_it 504 4 true whole | _ => None end;
   fun whole k _ => match k with Load_shed => saying_it 503 14 true whole | _ => None end;
   fun whole k _ => match k with Stream_timeout => saying_it 504 4 false whole | _ => None end;
   fun whole k _ => match k with Profile_timeout => saying_it 504 4 true whole | _ => None end;
   fun whole k _ => match k with Identity_required | Dispatcher_failed => saying_it 502 14 true whole | _ => None end;
   fun whole k _ => match k with No_route => saying_it 404 5 false whole | _ => None end;
   fun _ k _ => match k with Outbound_redirect status location => elsewhere status location | _ => None end;
   fun _ k _ => match k with Outbound_injected status message => Some (Answers (Answer status 9 false message None)) | _ => None end;
   fun _ k _ => match k with Outbound_grpc_injected c message => Some (Answers (Answer 200 (known c) false message None)) | _ => None end;
   fun _ k _ => match k with H2_error => Some Passes | _ => None end;
   fun _ _ _ => unexpected].
(** The connections for these *)
Definition outbound_client_rules : list rule :=
  [fun whole k _ => match k with Downgraded_h2 | Io_error => saying_it 502 14 true whole | _ => None end;
   fun whole k _ => match k with Connect_timeout => saying_it 504 4 true whole | _ => None end;
   fun _ _ _ => Some Passes].
(** Requests to applications, and through gateways *)
Definition inbound_rules : list rule :=
  [fun whole k _ => match k with Route_not_found => saying_it 404 5 false whole | _ => None end;
   fun whole k _ => match k with Route_unauthorized => saying_it 403 7 false whole | _ => None end;
   fun _ k _ => match k with Invalid_redirect => unexpected | _ => None end;
   fun _ k _ => match k with Inbound_redirect status location => elsewhere status location | _ => None end;
   fun whole k _ => match k with Invalid_policy => saying_it 500 13 true whole | _ => None end;
   fun whole k _ => match k with Rate_limited => saying_it 429 8 false whole | _ => None end;
   fun whole k _ => match k with Gateway_domain_invalid => saying_it 404 5 false whole | _ => None end;
   fun whole k _ => match k with Gateway_loop => saying_it 508 10 true whole | _ => None end;
   fun whole k _ => match k with Fail_fast => saying_it 504 4 true whole | _ => None end;
   fun whole k _ => match k with Load_shed => saying_it 503 14 true whole | _ => None end;
   fun _ k _ => match k with H2_error => Some Passes | _ => None end;
   fun _ _ _ => unexpected].
(** The connections to the application *)
Definition inbound_client_rules : list rule :=
  [fun whole k _ => match k with Io_error => saying_it 502 14 true whole | _ => None end;
   fun whole k _ => match k with Connect_timeout => saying_it 504 4 true whole | _ => None end;
   fun _ _ _ => Some Passes].
(** Requests to the proxy itself: what is said is the text of the cause. *)
Definition admin_rules : list rule :=
  [fun _ k own => match k with Route_not_found => saying_it 404 5 false own | _ => None end;
   fun _ k own => match k with Route_unauthorized => saying_it 403 7 false own | _ => None end;
   fun _ _ _ => unexpected].

(** The five places where errors are answered, with what they do and their rules *)
Inductive place : (error -> rescued) -> list rule -> Prop :=
  | Outbound_server : place outbound_server_rescue outbound_rules
  | Outbound_client : place outbound_client_rescue outbound_client_rules
  | Inbound_server : place inbound_server_rescue inbound_rules
  | Inbound_client : place inbound_client_rescue inbound_client_rules
  | Admin : place admin_rescue admin_rules.

(** ** The responses *)

(** Bytes that the value of a header may have *)
Definition value_byte (c : N) : Prop := c = 9 \/ (32 <= c /\ c <> 127).
Definition valid_value (v : bytes) : Prop := Forall value_byte v.
(** What a header says of a message: the message, unless it is no value of a header *)
Definition says (m v : bytes) : Prop := (valid_value m -> v = m) /\ (~ valid_value m -> v = bs "unexpected error"%string).

(** A request of gRPC: of HTTP/2, whose first `content-type` begins so *)
Definition grpc_request (q : request) : Prop :=
  q_version q = Http_2 /\
  exists v rest, first_of (bs "content-type"%string) (q_headers q) v /\ printable v /\ v = bs "application/grpc"%string ++ rest.

(** Headers that are there under some condition *)
Definition when (b : bool) (h : bytes * bytes) : headers := if b then [h] else [].

(** The response that an answer is to a client of gRPC; `told`: whether it is told about errors *)
Definition grpc_answer (told : bool) (a : answer) (rsp : response) : Prop :=
  exists m, says (a_message a) m /\
  rsp = Response 200 Http_2
    ([(bs "content-length", bs "0"); (bs "content-type", bs "application/grpc"); (bs "grpc-status", to_dec (a_grpc a))]%string ++
     when told (bs "grpc-message"%string, m) ++ when told (bs "l5d-proxy-error"%string, m) ++
     when (told && a_close a) (bs "l5d-proxy-connection", bs "close")%string).
(** The response that it is to any other client; `mention`: it is told that its connection is
    closed *)
Definition http_answer (told mention : bool) (v : version) (a : answer) (rsp : response) : Prop :=
  exists m, says (a_message a) m /\
  rsp = Response (a_status a) v
    ([(bs "content-length", bs "0")]%string ++
     when told (bs "l5d-proxy-error"%string, m) ++
     when (mention && a_close a) (bs "connection", bs "close")%string ++
     when (told && a_close a) (bs "l5d-proxy-connection", bs "close")%string ++
     match a_location a with Some l => [(bs "location"%string, l)] | None => [] end).
(** The request came to this proxy with HTTP/1.1. *)
Definition mentions (q : request) (mention : bool) : Prop :=
  mention = true <-> q_version q = Http_11 /\ q_was_upgrade q = false.

(** ** Streams *)

(** Frames of a response; a body that is polled gives these, or says that there is nothing yet. *)
Definition frame (p : polled) : Prop := match p with Data _ | Trailers _ => True | _ => False end.
(** Polls that are no errors *)
Definition fine (p : polled) : Prop := match p with Body_error _ | Body_panics => False | _ => True end.
(** Trailers that tell of an error *)
Definition grpc_trailers (told : bool) (a : answer) (hs : headers) : Prop :=
  exists m, (valid_value (a_message a) -> m = a_message a) /\ (~ valid_value (a_message a) -> m = bs "Unexpected error"%string) /\
  hs = (bs "grpc-status"%string, to_dec (a_grpc a)) :: when told (bs "grpc-message"%string, m).

(** ** Headers of a peer's proxy *)

(** It asks for the connection of the client to be closed. *)
Definition asks_close (rsp : response) : Prop := first_of (bs "l5d-proxy-connection"%string) (r_headers rsp) (bs "close"%string).
(** The headers that proxies tell each other of errors in *)
Definition error_headers : list bytes := [bs "l5d-proxy-error"; bs "l5d-proxy-connection"]%string.

(** Errors that differ only in what they say *)
Inductive alike : kind -> kind -> Prop :=
  | Same k : alike k k
  | Other_http_message status m m' : alike (Outbound_injected status m) (Outbound_injected status m')
  | Other_grpc_message c m m' : alike (Outbound_grpc_injected c m) (Outbound_grpc_injected c m').
Definition same_causes (e e' : error) : Prop := Forall2 (fun c c' => alike (fst c) (fst c')) e e'.
(** Failures that a policy asks for, and redirects *)
Definition asked_for (k : kind) : Prop :=
  match k with
  | Outbound_redirect _ _ | Outbound_injected _ _ | Outbound_grpc_injected _ _ | Inbound_redirect _ _ => True
  | _ => False
  end.
(** What the client of the peer's proxy receives: over HTTP/2, marked if it was asked for with
    HTTP/1 (`was_upgrade`), whose version `v` is taken back then *)
Definition received (was_upgrade : bool) (v : version) (rsp : response) : response :=
  if was_upgrade then orig_proto_upgrade_response v (downgrade_response true rsp) else rsp.
