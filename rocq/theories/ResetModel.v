(** Model of what becomes of the errors of connections to peers: of the clients by which requests are sent
    (linkerd/proxy/http/src/orig_proto.rs, client.rs), through the proxy's rescues (RespondModel.v), to what the
    application's connection sees of them.

    Simplifications: of the layers between the endpoint and the server, only that they may wrap errors, as
    `EndpointError`s do, is modelled: each wrapper is of another type than those asked for and has the error as its
    source; what handles headers of answers is in RespondModel.v. *)
From Coq Require Import String List NArith Bool.
From Verif Require Import Bytes Http1Model RespondModel.
Import ListNotations.
Open Scope N_scope.

(** ** Errors of clients *)

(** An error, and, if it is an `h2::Error`, its reason: [None] of those of h2's user and of input and output *)
Record node := Node { n_kind : kind; n_text : bytes; n_reason : option N }.
(** An error, its source, the source of that, and so on *)
Definition chain := list node.
(** As RespondModel.v has errors *)
Definition plain (e : chain) : error := map (fun n => (n_kind n, n_text n)) e.
(** orig_proto.rs:176-179 *)
Definition reason (n : node) : option N := match n_kind n with H2_error => n_reason n | _ => None end.
(** orig_proto.rs:173-198 *)
Fixpoint downgrade_h2_error (e : chain) : option N :=
  match e with
  | [] => None
  | n :: sources => match reason n with Some r => Some r | None => downgrade_h2_error sources end
  end.
(** orig_proto.rs:24-26; the text of a `Reason` is h2's *)
Definition downgraded (describe : N -> bytes) (r : N) : node :=
  Node Downgraded_h2 (bs "upgraded connection failed with HTTP/2 reset: "%string ++ describe r) None.
(** `#[error(transparent)]` (orig_proto.rs:54-57): the text and the source are those of the error within, the type is not *)
Definition transparent (e : chain) : chain :=
  match e with [] => [] | n :: sources => Node Other (n_text n) None :: sources end.
(** orig_proto.rs:161-167, and 52-53: the source of the error is the downgraded one *)
Definition error_h2 (describe : N -> bytes) (e : chain) : chain :=
  match downgrade_h2_error e with
  | Some r => [Node Other (n_text (downgraded describe r)) None; downgraded describe r]
  | None => transparent e
  end.

(** The clients (client.rs:143-168): [Upgraded true] is of requests that ask for an HTTP/1.1 upgrade themselves *)
Inductive carrier := By_http1 | By_h2 | Upgraded (http11_upgrade : bool).
(** client.rs:158-165, orig_proto.rs:97-109, 137: the error of a request, from that of the connection *)
Definition client_error (describe : N -> bytes) (c : carrier) (e : chain) : chain :=
  match c with
  | By_http1 | By_h2 => e
  | Upgraded true => transparent e
  | Upgraded false => error_h2 describe e
  end.
(** client.rs:158-165, orig_proto.rs:104-109, 153, 255-264: the error of the body of a response *)
Definition body_error (describe : N -> bytes) (c : carrier) (e : chain) : chain :=
  match c with
  | By_http1 | By_h2 | Upgraded true => e
  | Upgraded false => match downgrade_h2_error e with Some r => [downgraded describe r] | None => e end
  end.

(** ** What the application sees *)

(** An answer, and whether its connection is told to close; its stream is reset; its connection ends without an answer; a panic *)
Inductive seen := Answered (rsp : response) (closed : bool) | Stream_reset (reason : N) | Connection_ends | Panics.
(** hyper's `Error::h2_reason`: of the first `h2::Error`, or INTERNAL_ERROR *)
Fixpoint h2_reason (e : chain) : N :=
  match e with
  | [] => 2
  | n :: sources => match n_kind n with H2_error => match n_reason n with Some r => r | None => 2 end | _ => h2_reason sources end
  end.
(** What hyper's servers do with an error of the service, by the protocol of the connection *)
Definition not_answered (h2 : bool) (e : chain) : seen := if h2 then Stream_reset (h2_reason e) else Connection_ends.
(** Wrappers *)
Definition wrapped (wraps : list bytes) (e : chain) : chain := map (fun t => Node Other t None) wraps ++ e.
(** Two rescues, with wrappers between them; `respond` (respond.rs:378-418) returns what it does not rescue as it is. *)
Definition through (client_rescue server_rescue : error -> rescued) (p : responder) (h2 : bool) (wraps : list bytes) (e : chain) : seen :=
  match respond client_rescue p (inr (plain e)) with
  | Synthesized rsp closed => Answered rsp closed
  | Failed _ =>
      match respond server_rescue p (inr (plain (wrapped wraps e))) with
      | Synthesized rsp closed => Answered rsp closed
      | Failed _ => not_answered h2 (wrapped wraps e)
      | _ => Panics
      end
  | _ => Panics
  end.
(** The outbound proxy: app/outbound/src/http/endpoint.rs:108-112, 162-176 and server.rs:46-48, 120-190 *)
Definition outbound (describe : N -> bytes) (emit : bool) (r : request) (c : carrier) (wraps : list bytes) (e : chain) : seen :=
  through outbound_client_rescue outbound_server_rescue (new_respond emit true r) (version_eqb (q_version r) Http_2) wraps
    (client_error describe c e).
(** The inbound proxy, of a request from a peer's proxy, which is over HTTP/2: app/inbound/src/http/router.rs:508-519,
    server.rs:181-230 *)
Definition inbound (describe : N -> bytes) (emit : bool) (r : request) (c : carrier) (wraps : list bytes) (e : chain) : seen :=
  through inbound_client_rescue inbound_server_rescue (new_respond emit true r) true wraps (client_error describe c e).
(** The error of a body in the outbound proxy, as both rescues of a gRPC response or of another leave it (body.rs:72-94) *)
Definition body_through (client_rescue server_rescue : error -> rescued) (b : body) (e : chain) : polled :=
  snd (poll_frame server_rescue b (snd (poll_frame client_rescue b (Body_error (plain e))))).
(** What hyper's client makes of a stream that was reset: a `hyper::Error` whose source is the `h2::Error` *)
Definition received (text text' : bytes) (reason : N) : chain := [Node Other text None; Node H2_error text' (Some reason)].
