(** C65, C66 and C67: how the errors that the proxy meets are answered *)
From Coq Require Import String List NArith Bool Lia.
From Verif Require Import Bytes HintSpec FilterModel Http1Model Http1Spec Http1Proofs RespondModel RespondSpec RespondProofs.
Import ListNotations.
Open Scope N_scope.

(** Wherever errors are answered, the rules there decide on every error, in one way. *)
Theorem C65_decided : forall rescue rules e, place rescue rules -> e <> [] ->
  exists v, decided rules e v /\ forall v', decided rules e v' -> v' = v.
Proof. exact total. Qed.
Print Assumptions C65_decided.

(** A request that failed is answered as the rules say, in the protocol of its client, and its
    connection is told to close if they say so. *)
Theorem C65_answered : forall rescue rules e a emit client q,
  place rescue rules -> e <> [] -> decided rules e (Answers a) ->
  (forall l, a_location a = Some l -> valid_value l) ->
  exists rsp, respond rescue (new_respond emit client q) (inr e) = Synthesized rsp (a_close a && client) /\
    (grpc_request q -> grpc_answer emit a rsp) /\
    (~ grpc_request q -> exists mention, mentions q mention /\ http_answer emit mention (q_version q) a rsp).
Proof. exact answered. Qed.
Print Assumptions C65_answered.

(** An error that the rules let pass is passed on as it is. *)
Theorem C65_passed : forall rescue rules e emit client q,
  place rescue rules -> e <> [] -> decided rules e Passes ->
  respond rescue (new_respond emit client q) (inr e) = Failed e.
Proof. exact passed. Qed.
Print Assumptions C65_passed.

(** A redirect to a location that is no value of a header is not answered: it panics. *)
Theorem C65_location : forall rescue rules e a l emit client q,
  place rescue rules -> e <> [] -> decided rules e (Answers a) -> a_location a = Some l -> ~ valid_value l ->
  respond rescue (new_respond emit client q) (inr e) = Panicked.
Proof. exact bad_location. Qed.
Print Assumptions C65_location.

(** What an error says never makes a malformed header: every value is one that headers may have. *)
Theorem C65_well_formed : forall rescue rules e emit client q rsp closed,
  place rescue rules -> e <> [] ->
  respond rescue (new_respond emit client q) (inr e) = Synthesized rsp closed ->
  forall h, In h (r_headers rsp) -> valid_value (snd h).
Proof. exact valid_headers. Qed.
Print Assumptions C65_well_formed.

(** Clients that are not to be told about errors receive the same response whatever these say. *)
Theorem C65_private : forall rescue rules e e' client q rsp closed,
  place rescue rules -> same_causes e e' ->
  respond rescue (new_respond false client q) (inr e) = Synthesized rsp closed ->
  respond rescue (new_respond false client q) (inr e') = Synthesized rsp closed.
Proof. exact private. Qed.
Print Assumptions C65_private.

(** Of the clients of the inbound proxy, those are told that have shown an identity. *)
Theorem C65_told : forall (id : Type) (tls : option (option id)),
  inbound_emit_headers tls = true <-> exists client_id, tls = Some (Some client_id).
Proof.
  intros id [[i|]|]; cbn; split; try discriminate; try (intros [? E]; discriminate); try reflexivity.
  intros _. exists i. reflexivity.
Qed.
Print Assumptions C65_told.

(** But for redirects and injected failures, no request that failed looks as if it had not: gRPC
    clients receive a code other than OK, the others a status of at least 400. *)
Theorem C65_failure : forall rescue rules e emit client q rsp closed,
  place rescue rules -> e <> [] -> (forall k t, In (k, t) e -> ~ asked_for k) ->
  respond rescue (new_respond emit client q) (inr e) = Synthesized rsp closed ->
  (grpc_request q -> exists c, 1 <= c <= 16 /\ first_of (bs "grpc-status") (r_headers rsp) (to_dec c)) /\
  (~ grpc_request q -> 400 <= r_status rsp < 600 /\ r_version rsp = q_version q).
Proof. exact failing_response. Qed.
Print Assumptions C65_failure.

Definition get (v : version) (content_type : bytes) : request :=
  Request (bs "GET") v (Uri None None (bs "/") None) [(bs "content-type", content_type)] false false false.

(** An injected gRPC failure does look so to a client that is not of gRPC: it receives 200. *)
Theorem C65_injected_grpc_refuted : exists e q rsp closed,
  In (Outbound_grpc_injected 14 (bs "try later"), bs "injected") e /\
  respond outbound_server_rescue (new_respond true true q) (inr e) = Synthesized rsp closed /\
  ~ grpc_request q /\ r_status rsp = 200.
Proof.
  exists [(Outbound_grpc_injected 14 (bs "try later"), bs "injected")], (get Http_11 (bs "application/grpc-web")).
  eexists _, _. split; [left; reflexivity|]. split; [reflexivity|]. split; [intros [E _]; discriminate|reflexivity].
Qed.
Print Assumptions C65_injected_grpc_refuted.

(** The failure that an inbound route injects is not the one that the client receives: that is an
    unexpected error, which also closes its connection. *)
Theorem C65_injected_inbound_refuted : ~ forall status message t q rsp closed,
  respond inbound_server_rescue (new_respond true true q) (inr [(Inbound_injected status message, t)]) = Synthesized rsp closed ->
  ~ grpc_request q -> r_status rsp = status /\ closed = false.
Proof.
  intros H. assert (X := H 418 (bs "teapot") (bs "injected") (get Http_11 (bs "text/html")) _ _ eq_refl).
  destruct X as [X _]; [intros [E _]; discriminate|]. discriminate X.
Qed.
Print Assumptions C65_injected_inbound_refuted.

(** A request that times out as its profile says is answered 504 where applications send it, but
    500 by a gateway. *)
Theorem C65_gateway_refuted : ~ forall e q rsp rsp' closed closed',
  respond outbound_server_rescue (new_respond true true q) (inr e) = Synthesized rsp closed ->
  respond inbound_server_rescue (new_respond true true q) (inr e) = Synthesized rsp' closed' ->
  In Profile_timeout (map fst e) -> r_status rsp' = r_status rsp.
Proof.
  intros H. assert (X := H [(Profile_timeout, bs "timed out")] (get Http_11 (bs "text/html")) _ _ _ _ eq_refl eq_refl (or_introl eq_refl)). discriminate X.
Qed.
Print Assumptions C65_gateway_refuted.

(** An HTTP/1.1 client whose content type begins like that of gRPC, and whose request reaches the
    peer's proxy over HTTP/2, is told 200 when it is refused. *)
Theorem C65_http1_refuted : exists q sent rsp closed rsp',
  q_version q = Http_11 /\ orig_proto_upgrade q = Over_h2 sent Http_11 /\
  respond inbound_server_rescue (new_respond true true (over_wire sent)) (inr [(Route_unauthorized, bs "unauthorized")]) = Synthesized rsp closed /\
  rsp' = orig_proto_upgrade_response Http_11 rsp /\ r_version rsp' = Http_11 /\ r_status rsp' = 200.
Proof.
  exists (get Http_11 (bs "application/grpc-web")). eexists _, _, _, _.
  split; [reflexivity|]. split; [reflexivity|]. split; [reflexivity|]. split; [reflexivity|]. split; reflexivity.
Qed.
Print Assumptions C65_http1_refuted.

(** The hypotheses are met: a request that was refused, within other errors, on an HTTP/1.1
    connection, and a text that is no value of a header *)
Example C65_case :
  decided inbound_rules [(Other, bs "server 1.2.3.4:80"); (Route_unauthorized, bs "unauthorized")]
    (Answers (Answer 403 7 false (bs "server 1.2.3.4:80") None)) /\
  respond inbound_server_rescue (new_respond true true (get Http_11 (bs "text/html")))
    (inr [(Other, bs "server 1.2.3.4:80"); (Route_unauthorized, bs "unauthorized")]) =
    Synthesized (Response 403 Http_11 [(bs "content-length", bs "0"); (bs "l5d-proxy-error", bs "server 1.2.3.4:80")]) false /\
  respond inbound_server_rescue (new_respond true true (get Http_11 (bs "text/html"))) (inr [(Other, [10; 65])]) =
    Synthesized (Response 500 Http_11 [(bs "content-length", bs "0"); (bs "l5d-proxy-error", bs "unexpected error");
      (bs "connection", bs "close"); (bs "l5d-proxy-connection", bs "close")]) true.
Proof. split; [apply decided_iff; reflexivity|]. split; vm_compute; reflexivity. Qed.
Example C65_grpc_case : grpc_request (get Http_2 (bs "application/grpc+proto")) /\
  respond outbound_client_rescue (new_respond true true (get Http_2 (bs "application/grpc+proto"))) (inr [(Io_error, bs "reset")]) =
    Synthesized (Response 200 Http_2 [(bs "content-length", bs "0"); (bs "content-type", bs "application/grpc"); (bs "grpc-status", bs "14");
      (bs "grpc-message", bs "reset"); (bs "l5d-proxy-error", bs "reset"); (bs "l5d-proxy-connection", bs "close")]) true /\
  same_causes [(Io_error, bs "reset")] [(Io_error, bs "refused")].
Proof.
  split; [apply (is_grpc_iff true true); vm_compute; reflexivity|]. split; [vm_compute; reflexivity|].
  constructor; [constructor|constructor].
Qed.

(** A successful response keeps its headers; its stream is rescued if its client is of gRPC, and
    left alone if not. *)
Theorem C66_body : forall rescue emit client q rsp,
  exists b, respond rescue (new_respond emit client q) (inl rsp) = Responded rsp b /\
  (grpc_request q -> b = Grpc_rescue emit) /\ (~ grpc_request q -> b = Passthru).
Proof. exact stream_body. Qed.
Print Assumptions C66_body.

(** A stream that fails ends, for a gRPC client, with everything that came before, then trailers
    that tell the code that the rules say, then nothing. *)
Theorem C66_rescued : forall rescue rules emit pre e a post,
  place rescue rules -> e <> [] -> Forall fine pre ->
  decided rules e (Answers a) -> (forall l, a_location a = Some l -> valid_value l) ->
  exists t, grpc_trailers emit a t /\
    poll_all rescue (Grpc_rescue emit) (pre ++ Body_error e :: post) = pre ++ Trailers t :: repeat Body_end (List.length post).
Proof. exact stream_rescued. Qed.
Print Assumptions C66_rescued.

(** Errors that the rules let pass are passed on in the stream. *)
Theorem C66_passed : forall rescue rules emit pre e post,
  place rescue rules -> e <> [] -> Forall fine pre -> decided rules e Passes ->
  poll_all rescue (Grpc_rescue emit) (pre ++ Body_error e :: post) = pre ++ Body_error e :: poll_all rescue (Grpc_rescue emit) post.
Proof. exact stream_passed. Qed.
Print Assumptions C66_passed.

(** A stream that does not fail is unchanged, and so is every stream of another client. *)
Theorem C66_unchanged : forall rescue emit l,
  (Forall fine l -> poll_all rescue (Grpc_rescue emit) l = l) /\ poll_all rescue Passthru l = l.
Proof. exact (fun rescue emit l => conj (stream_fine rescue emit l) (passthru_all rescue l)). Qed.
Print Assumptions C66_unchanged.

(** Once rescued, a stream says that it is at its end, whatever the inner one says. *)
Theorem C66_end : forall rescue emit e b t,
  poll_frame rescue (Grpc_rescue emit) (Body_error e) = (b, Trailers t) ->
  forall ended hint, is_end_stream b ended = true /\ size_hint b hint = (0, Some 0).
Proof.
  intros rescue emit e b t H ended hint. cbn [poll_frame] in H.
  destruct (rescue_trailers rescue emit e); injection H as <- H; try discriminate. split; reflexivity.
Qed.
Print Assumptions C66_end.

Example C66_case :
  poll_all outbound_server_rescue (Grpc_rescue true) [Data [1]; Pending; Body_error [(Stream_timeout, bs "late")]; Data [2]] =
  [Data [1]; Pending; Trailers [(bs "grpc-status", bs "4"); (bs "grpc-message", bs "late")]; Body_end] /\
  decided outbound_rules [(Stream_timeout, bs "late")] (Answers (Answer 504 4 false (bs "late") None)) /\
  decided outbound_rules [(H2_error, bs "refused stream")] Passes.
Proof. split; [vm_compute; reflexivity|]. split; apply decided_iff; reflexivity. Qed.

(** The headers in which a peer's proxy tells of errors go no further, whatever the peer.  If the
    peer is in the mesh, requests go to no other and it asks for that, the client's connection is
    told to close, which an HTTP/1.1 response says. *)
Theorem C67_headers : forall closable meshed rsp rsp' closed,
  update_response (is_closable closable meshed) rsp = (rsp', closed) ->
  r_status rsp' = r_status rsp /\ r_version rsp' = r_version rsp /\
  (closed = true <-> closable = true /\ meshed = true /\ asks_close rsp) /\
  r_headers rsp' = if closed && version_eqb (r_version rsp) Http_11
                   then without (bs "connection" :: error_headers) (r_headers rsp) ++ [(bs "connection", bs "close")]
                   else without error_headers (r_headers rsp).
Proof. exact update_spec. Qed.
Print Assumptions C67_headers.

(** From end to end: an error of the peer's proxy that closes connections closes that of the
    application which sent the request, over whatever version of HTTP, and the application sees
    none of the proxies' headers. *)
Theorem C67_end_to_end : forall rescue rules e a client q rsp closed v rsp' c,
  place rescue rules -> e <> [] -> decided rules e (Answers a) -> a_close a = true ->
  respond rescue (new_respond true client q) (inr e) = Synthesized rsp closed ->
  update_response (is_closable true true) (received (q_was_upgrade q) v rsp) = (rsp', c) ->
  c = true /\ r_status rsp' = r_status rsp /\
  (forall h, In h (r_headers rsp') -> ~ In (fst h) error_headers) /\
  (r_version rsp' = Http_11 -> first_of (bs "connection") (r_headers rsp') (bs "close")).
Proof. exact peer_close. Qed.
Print Assumptions C67_end_to_end.

Example C67_case : exists rsp closed,
  respond inbound_client_rescue (new_respond true true (with_was_upgrade (get Http_11 (bs "text/html")) true)) (inr [(Io_error, bs "refused")]) = Synthesized rsp closed /\
  update_response (is_closable true true) (received true Http_11 rsp) =
    (Response 502 Http_11 [(bs "content-length", bs "0"); (bs "connection", bs "close")], true).
Proof. eexists _, _. split; vm_compute; reflexivity. Qed.
