(** C151: what applications see of the errors of connections to peers. *)
From Coq Require Import String List NArith Bool.
From Verif Require FilterModel.
From Verif Require Import Bytes Http1Model Http1Spec RespondModel RespondSpec ResetModel ResetSpec ResetProofs.
Import ListNotations.
Open Scope N_scope.

(** If the HTTP/2 connection of an upgraded request resets it, whatever the error is wrapped in, the application is answered with
    502, and told of the first reason. *)
Theorem C151_upgraded : forall describe emit r wraps e x, first_reason e x ->
  answered_with emit r (Answer 502 14 true (reset_message describe x) None) (outbound describe emit r (Upgraded false) wraps e).
Proof. exact upgraded. Qed.
Print Assumptions C151_upgraded.
Definition get (v : version) : request := Request (bs "GET") v (FilterModel.Uri None None (bs "/") None) [(bs "host", bs "web")] false false false.
Definition describe (x : N) : bytes := if x =? 8 then bs "stream no longer needed" else bs "refused".
Definition reset : chain := [Node Other (bs "http2 error") None; Node Other (bs "proxied") None; Node H2_error (bs "stream error") (Some 8)].
Example C151_case_upgraded : first_reason reset 8 /\
  exists closed, outbound describe true (get Http_11) (Upgraded false) [bs "endpoint"] reset =
    Answered (Response 502 Http_11 [(bs "content-length", bs "0");
      (bs "l5d-proxy-error", bs "upgraded connection failed with HTTP/2 reset: stream no longer needed");
      (bs "connection", bs "close"); (bs "l5d-proxy-connection", bs "close")]) closed.
Proof. split; [apply downgrade_iff; reflexivity|]. exists true. vm_compute. reflexivity. Qed.

(** Of all other errors of connections: those of input and output are answered with 502, those of connecting in time with 504, and,
    if there are none of these, the first of HTTP/2 resets the application's stream with its own reason, and if there are none at all
    the answer is 500. *)
Theorem C151_table : forall describe emit r c wraps e, of_transport e -> c <> Upgraded false \/ (forall x, ~ first_reason e x) ->
  let o := outbound describe emit r c wraps e in
  (has Io_error e -> answered_with emit r (Answer 502 14 true (to_string (plain e)) None) o) /\
  (~ has Io_error e -> has Connect_timeout e -> answered_with emit r (Answer 504 4 true (to_string (plain e)) None) o) /\
  (~ has Io_error e -> ~ has Connect_timeout e ->
     (forall n, first_h2 e n -> o = if version_eqb (q_version r) Http_2 then Stream_reset (reason_or_internal n) else Connection_ends) /\
     (~ has H2_error e -> answered_with emit r (Answer 500 13 true (bs "unexpected error") None) o)).
Proof. exact table. Qed.
Print Assumptions C151_table.
Example C151_case_table : of_transport reset /\
  outbound describe true (get Http_2) By_h2 [bs "endpoint"; bs "backend"] reset = Stream_reset 8 /\
  outbound describe false (get Http_2) By_h2 [] [Node Other (bs "io") None; Node Io_error (bs "broken pipe") None] =
    Answered (Response 502 Http_2 [(bs "content-length", bs "0")]) true /\
  outbound describe false (get Http_11) By_http1 [] [Node Other (bs "connect") None; Node Connect_timeout (bs "late") None] =
    Answered (Response 504 Http_11 [(bs "content-length", bs "0"); (bs "connection", bs "close")]) true.
Proof. split; [eexists _, _; split; [reflexivity|repeat (constructor; cbn; auto)]|]. vm_compute. auto. Qed.

(** The inbound proxy does the same with the errors of its connections to the application, to a peer's proxy. *)
Theorem C151_inbound : forall describe emit r c wraps e, of_transport e -> c = By_http1 \/ c = By_h2 ->
  let o := inbound describe emit r c wraps e in
  (has Io_error e -> answered_with emit r (Answer 502 14 true (to_string (plain e)) None) o) /\
  (~ has Io_error e -> has Connect_timeout e -> answered_with emit r (Answer 504 4 true (to_string (plain e)) None) o) /\
  (~ has Io_error e -> ~ has Connect_timeout e ->
     (forall n, first_h2 e n -> o = Stream_reset (reason_or_internal n)) /\
     (~ has H2_error e -> answered_with emit r (Answer 500 13 true (bs "unexpected error") None) o)).
Proof. exact inbound_table. Qed.
Print Assumptions C151_inbound.
Example C151_case_inbound :
  inbound describe true (get Http_2) By_http1 [bs "logical"] [Node Other (bs "client error") None; Node Io_error (bs "refused") None] =
    Answered (Response 502 Http_2 [(bs "content-length", bs "0"); (bs "l5d-proxy-error", bs "client error"); (bs "l5d-proxy-connection", bs "close")]) true /\
  inbound describe false (get Http_2) By_http1 [] [Node Other (bs "client error") None] = Answered (Response 500 Http_2 [(bs "content-length", bs "0")]) true.
Proof. vm_compute. auto. Qed.

(** A server's reset of a request comes through both proxies to the application that sent it, with its reason; an application of
    HTTP/1 whose requests are upgraded is answered with 502. *)
Theorem C151_two_proxies : forall describe emit emit' r0 r wraps wraps' t t' u u' x,
  inbound describe emit r0 By_h2 wraps (received t t' x) = Stream_reset x /\
  (q_version r = Http_2 -> outbound describe emit' r By_h2 wraps' (received u u' x) = Stream_reset x) /\
  answered_with emit' r (Answer 502 14 true (reset_message describe x) None) (outbound describe emit' r (Upgraded false) wraps' (received u u' x)).
Proof. exact two_proxies. Qed.
Print Assumptions C151_two_proxies.
Example C151_case_two_proxies : inbound describe true (get Http_2) By_h2 [bs "logical"] (received (bs "a") (bs "b") 7) = Stream_reset 7.
Proof. vm_compute. reflexivity. Qed.

(** The connection of an application whose HTTP/1 request was upgraded ends without an answer exactly if there is an error of HTTP/2
    in the chain, and none that has a reason, and no error of input and output or of connecting in time: *)
Theorem C151_ends : forall describe emit r wraps e, of_transport e ->
  (outbound describe emit r (Upgraded false) wraps e = Connection_ends <->
   q_version r <> Http_2 /\ has H2_error e /\ (forall x, ~ first_reason e x) /\ ~ has Io_error e /\ ~ has Connect_timeout e).
Proof. exact ends. Qed.
Print Assumptions C151_ends.
(** so it is not so that applications of HTTP/1 see no errors of HTTP/2: those that h2 has of its user have no reason. *)
Theorem C151_ends_refuted : ~ forall describe emit r wraps e, of_transport e -> q_version r = Http_11 ->
  exists rsp closed, outbound describe emit r (Upgraded false) wraps e = Answered rsp closed.
Proof.
  intros H. destruct (H describe true (get Http_11) [] [Node Other (bs "http2 error") None; Node H2_error (bs "user error: malformed headers") None]) as (rsp & closed & E).
  - eexists _, _. split; [reflexivity|]. constructor; [left; reflexivity|constructor].
  - reflexivity.
  - vm_compute in E. discriminate E.
Qed.
Print Assumptions C151_ends_refuted.

(** The errors of the bodies of their responses are no errors of HTTP/2 either, if these have a reason; others are as they were. *)
Theorem C151_bodies : forall describe e,
  (forall x, first_reason e x -> plain (body_error describe (Upgraded false) e) = [(Downgraded_h2, reset_message describe x)]) /\
  ((forall x, ~ first_reason e x) -> body_error describe (Upgraded false) e = e).
Proof. exact body_upgraded. Qed.
Print Assumptions C151_bodies.
(** That an HTTP/2 response was reset is seen by the application, also if it is one of gRPC: no trailers are made up for it. *)
Theorem C151_body_reset : forall emit e b, b = Passthru \/ b = Grpc_rescue emit -> of_transport e ->
  ~ has Io_error e -> ~ has Connect_timeout e -> has H2_error e ->
  body_through outbound_client_rescue outbound_server_rescue b e = Body_error (plain e).
Proof. exact body_passes. Qed.
Print Assumptions C151_body_reset.
Example C151_case_bodies : plain (body_error describe (Upgraded false) reset) = [(Downgraded_h2, bs "upgraded connection failed with HTTP/2 reset: stream no longer needed")] /\
  body_through outbound_client_rescue outbound_server_rescue (Grpc_rescue true) reset = Body_error (plain reset) /\
  ~ has Io_error reset /\ ~ has Connect_timeout reset /\ has H2_error reset.
Proof.
  split; [reflexivity|]. split; [reflexivity|]. split; [intros (n & [<-|[<-|[<-|[]]]] & K); discriminate|].
  split; [intros (n & [<-|[<-|[<-|[]]]] & K); discriminate|]. exists (Node H2_error (bs "stream error") (Some 8)). cbn. auto.
Qed.
