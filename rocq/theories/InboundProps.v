(** The properties of the path of inbound requests: C114, C115. *)
From Coq Require Import String List NArith Bool Lia.
From Verif Require Import Bytes NameModel NameSpec FilterModel FilterSpec EndpointModel MtlsModel HintSpec Http1Spec Http1Proofs.
From Verif Require RouteModel AuthzModel AuthzSpec PolicyModel PolicySpec GatewayModel MtlsSpec HintProofs.
From Verif Require Import Http1Model InboundModel InboundSpec InboundProofs.
Import ListNotations.
Open Scope N_scope.

(** For the examples: a policy with routes for two hosts, of which one is open and the other for one identity only *)
Definition ex_authority (s : bytes) : option authority := Some (Authority s None).
Definition ex_inbound := inbound ex_authority (fun _ => false) (fun _ => []) (fun _ => true) (fun _ => false).
Definition ex_any : list AuthzModel.authorization :=
  [AuthzModel.Authorization [AuthzModel.Net (AuthzModel.Net4 0 0) []] AuthzModel.Unauthenticated].
Definition ex_web : list AuthzModel.authorization :=
  [AuthzModel.Authorization [AuthzModel.Net (AuthzModel.Net4 0 0) []] (AuthzModel.Tls_authenticated [bs "web.ns"] [])].
Definition ex_route (h : bytes) (a : list AuthzModel.authorization) :=
  RouteModel.Route [RouteModel.HExact h] [RouteModel.Rule [RouteModel.MatchRequest None [] [] None] (PolicyModel.RoutePolicy a ([] : list PolicyModel.http_filter))].
Definition ex_policy : PolicyModel.protocol := PolicyModel.Http1 [ex_route (bs "open") ex_any; ex_route (bs "closed") ex_web].
Definition ex_conn (t : option server_tls) (v : PolicyModel.variant) : inbound_conn :=
  InboundConn t (AuthzModel.V4 5) (Sock [10; 0; 0; 1] 8080) v None.
Definition ex_web_tls : option server_tls := Some (Established (Some (Dns (bs "web.ns"))) None).
(** A request as a server makes it *)
Definition ex_request (v : version) (u : uri) (hs : headers) : request := Request (bs "GET") v u hs false false false.
Definition ex_path : uri := FilterModel.Uri None None (bs "/x") None.

Example ex_policy_wf : PolicySpec.routes_wf ex_policy /\ AuthzSpec.ip_wf (AuthzModel.V4 5).
Proof.
  split; [|cbn; lia]. intros rt ru a [<-|[<-|[]]] [<-|[]] [<-|[]]; intros n [<-|[]]; (split; [cbn; lia|]); intros e [].
Qed.
Example ex_policy_keeps n : keeps ex_policy n.
Proof. intros rt ru m [<-|[<-|[]]] [<-|[]] []. Qed.

(** ** C114: what the application is told of its client *)

(** A request that reaches the application carries as `l5d-client-id` exactly the identity that its client was
    authenticated with, whatever the client itself has put there; with none, it carries no such header. *)
Theorem C114_identity :
  forall parse_authority is_ip form_parse pq_valid draw tracing span1 span2 allow p limit c r to v asked r',
    inbound parse_authority is_ip form_parse pq_valid draw tracing span1 span2 allow p limit c r = Sent to v asked r' ->
    keeps p (bs "l5d-client-id") ->
    (forall x, In (bs "l5d-client-id", x) (q_headers r') <-> tells (c_tls c) x) /\
    (forall vs, values (bs "l5d-client-id") (q_headers r') vs -> (List.length vs <= 1)%nat).
Proof. exact told_identity. Qed.
Print Assumptions C114_identity.

(** So, the identity is one that a certificate says, which the client has proved to be its own and which the trust anchors
    have signed. *)
Theorem C114_proved :
  forall parse_authority is_ip form_parse pq_valid draw L name cfg sni scheme peer now t
         tracing span1 span2 allow p limit c r to v asked r' x,
    server_accept L name cfg sni scheme peer now = Some t -> c_tls c = t ->
    inbound parse_authority is_ip form_parse pq_valid draw tracing span1 span2 allow p limit c r = Sent to v asked r' ->
    keeps p (bs "l5d-client-id") ->
    In (bs "l5d-client-id", x) (q_headers r') ->
    sni = Some name /\
    exists leaf i, MtlsSpec.proved (x_trusted_client L) peer now leaf /\ MtlsSpec.certifies_first L leaf i /\ spelled i x.
Proof. exact told_proved. Qed.
Print Assumptions C114_proved.

(** An identity that is a DNS name is always told. *)
Theorem C114_dns :
  forall L n x t a, MtlsSpec.says L n (Dns x) -> t = Some (Established (Some (Dns x)) a) -> tells t x.
Proof. exact dns_told. Qed.
Print Assumptions C114_dns.

(** The other headers, but for those that the proxy or the policy writes, arrive as they were sent; those of an HTTP/1
    connection do not arrive. *)
Theorem C114_rest :
  forall parse_authority is_ip form_parse pq_valid draw tracing span1 span2 allow p limit c r to v asked r' n vs,
    fresh r -> uri_ok (q_uri r) ->
    inbound parse_authority is_ip form_parse pq_valid draw tracing span1 span2 allow p limit c r = Sent to v asked r' ->
    keeps p n -> ~ In n own_headers ->
    (of_connection c r n -> values n (q_headers r') []) /\
    (~ of_connection c r n -> (values n (q_headers r') vs <-> values n (q_headers r) vs)).
Proof. exact other_headers. Qed.
Print Assumptions C114_rest.

(** A client that asks for an upgrade can, however, have the header arrive as one of the connection, which the
    application's server may then ignore. *)
Theorem C114_hop_refuted :
  ~ forall parse_authority is_ip form_parse pq_valid draw tracing span1 span2 allow p limit c r to v asked r',
      fits c r -> fresh r -> uri_ok (q_uri r) ->
      inbound parse_authority is_ip form_parse pq_valid draw tracing span1 span2 allow p limit c r = Sent to v asked r' ->
      ~ hop_by_hop (q_headers r') (bs "l5d-client-id").
Proof.
  intros H.
  pose (r := ex_request Http_11 ex_path [(bs "host", bs "open"); (bs "connection", bs "upgrade,l5d-client-id"); (bs "upgrade", bs "websocket")]).
  eapply (H ex_authority (fun _ => false) (fun _ => []) (fun _ => true) (fun _ => false) false [] [] [] ex_policy true
    (ex_conn ex_web_tls PolicyModel.V_http1) r).
  - right. reflexivity.
  - repeat split.
  - right. right. split; reflexivity.
  - vm_compute. reflexivity.
  - right. exists (bs "upgrade,l5d-client-id"), [bs "upgrade"; bs "l5d-client-id"], (bs "l5d-client-id"), (bs "l5d-client-id").
    split; [|split; [|split; [|split; [|split]]]].
    + exists [(bs "host", bs "open")], [(bs "upgrade", bs "websocket"); (bs "l5d-client-id", bs "web.ns")].
      split; [reflexivity|]. intros [E|[]]. vm_compute in E. discriminate E.
    + exact (proj2 (proj1 (to_str_printable (bs "upgrade,l5d-client-id") (bs "upgrade,l5d-client-id")) eq_refl)).
    + split; [discriminate|]. split; [reflexivity|]. constructor; [|constructor; [|constructor]]; intros I; vm_compute in I;
        repeat (destruct I as [I|I]; [discriminate I|]); exact I.
    + right. left. reflexivity.
    + apply HintProofs.trim_iff. reflexivity.
    + reflexivity.
Qed.
Print Assumptions C114_hop_refuted.

(** A forged header is replaced or removed, and the headers of the connection are gone. *)
Example C114_example :
  ex_inbound false [] [] [] ex_policy true (ex_conn ex_web_tls PolicyModel.V_http1)
    (ex_request Http_11 ex_path [(bs "host", bs "closed"); (bs "l5d-client-id", bs "admin"); (bs "connection", bs "x"); (bs "x", bs "1"); (bs "y", bs "2")]) =
  Sent (Sock [10; 0; 0; 1] 8080) PolicyModel.V_http1 None
    (Request (bs "GET") Http_11 (FilterModel.Uri (Some (bs "http")) (Some (Authority (bs "closed") None)) (bs "/x") None)
       [(bs "host", bs "closed"); (bs "y", bs "2"); (bs "l5d-client-id", bs "web.ns")] false false false) /\
  ex_inbound false [] [] [] ex_policy true (ex_conn None PolicyModel.V_http1)
    (ex_request Http_11 ex_path [(bs "host", bs "open"); (bs "l5d-client-id", bs "admin"); (bs "l5d-client-id", bs "root")]) =
  Sent (Sock [10; 0; 0; 1] 8080) PolicyModel.V_http1 None
    (Request (bs "GET") Http_11 (FilterModel.Uri (Some (bs "http")) (Some (Authority (bs "open") None)) (bs "/x") None)
       [(bs "host", bs "open")] false false false).
Proof. split; vm_compute; reflexivity. Qed.

(** ** C115: where requests go *)

(** A request is sent only to the address that its connection was made to, and only if the policy's route for its method,
    host, path and query authorizes the client, with the identity that it was authenticated with, and the rate limit
    admits it; it is that method, path and query that is sent. *)
Theorem C115_authorized :
  forall parse_authority is_ip form_parse pq_valid draw tracing span1 span2 allow p limit c r to v asked r',
    fresh r -> uri_ok (q_uri r) -> PolicySpec.routes_wf p -> AuthzSpec.ip_wf (c_client c) ->
    inbound parse_authority is_ip form_parse pq_valid draw tracing span1 span2 allow p limit c r = Sent to v asked r' ->
    to = c_server c /\ limit = true /\
    q_method r' = q_method r /\ u_path (q_uri r') = u_path (q_uri r) /\ u_query (q_uri r') = u_query (q_uri r) /\
    exists rq l hs,
      RouteModel.rq_method rq = q_method r /\ RouteModel.rq_path rq = u_path (q_uri r) /\
      RouteModel.rq_query rq = option_map form_parse (u_query (q_uri r)) /\
      RouteModel.rq_host rq = option_map a_host (u_auth (q_uri r')) /\
      PolicySpec.chosen pq_valid draw rq (q_uri r') p l (inl hs) /\
      AuthzSpec.authorized l (c_client c) (authz_tls (c_tls c)).
Proof. exact sent_authorized. Qed.
Print Assumptions C115_authorized.
(** What counts for an authorization is what the connection shows. *)
Theorem C115_shown : forall a t, AuthzSpec.meets a (authz_tls t) <-> shows a t.
Proof. exact shown. Qed.
Print Assumptions C115_shown.
Example C115_shown_case :
  shows (AuthzModel.Tls_authenticated [] [bs ".ns"]) (Some (Established (Some (Dns (bs "web.ns"))) None)) /\
  ~ shows (AuthzModel.Tls_authenticated [bs "web.ns"] [bs ".ns"]) (Some (Established None None)) /\
  ~ shows AuthzModel.Tls_unauthenticated (Some (Passthru (bs "web.ns"))).
Proof.
  split; [|split].
  - exists (Dns (bs "web.ns")), None. split; [reflexivity|]. right. exists (bs ".ns"), (bs "web"). split; [now left|reflexivity].
  - intros (i & p & H & _). discriminate.
  - intros (i & p & H). discriminate.
Qed.

(** A request that the policy answers gets the policy's verdict on it. *)
Theorem C115_refused :
  forall parse_authority is_ip form_parse pq_valid draw tracing span1 span2 allow p limit c r e,
    fresh r -> uri_ok (q_uri r) -> PolicySpec.routes_wf p -> AuthzSpec.ip_wf (c_client c) ->
    inbound parse_authority is_ip form_parse pq_valid draw tracing span1 span2 allow p limit c r = By_policy e ->
    exists rq u b,
      RouteModel.rq_method rq = q_method r /\ RouteModel.rq_path rq = u_path (q_uri r) /\
      RouteModel.rq_query rq = option_map form_parse (u_query (q_uri r)) /\ RouteModel.rq_host rq = option_map a_host (u_auth u) /\
      u_path u = u_path (q_uri r) /\ u_query u = u_query (q_uri r) /\ (u_auth (q_uri r) <> None -> u = q_uri r) /\
      PolicySpec.verdict pq_valid draw p (c_client c) (authz_tls (c_tls c)) rq u limit (e, b).
Proof. exact refused_verdict. Qed.
Print Assumptions C115_refused.

(** Without tracing, no request but CONNECT can make its task panic. *)
Theorem C115_not_panics :
  forall parse_authority is_ip form_parse pq_valid draw span1 span2 allow p limit c r,
    fits c r -> fresh r -> uri_ok (q_uri r) -> ~ authority_uri (q_uri r) -> PolicySpec.routes_wf p -> AuthzSpec.ip_wf (c_client c) ->
    inbound parse_authority is_ip form_parse pq_valid draw false span1 span2 allow p limit c r <> Panics.
Proof. exact not_panics. Qed.
Print Assumptions C115_not_panics.

(** The control plane is asked for a profile exactly of the name that the request is for, if a configured suffix contains
    that name. *)
Theorem C115_lookup :
  forall parse_authority is_ip form_parse pq_valid draw tracing span1 span2 allow p limit c r to v asked r' n,
    suffixes_ok allow ->
    inbound parse_authority is_ip form_parse pq_valid draw tracing span1 span2 allow p limit c r = Sent to v asked r' ->
    (asked = Some n <-> for_name parse_authority is_ip r' n /\ allowed allow n).
Proof. exact sent_lookup. Qed.
Print Assumptions C115_lookup.

(** A request is sent with the version that it came with, or with that which it had before another proxy sent it over
    HTTP/2. *)
Theorem C115_version :
  forall parse_authority is_ip form_parse pq_valid draw tracing span1 span2 allow p limit c r to v asked r',
    fits c r -> fresh r -> uri_ok (q_uri r) ->
    inbound parse_authority is_ip form_parse pq_valid draw tracing span1 span2 allow p limit c r = Sent to v asked r' ->
    spoken r (q_version r') /\ (v = PolicyModel.V_h2 <-> q_version r' = Http_2).
Proof. exact sent_version. Qed.
Print Assumptions C115_version.

(** The application takes a request to be for the host that the policy has taken it to be for, if the request does not
    claim to have been one of HTTP/1 that came over HTTP/2. *)
Theorem C115_host_partial :
  forall parse_authority is_ip form_parse pq_valid draw tracing span1 span2 allow p limit c r to v asked r' h,
    fits c r -> fresh r -> uri_ok (q_uri r) -> keeps p (bs "host") ->
    (forall v, q_version r = Http_2 -> ~ notes r v) ->
    inbound parse_authority is_ip form_parse pq_valid draw tracing span1 span2 allow p limit c r = Sent to v asked r' ->
    told_host parse_authority r' h -> exists a, u_auth (q_uri r') = Some a /\ a_host a = h.
Proof. exact sent_host. Qed.
Print Assumptions C115_host_partial.

(** For those that do, it need not: anyone may send over HTTP/2 a request for an open host, with that note and with the
    `host` header of another host, whose route does not authorize them. The application then gets a request for that
    other host. *)
Theorem C115_host_refuted :
  ~ forall parse_authority is_ip form_parse pq_valid draw tracing span1 span2 allow p limit c r to v asked r' h,
      fits c r -> fresh r -> uri_ok (q_uri r) -> keeps p (bs "host") -> PolicySpec.routes_wf p -> AuthzSpec.ip_wf (c_client c) ->
      inbound parse_authority is_ip form_parse pq_valid draw tracing span1 span2 allow p limit c r = Sent to v asked r' ->
      told_host parse_authority r' h ->
      exists rq l res, RouteModel.rq_host rq = Some h /\ RouteModel.rq_path rq = u_path (q_uri r') /\
        PolicySpec.chosen pq_valid draw rq (q_uri r') p l res /\ AuthzSpec.authorized l (c_client c) (authz_tls (c_tls c)).
Proof.
  intros H.
  pose (u := FilterModel.Uri (Some (bs "http")) (Some (Authority (bs "open") None)) (bs "/x") None).
  pose (r := ex_request Http_2 u [(bs "l5d-orig-proto", bs "HTTP/1.1"); (bs "host", bs "closed")]).
  edestruct (H ex_authority (fun _ => false) (fun _ => []) (fun _ => true) (fun _ => false) false [] [] [] ex_policy true
    (ex_conn None PolicyModel.V_h2) r) with (h := bs "closed") as (rq & l & res & E & _ & C & A).
  - reflexivity.
  - repeat split.
  - left. split; discriminate.
  - apply ex_policy_keeps.
  - apply ex_policy_wf.
  - apply ex_policy_wf.
  - vm_compute. reflexivity.
  - exists (Authority (bs "closed") None). split; [reflexivity|]. left. split.
    + split; [right; reflexivity|]. split; [reflexivity|]. intros ([=] & _).
    + exists (bs "closed"). split; [exists [], []; split; [reflexivity|intros []]|]. split; [|reflexivity].
      exact (proj2 (proj1 (to_str_printable (bs "closed") (bs "closed")) eq_refl)).
  - inversion C as [p' routes h m rp res' Ep F _|]; subst.
    assert (routes = [ex_route (bs "open") ex_any; ex_route (bs "closed") ex_web]) as -> by (destruct Ep as [Ep|[Ep|(? & ? & Ep)]]; [injection Ep; auto|discriminate|discriminate]).
    destruct rq as [me ho pa qu hs]. cbn in E. subst ho. vm_compute in F. injection F as _ _ <-.
    destruct A as (a & [<-|[]] & _ & x & A & _). discriminate A.
Qed.
Print Assumptions C115_host_refuted.

(** The name that the control plane is asked about is the client's choice, authenticated or not. *)
Theorem C115_forged_refuted :
  ~ forall parse_authority is_ip form_parse pq_valid draw tracing span1 span2 allow p limit c r to v n r',
      fits c r -> fresh r -> uri_ok (q_uri r) -> suffixes_ok allow ->
      inbound parse_authority is_ip form_parse pq_valid draw tracing span1 span2 allow p limit c r = Sent to v (Some n) r' ->
      authenticated_as (c_tls c) <> None \/ exists a, u_auth (q_uri r') = Some a /\ named is_ip a n.
Proof.
  intros H.
  pose (r := ex_request Http_11 ex_path [(bs "host", bs "open"); (bs "l5d-dst-canonical", bs "other.svc:99")]).
  edestruct (H ex_authority (fun _ => false) (fun _ => []) (fun _ => true) (fun _ => false) false [] [] [SRoot] ex_policy true
    (ex_conn None PolicyModel.V_http1) r) as [X|(a & E & _ & _ & N & _)].
  - right. reflexivity.
  - repeat split.
  - right. right. split; reflexivity.
  - intros n [E|[]]. discriminate E.
  - vm_compute. reflexivity.
  - apply X. reflexivity.
  - vm_compute in E. injection E as <-. vm_compute in N. discriminate N.
Qed.
Print Assumptions C115_forged_refuted.

Example C115_example :
  (* not authorized for that host *)
  ex_inbound false [] [] [] ex_policy true (ex_conn None PolicyModel.V_http1) (ex_request Http_11 ex_path [(bs "host", bs "closed")])
    = By_policy PolicyModel.R_unauthorized /\
  (* no route *)
  ex_inbound false [] [] [] ex_policy true (ex_conn ex_web_tls PolicyModel.V_http1) (ex_request Http_11 ex_path [(bs "host", bs "other")])
    = By_policy PolicyModel.R_not_found /\
  (* no authority *)
  ex_inbound false [] [] [] ex_policy true (ex_conn None PolicyModel.V_http1) (ex_request Http_11 ex_path []) = Without_authority /\
  (* a tracing header that is cut short *)
  ex_inbound true [1] [2] [] ex_policy true (ex_conn None PolicyModel.V_http1)
    (ex_request Http_11 ex_path [(bs "host", bs "open"); (bs "traceparent", bs "00-11111111111111111111111111111111-1111111111111111-")]) = Panics /\
  (* a request that was one of HTTP/1.0 before it came over HTTP/2 *)
  (exists asked r', ex_inbound false [] [] [SName (bs "ns")] ex_policy true (ex_conn ex_web_tls PolicyModel.V_h2)
     (ex_request Http_2 (FilterModel.Uri (Some (bs "http")) (Some (Authority (bs "closed") (Some 1234))) (bs "/x") None)
        [(bs "l5d-orig-proto", bs "HTTP/1.0"); (bs "l5d-dst-canonical", bs "a.ns:80")])
     = Sent (Sock [10; 0; 0; 1] 8080) PolicyModel.V_http1 asked r' /\
     asked = Some (NameAddr (bs "a.ns") 80) /\ q_version r' = Http_10).
Proof. repeat (split; [vm_compute; reflexivity|]). eexists. eexists. vm_compute. repeat split. Qed.
