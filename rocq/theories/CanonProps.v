(** The properties of the names of services that requests carry from proxy to proxy: C149. *)
From Coq Require Import String List NArith Bool Lia.
From Verif Require Import Bytes NameModel NameSpec NameProofs FilterModel FilterSpec FilterProofs TraceModel EndpointModel MtlsModel HintSpec
  Http1Model Http1Spec Http1Proofs.
From Verif Require RouteModel AuthzModel PolicyModel PolicySpec DiscoverModel.
From Verif Require Import InboundModel InboundSpec InboundProofs CanonModel CanonSpec CanonProofs.
Import Http1Model.
Import ListNotations.
Open Scope N_scope.
Open Scope string_scope.

(** ** Examples: two proxies, of which the second has a policy that lets all through *)
Definition eg_authority (s : bytes) : option authority := Some (Authority s None).
Definition eg_any : list AuthzModel.authorization :=
  [AuthzModel.Authorization [AuthzModel.Net (AuthzModel.Net4 0 0) []] AuthzModel.Unauthenticated].
Definition eg_policy : PolicyModel.protocol :=
  PolicyModel.Detect [RouteModel.Route [] [RouteModel.Rule [RouteModel.MatchRequest None [] [] None] (PolicyModel.RoutePolicy eg_any ([] : list PolicyModel.http_filter))]] 0 [].
Definition eg_conn : inbound_conn := InboundConn None (AuthzModel.V4 5) (Sock [10; 0; 0; 1] 8080) PolicyModel.V_h2 None.
Definition eg_outbound := outbound eg_authority PolicyModel.V_http1 None.
Definition eg_inbound := inbound eg_authority (fun _ => false) (fun _ => []) (fun _ => true) (fun _ => false) false [] [] [SRoot] eg_policy true eg_conn.
(** An application's request, which claims to be for another service *)
Definition eg_request : request :=
  Request (bs "GET") Http_11 (FilterModel.Uri None None (bs "/x") None)
    [(bs "host", bs "web"); (bs "l5d-dst-canonical", bs "other.svc:99"); (bs "connection", bs "l5d-dst-canonical, x"); (bs "x", bs "1")]
    false false false.
(** The same, but for the header of the connection *)
Definition eg_forged : request :=
  Request (bs "GET") Http_11 (FilterModel.Uri None None (bs "/x") None)
    [(bs "host", bs "web"); (bs "l5d-dst-canonical", bs "other.svc:99")] false false false.
Definition eg_service : name_addr := NameAddr (bs "web.ns.svc.") 8080.

Example eg_service_ok : service eg_service.
Proof.
  split; [|split; [vm_compute; reflexivity|cbn; lia]]. apply (proj1 (name_from_str_spec (bs "web.ns.svc.") (bs "web.ns.svc."))). vm_compute. reflexivity.
Qed.
Example eg_made : made_by PolicyModel.V_http1 eg_request /\ made_by PolicyModel.V_http1 eg_forged.
Proof. repeat split; try (right; right; split; reflexivity); right; reflexivity. Qed.
Example eg_keeps n : keeps eg_policy n.
Proof. intros rt ru m [<-|[]] [<-|[]] []. Qed.
Example eg_suffixes : suffixes_ok [SRoot].
Proof. intros n [[=]|[]]. Qed.

(** ** C149 *)

(** In ingress mode a request goes where its `l5d-dst-override` header says (as C83 reads it), and no such header is
    passed on: nothing else is changed. *)
Theorem C149_override :
  forall parse_authority orig_dst r t r', ingress_call parse_authority orig_dst r = Some (t, r') ->
    DiscoverModel.select_target parse_authority orig_dst (q_headers r) = Some t /\
    only_headers r r' /\
    q_headers r' = without [bs "l5d-dst-override"] (q_headers r) /\
    values (bs "l5d-dst-override") (q_headers r') [].
Proof. exact ingress_spec. Qed.
Print Assumptions C149_override.
Example C149_case_override :
  ingress_call (fun _ => Some (Authority (bs "web.prod.svc") (Some 8080))) (Sock [10; 0; 0; 9] 80)
    (Request (bs "GET") Http_11 (FilterModel.Uri None None (bs "/x") None)
       [(bs "l5d-dst-override", bs "web.prod.svc:8080"); (bs "host", bs "web"); (bs "l5d-dst-override", bs "b")] false false false) =
  Some (DiscoverModel.Named (NameAddr (bs "web.prod.svc") 8080),
        Request (bs "GET") Http_11 (FilterModel.Uri None None (bs "/x") None) [(bs "host", bs "web")] false false false).
Proof. vm_compute. reflexivity. Qed.

(** A request by a route of a profile says, once, what service it is for, whatever it said before; nothing else is
    changed, and it is never the end of its task. *)
Theorem C149_canonical :
  forall a r, service a -> exists r' n,
    profile_route a r = Some r' /\ only_headers r r' /\ undotted_service a n /\
    values (bs "l5d-dst-canonical") (q_headers r') [na_name n ++ [58] ++ to_dec (na_port n)]%list /\
    without [bs "l5d-dst-canonical"] (q_headers r') = without [bs "l5d-dst-canonical"] (q_headers r).
Proof. exact profile_spec. Qed.
Print Assumptions C149_canonical.
Example C149_case_canonical :
  option_map q_headers (profile_route eg_service eg_forged) = Some [(bs "host", bs "web"); (bs "l5d-dst-canonical", bs "web.ns.svc:8080")].
Proof. vm_compute. reflexivity. Qed.

(** The peer's proxy asks the control plane about that service, if it may, and about no other: whatever the request says,
    of itself and of its connection, over HTTP/1 or HTTP/2. *)
Theorem C149_agreed :
  forall parse_authority is_ip form_parse pq_valid draw v default a k r d r2 tracing span1 span2 allow p limit c to v' asked r' n,
    service a -> made_by v r ->
    outbound parse_authority v default (Some a) None k r = Some d -> arrives d r2 -> fits c r2 ->
    keeps p (bs "l5d-dst-canonical") -> suffixes_ok allow ->
    inbound parse_authority is_ip form_parse pq_valid draw tracing span1 span2 allow p limit c r2 = Sent to v' asked r' ->
    (asked = Some n <-> undotted_service a n /\ allowed allow n).
Proof. intros parse_authority is_ip form_parse pq_valid draw. exact (agreed parse_authority is_ip form_parse pq_valid draw). Qed.
Print Assumptions C149_agreed.
Example C149_case_agreed :
  exists rr to v' r', eg_outbound (Some eg_service) None C_upgrade eg_request = Some (Over_h2 rr Http_11) /\
    arrives (Over_h2 rr Http_11) (over_wire rr) /\ fits eg_conn (over_wire rr) /\
    eg_inbound (over_wire rr) = Sent to v' (Some (NameAddr (bs "web.ns.svc") 8080)) r'.
Proof.
  do 4 eexists. split; [vm_compute; reflexivity|]. split; [constructor|]. split; [reflexivity|]. vm_compute. reflexivity.
Qed.

(** Where the endpoint requires an authority, the peer's proxy asks about that. *)
Theorem C149_overridden :
  forall parse_authority is_ip form_parse pq_valid draw v default profile o k r d rr v0 tracing span1 span2 allow p limit c to v' asked r' n,
    made_by v r ->
    outbound parse_authority v default profile (Some o) k r = Some d -> d = Over_h2 rr v0 -> fits c (over_wire rr) ->
    keeps p (bs "l5d-dst-canonical") -> keeps p (bs "host") -> suffixes_ok allow ->
    inbound parse_authority is_ip form_parse pq_valid draw tracing span1 span2 allow p limit c (over_wire rr) = Sent to v' asked r' ->
    (asked = Some n <-> named is_ip o n /\ allowed allow n).
Proof. intros parse_authority is_ip form_parse pq_valid draw. exact (overridden parse_authority is_ip form_parse pq_valid draw). Qed.
Print Assumptions C149_overridden.
Example C149_case_overridden :
  exists rr to v' r', eg_outbound None (Some (Authority (bs "api.ns") (Some 90))) C_upgrade eg_forged = Some (Over_h2 rr Http_11) /\
    fits eg_conn (over_wire rr) /\ eg_inbound (over_wire rr) = Sent to v' (Some (NameAddr (bs "api.ns") 90)) r'.
Proof.
  do 4 eexists. split; [vm_compute; reflexivity|]. split; [reflexivity|]. vm_compute. reflexivity.
Qed.

(** Without a profile the proxy passes the application's own `l5d-dst-canonical` header on, and the peer's proxy asks about
    the service that it names, which the request is not for. *)
Theorem C149_forged_refuted :
  ~ forall parse_authority is_ip form_parse pq_valid draw v default k r d r2 tracing span1 span2 allow p limit c to v' n r',
      made_by v r ->
      outbound parse_authority v default None None k r = Some d -> arrives d r2 -> fits c r2 ->
      keeps p (bs "l5d-dst-canonical") -> suffixes_ok allow ->
      inbound parse_authority is_ip form_parse pq_valid draw tracing span1 span2 allow p limit c r2 = Sent to v' (Some n) r' ->
      exists a, u_auth (q_uri r') = Some a /\ named is_ip a n.
Proof.
  intros H.
  edestruct (H eg_authority (fun _ => false) (fun _ => []) (fun _ => true) (fun _ => false) PolicyModel.V_http1 None C_upgrade eg_forged)
    with (tracing := false) (span1 := [] : bytes) (span2 := [] : bytes) (allow := [SRoot]) (p := eg_policy) (limit := true) (c := eg_conn) as (a & E & _ & _ & N & _).
  - apply eg_made.
  - vm_compute. reflexivity.
  - constructor.
  - reflexivity.
  - apply eg_keeps.
  - exact eg_suffixes.
  - vm_compute. reflexivity.
  - vm_compute in E. injection E as <-. vm_compute in N. discriminate N.
Qed.
Print Assumptions C149_forged_refuted.
