(** The properties of the gateway: C104, C105, C106. *)
From Coq Require Import String List NArith Bool Lia.
From Verif Require Import Bytes NameModel NameSpec TransportModel FilterModel EndpointModel DnsModel ProfileModel
  GatewayModel GatewaySpec GatewayProofs.
From Verif Require RouteModel AuthzModel AuthzSpec PolicyModel Http1Model ConnectModel ConnectSpec DiscoverModel DiscoverSpec
  DiscoverProofs FilterSpec FilterProofs NameProofs.
Import ListNotations.
Open Scope N_scope.

(** ** C104: who is served *)

(** A target is discovered exactly if a configured suffix contains its name, the control plane has a profile of it, and
    the control plane has a policy for it or says that it knows none. *)
Theorem C104_discovered : forall P W allow a (profile : option P + DiscoverModel.error) (policy : W + DiscoverModel.error) p s,
  dns_name (na_name a) -> suffixes allow ->
  gateway_resolved allow a profile policy = inl (p, s) <->
  serves allow a /\ known profile policy p /\
  ((exists w, policy = inl w /\ s = DiscoverModel.From_control w) \/
   (exists e, policy = inr e /\ s = DiscoverModel.From_profile)).
Proof. exact @resolved_ok. Qed.
Print Assumptions C104_discovered.

(** It is refused as an invalid domain exactly if no suffix contains its name, or if it has no profile. *)
Theorem C104_invalid : forall P W allow a (profile : option P + DiscoverModel.error) (policy : W + DiscoverModel.error),
  dns_name (na_name a) -> suffixes allow ->
  gateway_resolved allow a profile policy = inr Domain_invalid <-> ~ serves allow a \/ profile = inl None.
Proof. exact @resolved_invalid. Qed.
Print Assumptions C104_invalid.

(** Else it fails with the error of the control plane: that of the profile before that of the policy. *)
Theorem C104_failed : forall P W allow a (profile : option P + DiscoverModel.error) (policy : W + DiscoverModel.error) e,
  dns_name (na_name a) -> suffixes allow ->
  gateway_resolved allow a profile policy = inr (Lookup_failed e) <->
  serves allow a /\ (profile = inr e \/ (exists p, profile = inl (Some p)) /\ policy = inr e /\ ~ DiscoverSpec.not_served e).
Proof. exact @resolved_failed. Qed.
Print Assumptions C104_failed.

(** The control plane is asked only about names that a suffix contains, *)
Theorem C104_asked : forall allow a q,
  dns_name (na_name a) -> suffixes allow -> In q (asked allow a) ->
  serves allow a /\ (q = Ask_profile a \/ q = Ask_policy a).
Proof. exact asked_only. Qed.
Print Assumptions C104_asked.

(** and a proxy without suffixes is no gateway. *)
Theorem C104_none : forall a q, ~ serves [] a /\ ~ In q (asked [] a).
Proof. exact (fun a q => conj (fun '(ex_intro _ _ (conj H _)) => H) (fun H => H)). Qed.
Print Assumptions C104_none.

(** A request is sent on exactly if it came on a connection of an authenticated client that named a target with an HTTP
    protocol; a suffix contains that name; the control plane knows it; the policy of the port the client connected to
    lets that client's request pass; the profile says where to; the version of HTTP is one that is served; and neither is
    the client the gateway itself nor has the request been here before. *)
Theorem C104_request :
  forall allow local_id policies get_profile get_policy ip_of pq_valid draw limit tls remote local h req u v r v',
  suffixes allow -> (forall n, h_name h = Some n -> dns_name n) -> proper local_id ->
  (forall c np, tls = Some (ConnectModel.Established (Some c) np) -> proper c) ->
  (exists hs', request_through allow local_id policies get_profile get_policy ip_of pq_valid draw limit
                 tls remote local h req u v = Sent r v' hs') <->
  exists c a p hs, asks_for tls h c a /\ h_protocol h <> None /\ serves allow a /\
    known (get_profile a) (get_policy a) p /\
    fst (PolicyModel.call pq_valid draw (policies local) (ip_of remote)
           (AuthzModel.Established (Some (authz_id c))) req u limit) = PolicyModel.R_forward hs /\
    routes_to p r /\ spoken v v' /\ c <> local_id /\ ~ went_through local_id hs.
Proof. exact through_iff. Qed.
Print Assumptions C104_request.

(** The policy knows the client by the identity that it was authenticated with. *)
Theorem C104_client : forall c identities suffixes,
  AuthzSpec.meets (AuthzModel.Tls_authenticated identities suffixes) (AuthzModel.Established (Some (authz_id c))) <->
  match c with
  | Dns name => In name identities \/ exists s before, In s suffixes /\ name = before ++ s
  | Uri uri => In uri identities
  end.
Proof. exact known_as. Qed.
Print Assumptions C104_client.

(** An opaque connection is forwarded exactly if it is an authenticated client's that named a target without a protocol; a
    suffix contains the name; the control plane knows it; and the policy of the port that the client connected to
    authorizes that client. *)
Theorem C104_connection :
  forall allow config policies get_profile get_policy ip_of tls remote local h,
  suffixes allow -> (forall n, h_name h = Some n -> dns_name n) ->
  (exists f, connection_through allow config policies get_profile get_policy ip_of tls remote local h = O_follows f) <->
  exists c a p, asks_for tls h c a /\ h_protocol h = None /\ serves allow a /\ known (get_profile a) (get_policy a) p /\
    PolicyModel.check_authorized (policies local) (ip_of remote) (AuthzModel.Established (Some (authz_id c))) <> None.
Proof. exact connection_iff. Qed.
Print Assumptions C104_connection.

(** A gateway for svc.east; authenticated clients may use it. *)
Definition gw : id := Dns (bs "gw.ns"%string).
Definition west : id := Dns (bs "west.ns"%string).
Definition web : name_addr := NameAddr (bs "web.svc.east"%string) 8080.
Definition db : name_addr := NameAddr (bs "db.svc.east"%string) 5432.
Definition east : list suffix := [SName (bs "svc.east"%string)].
Definition everywhere : AuthzModel.net := AuthzModel.Net (AuthzModel.Net4 0 0) [].
Definition only_west : list AuthzModel.authorization :=
  [AuthzModel.Authorization [everywhere] (AuthzModel.Tls_authenticated [bs "west.ns"%string] [])].
Definition gw_policy (s : sock) : PolicyModel.protocol :=
  if s_port s =? 4143
  then PolicyModel.Detect [RouteModel.Route [] [RouteModel.Rule [RouteModel.MatchRequest None [] [] None]
                             (PolicyModel.RoutePolicy only_west [])]] 10 only_west
  else PolicyModel.Opaque [].
Definition web_profile : profile := Profile (Some web) [] [] false None.
Definition ex_profiles (a : name_addr) : option profile + DiscoverModel.error :=
  if beq (na_name a) (na_name web) || beq (na_name a) (na_name db) then inl (Some web_profile) else inl None.
Definition tls_policy : DiscoverModel.client_policy :=
  DiscoverModel.ClientPolicy (DiscoverModel.Default_meta (bs "tls"%string)) (DiscoverModel.P_tls []) [].
Definition ex_policies (a : name_addr) : DiscoverModel.client_policy + DiscoverModel.error :=
  if beq (na_name a) (na_name db) then inl tls_policy else inr [DiscoverModel.Status 5].
Definition from_west : option ConnectModel.server_tls :=
  Some (ConnectModel.Established (Some west) (Some ConnectSpec.header_protocol)).
Definition gw_port : sock := Sock [10; 0; 0; 1] 4143.
Definition peer : sock := Sock [10; 0; 0; 9] 50000.
Definition ex_request (tls : option ConnectModel.server_tls) (local : sock) (a : name_addr) (hs : headers) : answer :=
  request_through east gw gw_policy ex_profiles ex_policies (fun _ => AuthzModel.V4 5) (fun _ => true) (fun _ => true) true
    tls peer local (Header (na_port a) (Some (na_name a)) (Some TransportModel.Http1))
    (RouteModel.Request (bs "GET"%string) None (bs "/"%string) None hs)
    (FilterModel.Uri None None (bs "/"%string) None) Http1Model.Http_11.
Definition ex_connection (local : sock) (a : name_addr) : opaque_answer :=
  connection_through east (DiscoverModel.Config 10 (DiscoverModel.Queue 1 1) 5) gw_policy ex_profiles ex_policies (fun _ => AuthzModel.V4 5)
    from_west peer local (Header (na_port a) (Some (na_name a)) None).

Lemma ex_dns s : is_valid_dns_id s = true -> dns_name s.
Proof. exact (proj1 (NameProofs.valid_dns_iff s)). Qed.
Lemma ex_suffixes : suffixes east.
Proof. intros n [E|[]]. injection E as <-. apply ex_dns. reflexivity. Qed.

Example C104_case :
  suffixes east /\ proper gw /\ proper west /\ serves east web /\ known (ex_profiles web) (ex_policies web) web_profile /\
  ex_request from_west gw_port web [(bs "host", bs "x")] =
    Sent (G_profile web [] []) DiscoverModel.Http1
      [(bs "forwarded", bs "by=gw.ns;for=west.ns;host=web.svc.east:8080;proto=https"); (bs "host", bs "web.svc.east:8080")] /\
  ex_request None gw_port web [] = Not_gateway /\
  ex_request from_west peer web [] = Answered PolicyModel.R_not_found /\
  ex_request from_west gw_port (NameAddr (bs "web.svc.west") 80) [] = Undiscovered Domain_invalid /\
  ex_request from_west gw_port (NameAddr (bs "x.svc.east") 80) [] = Undiscovered Domain_invalid /\
  ex_connection peer web = O_denied /\ exists f, ex_connection gw_port web = O_follows f.
Proof.
  split; [exact ex_suffixes|]. split; [apply ex_dns; reflexivity|]. split; [apply ex_dns; reflexivity|].
  split; [apply (serves_iff east web); [apply ex_dns; reflexivity|exact ex_suffixes|reflexivity]|].
  split; [split; [reflexivity|]; intros e E; injection E as <-; apply DiscoverProofs.not_served_iff; reflexivity|].
  repeat (split; [vm_compute; reflexivity|]). eexists. vm_compute. reflexivity.
Qed.

(** ** C105: loops *)

(** A request is refused as a loop exactly if it is the gateway's own, or if a `forwarded` header tells that it has
    been forwarded by the gateway. *)
Theorem C105_loop : forall local client a v hs,
  http_gateway local client a v hs = Loop <-> client = local \/ went_through local hs.
Proof. exact loop_iff. Qed.
Print Assumptions C105_loop.

(** A request that it sends on tells so. *)
Theorem C105_marked : forall local client a v hs hs',
  plain local -> readable (id_text client) -> dns_name (na_name a) ->
  http_gateway local client a v hs = Passed hs' -> went_through local hs'.
Proof. exact stamped_by. Qed.
Print Assumptions C105_marked.

(** However a request travels, through gateways and through others that keep the values of `forwarded`, it does not pass
    the same gateway twice; *)
Theorem C105_once : forall gs hs, journey gs hs -> NoDup (map id_text gs).
Proof. exact journey_once. Qed.
Print Assumptions C105_once.

(** it passes at most as many gateways as there are. *)
Theorem C105_bounded : forall gs hs ids,
  journey gs hs -> incl (map id_text gs) ids -> (List.length gs <= List.length ids)%nat.
Proof. exact journey_bounded. Qed.
Print Assumptions C105_bounded.

(** Yet a request does come back and is sent on again if a server on the way joined its `forwarded` headers, as it may:
    only the first `by` of a header is looked at. *)
Theorem C105_joined_refuted : exists hs first last hs1 hs2,
  plain gw /\ plain west /\
  http_gateway gw west web Http1Model.Http_2 hs = Passed hs1 /\
  FilterSpec.values (bs "forwarded") hs1 [first; last] /\
  http_gateway gw west web Http1Model.Http_2 [(bs "forwarded", first ++ bs ", " ++ last)] = Passed hs2.
Proof.
  exists [(bs "forwarded", bs "by=west.ns;for=x.ns;host=web;proto=https")].
  exists (bs "by=west.ns;for=x.ns;host=web;proto=https").
  exists (bs "by=gw.ns;for=west.ns;host=web.svc.east:8080;proto=https").
  assert (P : forall i, i = gw \/ i = west -> plain i).
  { intros i D. split; [|split; [|split]].
    - destruct D as [->| ->]; repeat constructor; discriminate.
    - destruct D as [->| ->]; cbn; intuition discriminate.
    - destruct D as [->| ->]; cbn; intuition discriminate.
    - destruct D as [->| ->]; intros n r E; injection E as <-; intros F;
        apply (f_equal (fun l => last l 0)) in F; rewrite last_last in F; vm_compute in F; discriminate. }
  do 2 eexists. split; [apply P; auto|]. split; [apply P; auto|]. split; [vm_compute; reflexivity|].
  split; [|vm_compute; reflexivity].
  apply FilterProofs.values_get_all. reflexivity.
Qed.
Print Assumptions C105_joined_refuted.

(** A gateway whose identity has an equals sign in it does not recognize itself. *)
Theorem C105_equals_refuted : exists u hs1 hs2,
  proper (Uri u) /\
  http_gateway (Uri u) west web Http1Model.Http_2 [] = Passed hs1 /\
  http_gateway (Uri u) west web Http1Model.Http_2 hs1 = Passed hs2.
Proof.
  exists (bs "spiffe://east/gw?x=1"). do 2 eexists.
  split; [repeat constructor; discriminate|]. split; vm_compute; reflexivity.
Qed.
Print Assumptions C105_equals_refuted.

Example C105_case :
  ex_request from_west gw_port web [(bs "forwarded", bs "by=west.ns;for=a"); (bs "forwarded", bs "for=west.ns;by=gw.ns")] =
    Loop_detected /\
  http_gateway gw gw web Http1Model.Http_2 [] = Loop /\
  exists hs, journey [west; gw] hs /\ FilterSpec.values (bs "forwarded") hs
    [bs "by=west.ns;for=a.ns;host=web.svc.east:8080;proto=https"; bs "by=gw.ns;for=west.ns;host=web.svc.east:8080;proto=https"].
Proof.
  split; [vm_compute; reflexivity|]. split; [vm_compute; reflexivity|].
  assert (P : forall i, i = gw \/ i = west -> plain i).
  { intros i D. split; [|split; [|split]].
    - destruct D as [->| ->]; repeat constructor; discriminate.
    - destruct D as [->| ->]; cbn; intuition discriminate.
    - destruct D as [->| ->]; cbn; intuition discriminate.
    - destruct D as [->| ->]; intros n r E; injection E as <-; intros F;
        apply (f_equal (fun l => last l 0)) in F; rewrite last_last in F; vm_compute in F; discriminate. }
  set (hs1 := [(bs "forwarded", bs "by=west.ns;for=a.ns;host=web.svc.east:8080;proto=https")]).
  assert (J : journey [west] hs1).
  { apply (Through [] [] west (Dns (bs "a.ns")) web Http1Model.Http_2); [constructor|apply P; auto| | |vm_compute; reflexivity].
    - repeat constructor; discriminate.
    - apply ex_dns. reflexivity. }
  exists (hs1 ++ [(bs "forwarded", bs "by=gw.ns;for=west.ns;host=web.svc.east:8080;proto=https")]). split.
  - apply (Through [west] hs1 gw west web Http1Model.Http_2); [exact J|apply P; auto| | |vm_compute; reflexivity].
    + repeat constructor; discriminate.
    + apply ex_dns. reflexivity.
  - apply FilterProofs.values_get_all. reflexivity.
Qed.

(** ** C106: what is sent, and where to *)

(** To the headers of a request that the policy lets pass the gateway adds one `forwarded`, last, that names itself, the
    client and the target; with HTTP/1 the target replaces every `host`; nothing else changes. *)
Theorem C106_headers :
  forall allow local_id policies get_profile get_policy ip_of pq_valid draw limit tls remote local h req u v r v' hs',
  suffixes allow -> (forall n, h_name h = Some n -> dns_name n) -> proper local_id ->
  (forall c np, tls = Some (ConnectModel.Established (Some c) np) -> proper c) ->
  request_through allow local_id policies get_profile get_policy ip_of pq_valid draw limit tls remote local h req u v =
    Sent r v' hs' ->
  exists c a hs, asks_for tls h c a /\
    fst (PolicyModel.call pq_valid draw (policies local) (ip_of remote)
           (AuthzModel.Established (Some (authz_id c))) req u limit) = PolicyModel.R_forward hs /\
    stamped local_id c a v hs hs'.
Proof. exact through_stamped. Qed.
Print Assumptions C106_headers.

(** No request makes it panic. *)
Theorem C106_no_panic :
  forall allow local_id policies get_profile get_policy ip_of pq_valid draw limit tls remote local h req u v,
  (forall n, h_name h = Some n -> dns_name n) -> proper local_id ->
  (forall c np, tls = Some (ConnectModel.Established (Some c) np) -> proper c) ->
  request_through allow local_id policies get_profile get_policy ip_of pq_valid draw limit tls remote local h req u v <> Crashed.
Proof. exact through_never_crashes. Qed.
Print Assumptions C106_no_panic.

(** Requests follow the profile as it changes: to its service, with its routes and targets, or to its endpoint; *)
Theorem C106_follow : forall p init es r,
  routes_to p init -> ~ In DiscoverModel.Dropped es -> routes_to (DiscoverSpec.holds p es) r ->
  DiscoverModel.f_value (DiscoverModel.follow mk_routes p init (es ++ [DiscoverModel.Polled])) = r.
Proof. exact routes_follow. Qed.
Print Assumptions C106_follow.

(** the policies of the control plane for the target, whatever they say, have no effect on them. *)
Theorem C106_policy_unused :
  forall allow local_id policies get_profile policy policy' ip_of pq_valid draw limit tls remote local h req u v,
  (forall a, (exists w, policy a = inl w) /\ exists w, policy' a = inl w) ->
  request_through allow local_id policies get_profile policy ip_of pq_valid draw limit tls remote local h req u v =
  request_through allow local_id policies get_profile policy' ip_of pq_valid draw limit tls remote local h req u v.
Proof. exact policy_unused. Qed.
Print Assumptions C106_policy_unused.

(** An opaque connection that is forwarded follows a profile that splits the traffic; else the policy of the control
    plane; else it goes to the endpoint of the profile or fails. *)
Theorem C106_opaque :
  forall allow config policies get_profile get_policy ip_of tls remote local h f,
  suffixes allow -> (forall n, h_name h = Some n -> dns_name n) ->
  connection_through allow config policies get_profile get_policy ip_of tls remote local h = O_follows f ->
  exists c a p, asks_for tls h c a /\ h_protocol h = None /\ serves allow a /\ known (get_profile a) (get_policy a) p /\
    PolicyModel.check_authorized (policies local) (ip_of remote) (AuthzModel.Established (Some (authz_id c))) <> None /\
    opaque_leads a p (get_policy a) f.
Proof. exact connection_follows. Qed.
Print Assumptions C106_opaque.

(** Without a policy of the control plane there is a substitute for all traffic: to the endpoint of the profile, *)
Theorem C106_endpoint : forall c p s md, p_end p = Some (s, md) ->
  DiscoverSpec.all_to (gateway_synthesis c p) (DiscoverModel.c_timeout c) (DiscoverModel.Forward s md).
Proof. exact synthesis_to. Qed.
Print Assumptions C106_endpoint.

(** or, if it names none, an error. *)
Theorem C106_no_endpoint : forall c p, p_end p = None -> all_fails (gateway_synthesis c p).
Proof. exact synthesis_none. Qed.
Print Assumptions C106_no_endpoint.

(** An authorized opaque connection can make the proxy panic: it is enough that the control plane's policy for the target
    is not for opaque traffic. *)
Theorem C106_opaque_panic_refuted :
  suffixes east /\ dns_name (na_name db) /\
  ex_connection gw_port db = O_follows DiscoverModel.Panics.
Proof. split; [exact ex_suffixes|]. split; [apply ex_dns; reflexivity|]. vm_compute. reflexivity. Qed.
Print Assumptions C106_opaque_panic_refuted.

Example C106_case :
  let back : metadata := DiscoverModel.default_metadata in
  routes_to web_profile (G_profile web [] []) /\
  routes_to (Profile None [] [] false (Some (gw_port, back))) (G_endpoint gw_port back) /\
  DiscoverModel.f_value (DiscoverModel.follow mk_routes web_profile (G_profile web [] [])
    ([DiscoverModel.Published (Profile None [] [] false None);
      DiscoverModel.Published (Profile None [] [] false (Some (gw_port, back)))] ++ [DiscoverModel.Polled])) =
    G_endpoint gw_port back /\
  all_fails (gateway_synthesis (DiscoverModel.Config 10 (DiscoverModel.Queue 1 1) 5) web_profile).
Proof.
  split; [constructor; reflexivity|]. split; [constructor; reflexivity|]. split; [vm_compute; reflexivity|].
  apply synthesis_none. reflexivity.
Qed.
