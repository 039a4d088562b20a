(** What C104, C105 and C106 say *)
From Coq Require Import String List NArith Bool.
From Verif Require Import Bytes NameModel NameSpec TransportModel FilterModel EndpointModel DnsModel ProfileModel GatewayModel.
From Verif Require RouteModel AuthzModel PolicyModel Http1Model ConnectModel ConnectSpec DiscoverModel DiscoverSpec FilterSpec.
Import ListNotations.
Open Scope N_scope.

(** ** Who is served *)

(** The gateway is there for the name of an address: one of the configured suffixes contains it. *)
Definition serves (allow : list suffix) (a : name_addr) : Prop :=
  exists s, In s allow /\ contained s (na_name a).
(** A configuration: suffixes are DNS names. *)
Definition suffixes (allow : list suffix) : Prop := forall n, In (SName n) allow -> dns_name n.
(** A connection that a client with the identity [c] makes for [a], with or without a protocol *)
Definition asks_for (tls : option ConnectModel.server_tls) (h : header) (c : id) (a : name_addr) : Prop :=
  tls = Some (ConnectModel.Established (Some c) (Some ConnectSpec.header_protocol)) /\
  h_name h = Some (na_name a) /\ h_port h = na_port a.
(** The control plane knows [a]: it has a profile, and a policy, or else it has told that it has none. *)
Definition known {P W} (profile : option P + DiscoverModel.error) (policy : W + DiscoverModel.error) (p : P) : Prop :=
  profile = inl (Some p) /\ forall e, policy = inr e -> DiscoverSpec.not_served e.

(** ** Loops *)

(** The text of an identity *)
Definition id_text (i : id) : bytes := match i with Dns n => n | Uri u => u end.
(** Texts without control characters, all ASCII *)
Definition readable (s : bytes) : Prop := Forall (fun b => 32 <= b <= 126) s.
(** Identities that a `forwarded` header can tell *)
Definition plain (i : id) : Prop :=
  readable (id_text i) /\ ~ In 59 (id_text i) /\ ~ In 61 (id_text i) /\
  forall n r, i = Dns n -> n <> r ++ [dot].
(** The parameters of a `forwarded` header: what is between semicolons *)
Definition params (v : bytes) (ps : list bytes) : Prop :=
  v = join 59 ps /\ ps <> [] /\ Forall (fun p => ~ In 59 p) ps.
(** The parameter `by`, with or without a value *)
Definition is_by (p : bytes) : Prop := p = bs "by"%string \/ exists r, p = bs "by="%string ++ r.
(** Its value, up to another equals sign *)
Definition by_value (p s : bytes) : Prop :=
  exists r, p = bs "by="%string ++ s ++ r /\ ~ In 61 s /\ (r = [] \/ exists r', r = 61 :: r').
(** The first `by` of a header is [s]. *)
Definition says_by (v s : bytes) : Prop :=
  exists pre p post, params v (pre ++ p :: post) /\ (forall x, In x pre -> ~ is_by x) /\ by_value p s.
(** According to its headers, a request went through the gateway [i]. *)
Definition went_through (i : id) (hs : headers) : Prop :=
  exists v, In (bs "forwarded"%string, v) hs /\ ConnectSpec.text v /\ says_by v (id_text i).

(** The gateways that a request has passed, the last one last, and its headers now.  In between they
    may change in any way, but the values of `forwarded` stay. *)
Inductive journey : list id -> headers -> Prop :=
| Begins : forall hs, journey [] hs
| Travels : forall gs hs hs', journey gs hs ->
    (forall v, In (bs "forwarded"%string, v) hs -> In (bs "forwarded"%string, v) hs') -> journey gs hs'
| Through : forall gs hs g client a v hs', journey gs hs ->
    plain g -> readable (id_text client) -> dns_name (na_name a) ->
    http_gateway g client a v hs = Passed hs' -> journey (gs ++ [g]) hs'.

(** ** What is sent *)

(** How an address is written in requests: without a port if that is 80, and without a final dot *)
Definition authority_text (a : name_addr) (t : bytes) : Prop :=
  exists n, undotted (na_name a) n /\
    (na_port a = 80 /\ t = n \/ na_port a <> 80 /\ t = n ++ bs ":"%string ++ to_dec (na_port a)).
(** What is written of an identity: no final dot *)
Definition id_written (i : id) (t : bytes) : Prop :=
  match i with Dns n => undotted n t | Uri u => t = u end.
(** What the gateway says about itself, for a client and a target *)
Definition says_itself (local client : id) (a : name_addr) (t : bytes) : Prop :=
  exists l c h, id_written local l /\ id_written client c /\ authority_text a h /\
    t = bs "by="%string ++ l ++ bs ";for="%string ++ c ++ bs ";host="%string ++ h ++ bs ";proto=https"%string.
(** DNS identities are DNS names. *)
Definition proper (i : id) : Prop := match i with Dns n => dns_name n | Uri u => readable u end.
(** HTTP/1 *)
Definition is_http1 (v : Http1Model.version) : Prop := v = Http1Model.Http_10 \/ v = Http1Model.Http_11.
(** The headers [hs'] are [hs] as the gateway changes them. *)
Definition stamped (local client : id) (a : name_addr) (v : Http1Model.version) (hs hs' : headers) : Prop :=
  forall n vs vs', FilterSpec.values n hs vs -> FilterSpec.values n hs' vs' ->
    (n = bs "forwarded"%string -> exists t, says_itself local client a t /\ vs' = vs ++ [t]) /\
    (n = bs "host"%string -> is_http1 v -> exists t, authority_text a t /\ vs' = [t]) /\
    (n <> bs "forwarded"%string -> (n = bs "host"%string -> ~ is_http1 v) -> vs' = vs).

(** Where a profile sends requests: to its service, if it is one's, and else to its endpoint *)
Inductive routes_to (p : profile) : gateway_routes -> Prop :=
| To_service : forall a, p_addr p = Some a -> routes_to p (G_profile a (p_routes p) (p_targets p))
| To_endpoint : forall a md, p_addr p = None -> p_end p = Some (a, md) -> routes_to p (G_endpoint a md).

(** Everything is refused with an internal error. *)
Definition all_fails (p : DiscoverModel.client_policy) : Prop :=
  let fails (r : DiscoverModel.route_policy) :=
    DiscoverModel.rp_filters r = [INTERNAL_ERROR] /\ DiscoverModel.rp_distribution r = DiscoverModel.Empty in
  exists t h1 h2 o, DiscoverModel.cp_protocol p = DiscoverModel.P_detect t h1 h2 (Some o) /\ fails o /\
    DiscoverModel.cp_backends p = [] /\
    (forall req, exists s r, RouteModel.http_find (fst h1) req = Some (s, r) /\ fails r) /\
    (forall req, exists s r, RouteModel.http_find (fst h2) req = Some (s, r) /\ fails r).

(** The version of HTTP of a request, if it is one that is served *)
Definition spoken (v : Http1Model.version) (v' : DiscoverModel.variant) : Prop :=
  is_http1 v /\ v' = DiscoverModel.Http1 \/ v = Http1Model.Http_2 /\ v' = DiscoverModel.H2.

(** The part of a policy that is about opaque traffic *)
Definition opaque_part (p : DiscoverModel.client_policy) (r : option DiscoverModel.route_policy) : Prop :=
  DiscoverModel.cp_protocol p = DiscoverModel.P_opaque r \/
  exists t h1 h2, DiscoverModel.cp_protocol p = DiscoverModel.P_detect t h1 h2 r.
(** The routes at an address for opaque traffic, of a policy *)
Definition at_address (a : name_addr) (w : DiscoverModel.client_policy) (r : option DiscoverModel.route_policy)
    (o : DiscoverModel.opaq_routes) : Prop :=
  o = DiscoverModel.OpaqRoutes (Name a) (DiscoverModel.cp_parent w) r (DiscoverModel.cp_backends w).
(** What opaque traffic for [a] follows, given the profile and the answer about the policy: a profile
    that splits the traffic; else the policy of the control plane; else, without one, the endpoint of
    the profile, or nothing *)
Inductive opaque_leads (a : name_addr) (p : profile) (policy : DiscoverModel.client_policy + DiscoverModel.error)
  : DiscoverModel.following DiscoverModel.opaq_routes -> Prop :=
| Leads_split : forall n init mk,
    DiscoverSpec.splits p -> p_addr p = Some n -> DiscoverSpec.divides n p init ->
    (forall q, exists r, mk q = Some r /\ DiscoverSpec.divides n q r) ->
    opaque_leads a p policy (DiscoverModel.By_profile init mk)
| Leads_policy : forall w r init mk,
    ~ DiscoverSpec.splits p -> policy = inl w -> opaque_part w r -> at_address a w r init ->
    (forall q, ~ DiscoverSpec.is_opaque q -> mk q = None) ->
    (forall q x, opaque_part q x -> exists o, mk q = Some o /\ at_address a q x o) ->
    opaque_leads a p policy (DiscoverModel.By_policy init mk)
| Leads_endpoint : forall e s md o init mk,
    ~ DiscoverSpec.splits p -> policy = inr e -> p_end p = Some (s, md) ->
    DiscoverModel.o_addr init = Name a -> DiscoverModel.o_routes init = Some o ->
    DiscoverSpec.leads_to o (DiscoverModel.Forward s md) ->
    opaque_leads a p policy (DiscoverModel.By_policy init mk)
| Leads_nowhere : forall e o init mk,
    ~ DiscoverSpec.splits p -> policy = inr e -> p_end p = None ->
    DiscoverModel.o_routes init = Some o -> DiscoverModel.rp_filters o = [INTERNAL_ERROR] ->
    DiscoverModel.o_backends init = [] ->
    opaque_leads a p policy (DiscoverModel.By_policy init mk)
| Leads_to_panic : forall w,
    ~ DiscoverSpec.splits p -> policy = inl w -> ~ DiscoverSpec.is_opaque w ->
    opaque_leads a p policy DiscoverModel.Panics.
