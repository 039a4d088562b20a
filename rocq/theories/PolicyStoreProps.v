From Coq Require Import String List Arith NArith Bool.
From Verif Require Import Bytes RouteModel FilterModel AuthzModel AuthzSpec PolicyModel PolicySpec PolicyStoreModel PolicyStoreSpec PolicyStoreProofs.
Import ListNotations.
Open Scope nat_scope.

(** ** C70: the policy of a port *)

(** Whenever a connection has been given the policy of its port, in any history, what it reads is what the
    control plane sent last on the watch it was given, and before that what the configuration says about
    the port: its own policy, or the default, without detection if the port is one of the opaque ones. *)
Theorem C70_policy : forall c h s p w t, config_wf c -> run c h s -> given h p w -> detects_for (default_of c) t ->
  exists x, begins c p x /\ read s w = Some (last (map (received t) (sent w h)) x).
Proof. exact policy_of_port_said. Qed.
Print Assumptions C70_policy.

(** No watch is of two ports. *)
Theorem C70_own : forall d ports op h s p q w, run (Discover d ports op) h s -> given h p w -> given h q w -> p = q.
Proof. exact own_watch. Qed.
Print Assumptions C70_own.

(** Connections to a port share its watch, until the port is idle long enough to be forgotten; *)
Theorem C70_shared : forall c h s a b z p w w', run c h s -> h = a ++ (Get p, Some w) :: b ++ (Get p, Some w') :: z ->
  (forall o, ~ In (Evict p, o) b) -> w = w'.
Proof. exact shared_watch. Qed.
Print Assumptions C70_shared.

(** the ports of the configuration are not forgotten. *)
Theorem C70_kept : forall d ports op h s p w w', run (Discover d ports op) h s -> In p ports -> given h p w -> given h p w' -> w = w'.
Proof. exact kept_watch. Qed.
Print Assumptions C70_kept.

(** The proxy starts exactly when its default policy denies, detects protocols, or is opaque; *)
Theorem C70_starts : forall c, (exists s, build c = Some s) <->
  match default_of c with
  | Deny => True
  | Allow p => exists l, (exists http t, sp_protocol p = Detect http t l) \/ sp_protocol p = Opaque l
  end.
Proof. exact starts_iff. Qed.
Print Assumptions C70_starts.

Definition opaque_server : server_in := ServerIn (Some P_opaque) [] [(bs "name", bs "web")].
Definition example_config : config := Discover (Allow (all_unauthenticated 10)) [80%N] [(25%N, 26%N)].
Definition example_events : list event := [Get 25; Get 80; Receive 2 opaque_server; Get 25; Get 9000; Receive 4 opaque_server; Evict 9000; Get 9000].
Definition example_history : list (event * option nat) :=
  [(Get 25, Some 3); (Get 80, Some 2); (Receive 2 opaque_server, None); (Get 25, Some 3); (Get 9000, Some 4); (Receive 4 opaque_server, None);
   (Evict 9000, None); (Get 9000, Some 5)].
Lemma example_run : exists s, run example_config example_history s /\
  read s 2 = Some (received 10 opaque_server) /\ read s 3 = Some (undetected (all_unauthenticated 10)) /\ read s 5 = Some (all_unauthenticated 10).
Proof.
  destruct (build example_config) as [s0|] eqn:B; [|discriminate].
  assert (G : exists s, go s0 example_events = Some (example_history, s) /\ read s 2 = Some (received 10 opaque_server) /\
    read s 3 = Some (undetected (all_unauthenticated 10)) /\ read s 5 = Some (all_unauthenticated 10)).
  { vm_compute in B. injection B as <-. eexists. split; [vm_compute; reflexivity|]. repeat split; vm_compute; reflexivity. }
  destruct G as (s & G & R). exists s. split; [|exact R]. change example_history with ([] ++ example_history). eapply go_run; [constructor; exact B|exact G].
Qed.
(** A port of the configuration, an opaque one, and one that was forgotten *)
Example C70_case : config_wf example_config /\ given example_history 80 2 /\ sent 2 example_history = [opaque_server] /\
  exists s, run example_config example_history s /\ read s 2 = Some (received 10 opaque_server) /\
  begins example_config 25 (undetected (all_unauthenticated 10)).
Proof.
  split; [repeat constructor; intros []|]. split; [right; left; reflexivity|]. split; [reflexivity|].
  destruct example_run as (s & R & E & _). exists s. split; [exact R|]. split; [exact E|].
  apply b_opaque. exists 25%N, 26%N. split; [left; reflexivity|]. split; intros H; discriminate.
Qed.

(** What the control plane said about a port that is not of the configuration is forgotten with the port: its
    next connection is again governed by the default policy, until the control plane answers. *)
Theorem C70_forgets_refuted : ~ forall c h s h' p w w', config_wf c -> run c h s -> h = h' ++ [(Get p, Some w')] ->
  given h' p w -> sent w h' <> [] -> sent w' h <> [].
Proof.
  intros H. destruct example_run as (s & R & _).
  apply (H example_config example_history s (removelast example_history) 9000%N 4 5); try reflexivity; try exact R.
  - repeat constructor. intros [].
  - right. right. right. right. left. reflexivity.
  - discriminate.
Qed.
Print Assumptions C70_forgets_refuted.

(** ** C71: whom the default policies admit *)

(** The names that are accepted *)
Theorem C71_known : forall s nets timeout, (exists d, parse_default_policy s nets timeout = Some d) <-> known s nets.
Proof. exact known_iff. Qed.
Print Assumptions C71_known.

(** Exactly those clients that its name says are admitted by a default policy: for connections, *)
Theorem C71_connections : forall s nets timeout d client t, parse_default_policy s nets timeout = Some d ->
  (forall n, In n nets -> net_wf n) -> ip_wf client ->
  ((exists a, check_authorized (sp_protocol (from_default d)) client t = Some a) <-> who s nets client t).
Proof. exact default_connections. Qed.
Print Assumptions C71_connections.

(** and for requests, whatever they are, which go through as they are. *)
Theorem C71_requests : forall s nets timeout d client t, parse_default_policy s nets timeout = Some d -> s <> bs "deny" ->
  (forall n, In n nets -> net_wf n) -> ip_wf client -> forall pq draw req u limit,
  (who s nets client t -> fst (call pq draw (sp_protocol (from_default d)) client t req u limit) = if limit then R_forward (rq_headers req) else R_limited) /\
  (~ who s nets client t -> fst (call pq draw (sp_protocol (from_default d)) client t req u limit) = R_unauthorized).
Proof. exact default_requests. Qed.
Print Assumptions C71_requests.

Example C71_case : known (bs "cluster-authenticated") [Net4 (10 * 2 ^ 24) 8] /\
  who (bs "cluster-authenticated") [Net4 (10 * 2 ^ 24) 8] (V4 (10 * 2 ^ 24 + 7)) (Established (Some (Dns (bs "web.ns")))) /\
  ~ who (bs "cluster-authenticated") [Net4 (10 * 2 ^ 24) 8] (V4 (10 * 2 ^ 24 + 7)) No_tls.
Proof.
  split; [right; split; [discriminate|left; reflexivity]|]. split.
  - do 4 right. split; [reflexivity|]. split; [|eauto]. eexists. split; [left; reflexivity|]. intros k Hk.
    assert (C : In k (map N.of_nat (seq 0 8))) by (apply in_map_iff; exists (N.to_nat k); split; [apply N2Nat.id|apply in_seq; split; [apply Nat.le_0_l|]]; change 8 with (N.to_nat 8); cbn [plus]; apply (proj1 (Nat.compare_lt_iff _ _)); rewrite <- N2Nat.inj_compare; exact Hk).
    repeat (destruct C as [<-|C]; [reflexivity|]). destruct C.
  - intros W. unfold who in W. repeat (destruct W as [W|W]; try discriminate W; try (destruct W as [W' W]; try discriminate W')).
    destruct W as [_ (n & W)]. discriminate.
Qed.

(** Marking a port opaque does not change who may connect. *)
Theorem C71_opaque : forall d o client t, make_opaque d = Some o ->
  check_authorized (sp_protocol (from_default o)) client t = check_authorized (sp_protocol (from_default d)) client t /\
  exists l, sp_protocol (from_default o) = Opaque l.
Proof. exact opaque_same. Qed.
Print Assumptions C71_opaque.

(** What a server that makes no sense becomes admits nobody: no connection, and no request. *)
Theorem C71_invalid : forall timeout client t,
  check_authorized (sp_protocol (invalid timeout)) client t = None /\
  forall pq draw req u limit, call pq draw (sp_protocol (invalid timeout)) client t req u limit = (R_unauthorized, false).
Proof. exact invalid_denies. Qed.
Print Assumptions C71_invalid.

(** It does not report an internal error on each request, as it should. *)
Theorem C71_internal_refuted : ~ exists timeout client t pq draw req u limit,
  fst (call pq draw (sp_protocol (invalid timeout)) client t req u limit) = R_invalid_policy.
Proof. intros (timeout & client & t & pq & draw & req & u & limit & H). destruct (invalid_denies timeout client t) as [_ E]. rewrite E in H. discriminate. Qed.
Print Assumptions C71_internal_refuted.

(** "all-authenticated" does not admit every authenticated client: those with a SPIFFE identity are refused. *)
Theorem C71_authenticated_refuted : ~ forall timeout client i, ip_wf client ->
  exists a, check_authorized (sp_protocol (all_authenticated timeout)) client (Established (Some i)) = Some a.
Proof. intros H. destruct (H 10%N (V4 1) (Uri (bs "spiffe://a/b")) eq_refl) as (a & E). discriminate. Qed.
Print Assumptions C71_authenticated_refuted.

(** "audit" is about no network, but is refused unless the networks of the cluster are configured. *)
Theorem C71_audit_refuted : ~ forall nets timeout, exists d, parse_default_policy (bs "audit") nets timeout = Some d.
Proof. intros H. destruct (H [] 10%N) as (d & E). discriminate. Qed.
Print Assumptions C71_audit_refuted.

(** ** C72: the names of resources *)

(** A resource is the same if its group, kind and name are, and then so is its hash. *)
Theorem C72_same : forall a b, meta_eqb a b = true <-> group a = group b /\ kind a = kind b /\ name a = name b.
Proof. exact same_iff. Qed.
Print Assumptions C72_same.
Theorem C72_hash : forall a b, hashed a = hashed b <-> meta_eqb a b = true.
Proof. exact hashed_iff. Qed.
Print Assumptions C72_hash.

(** What the labels of a resource mean, of both the older control planes and of the present ones *)
Theorem C72_labels : forall l dg dk m, distinct l -> (try_new_with_default l dg dk = Some m <-> means l dg dk m).
Proof. exact means_iff. Qed.
Print Assumptions C72_labels.
(** Only a name is needed. *)
Theorem C72_named : forall l dg dk, (exists m, try_new_with_default l dg dk = Some m) <-> exists v, has l (bs "name") v.
Proof. exact try_new_some. Qed.
Print Assumptions C72_named.
(** A resource is read back from the labels that describe it, as a default if it looks like one. *)
Theorem C72_round : forall m dg dk, exists m',
  try_new_with_default [(bs "group", group m); (bs "kind", kind m); (bs "name", name m)] dg dk = Some m' /\
  meta_eqb m' m = true /\ (meta_eqb m (M_default (name m)) = true -> m' = M_default (name m)).
Proof. exact round. Qed.
Print Assumptions C72_round.
Example C72_case : distinct [(bs "name", bs "default:deny"); (bs "group", bs "g")] /\
  means [(bs "name", bs "default:deny"); (bs "group", bs "g")] (bs "policy.linkerd.io") (bs "server") (M_default (bs "deny")) /\
  means [(bs "name", bs "route:web")] (bs "policy.linkerd.io") (bs "server") (M_resource (bs "policy.linkerd.io") (bs "route") (bs "web")).
Proof.
  assert (D : distinct [(bs "name", bs "default:deny"); (bs "group", bs "g")]).
  { repeat constructor; [intros [H|[]]; discriminate H|intros []]. }
  split; [exact D|]. split; [apply C72_labels; [exact D|reflexivity]|]. apply C72_labels; [repeat constructor; intros []|reflexivity].
Qed.

(** Two resources that are the same can differ in whether they are the auditing policy. *)
Theorem C72_audit_refuted : ~ forall a b, meta_eqb a b = true -> is_audit a = is_audit b.
Proof. intros H. specialize (H (M_default (bs "audit")) (M_resource [] (bs "default") (bs "audit")) eq_refl). discriminate. Qed.
Print Assumptions C72_audit_refuted.

(** ** C73: the servers that the control plane sends *)

(** A server is accepted as a whole or not at all. *)
Theorem C73_accepted : forall s, (exists p, try_server s = Some p) <-> server_ok s.
Proof. exact accepted_iff. Qed.
Print Assumptions C73_accepted.

(** One that is refused becomes the policy that admits nobody (C71_invalid). *)
Theorem C73_refused : forall t s, (server_ok s -> try_server s = Some (received t s)) /\ (~ server_ok s -> received t s = invalid t).
Proof. exact received_is. Qed.
Print Assumptions C73_refused.

(** What is accepted is enforced as it is: the same protocol, routes in the same order with the same hosts,
    matches and filters, a filter that is not known becoming a failure, and each with those clients that the
    route, or the server, or being on the same host, admits. *)
Theorem C73_becomes : forall s p, try_server s = Some p ->
  exists i, si_protocol s = Some i /\ becomes (si_authz s) i (sp_protocol p) /\
  (distinct (si_labels s) -> means (si_labels s) (bs "policy.linkerd.io") (bs "server") (sp_meta p)).
Proof. exact accepted_becomes. Qed.
Print Assumptions C73_becomes.

(** So connections are admitted exactly from the same host and from those that the server admits, if it is one
    that is not about requests; *)
Theorem C73_connections : forall s p i client t, try_server s = Some p -> si_protocol s = Some i -> server_nets_wf s -> ip_wf client ->
  ((exists a, check_authorized (sp_protocol p) client t = Some a) <->
   by_connection i /\ (loopback client \/ admitted (si_authz s) client t)).
Proof. exact server_connections. Qed.
Print Assumptions C73_connections.

(** requests from the same host, *)
Theorem C73_loopback : forall s p client t pq draw req u limit, try_server s = Some p -> server_nets_wf s -> ip_wf client -> loopback client ->
  fst (call pq draw (sp_protocol p) client t req u limit) <> R_unauthorized.
Proof. exact server_loopback. Qed.
Print Assumptions C73_loopback.
(** or of those whom the server admits, are not refused; *)
Theorem C73_admits : forall s p client t pq draw req u limit, try_server s = Some p -> server_nets_wf s -> ip_wf client -> admitted (si_authz s) client t ->
  fst (call pq draw (sp_protocol p) client t req u limit) <> R_unauthorized.
Proof. exact server_admits. Qed.
Print Assumptions C73_admits.
(** and those that reach the application were admitted by the server, a route, or by being on the same host. *)
Theorem C73_forwards : forall s p i client t pq draw req u limit hs, try_server s = Some p -> si_protocol s = Some i -> server_nets_wf s -> ip_wf client ->
  fst (call pq draw (sp_protocol p) client t req u limit) = R_forward hs ->
  loopback client \/ admitted (si_authz s) client t \/ exists l, In l (route_authz i) /\ admitted l client t.
Proof. exact server_forwards. Qed.
Print Assumptions C73_forwards.

Definition mesh_only : authz_in := AuthzIn (ApiAuthz [ApiNet (Some (Net4 0 0)) []] (Some (P_mesh (Some C_unauthenticated)))) [] (Some (Some (K_default (bs "mesh")))).
Definition http_server : server_in :=
  ServerIn (Some (P_http2 [RouteIn [] [mesh_only] [RuleIn [] [A_unknown]] (Some (Some (K_default (bs "route"))))] true)) [] [(bs "name", bs "web")].
Example C73_case : server_ok http_server /\ server_nets_wf http_server /\
  exists p, try_server http_server = Some p /\ forall pq draw req u,
    fst (call pq draw (sp_protocol p) (V4 1) No_tls req u true) = R_unauthorized /\
    fst (call pq draw (sp_protocol p) (V4 1) (Established None) req u true) = R_invalid_policy.
Proof.
  split; [apply C73_accepted; eexists; reflexivity|]. split.
  - split; [intros a n []|]. intros p l Ep. injection Ep as <-. intros [<-|[]] a n [<-|[]] [<-|[]]. split; [intros m Em; injection Em as <-; split; [reflexivity|discriminate]|intros m []].
  - eexists. split; [reflexivity|]. intros pq draw req u. split; reflexivity.
Qed.
(** Without its name it is refused, and nobody is admitted. *)
Example C73_case_refused : try_server (ServerIn (si_protocol http_server) [] []) = None /\ ~ server_ok (ServerIn (si_protocol http_server) [] []).
Proof. split; [reflexivity|]. intros (_ & _ & v & []). Qed.
