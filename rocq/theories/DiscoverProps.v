(** What the outbound proxy discovers about destinations and what it then does with connections
    (C79 to C83). *)
From Coq Require Import String List Arith NArith Bool.
From Verif Require Import Bytes NameModel EndpointModel DnsModel ProfileModel DiscoverModel DiscoverSpec DiscoverProofs.
From Verif Require RouteModel FilterModel Http1Model Http1Spec HintSpec.
Import ListNotations.
Open Scope N_scope.

(** ** C79: what is discovered *)

(** The answers of the lookups decide: a policy of the control plane is used whatever becomes of the
    profile; without one there is a substitute if the controller says that it does not know of the
    destination or of policies, and else the connection fails. *)
Theorem C79_discovered : forall P W (profile : option P + error) (policy : W + error) r,
  resolved profile policy = r <-> discovered profile policy r.
Proof. exact @resolved_iff. Qed.
Print Assumptions C79_discovered.

(** In ingress mode there must be a policy or a profile. *)
Theorem C79_ingress : forall P W (profile : option P + error) (policy : W + error) r,
  ingress_resolved profile policy = r <->
  (r = None /\ discovered profile policy (Some (None, From_nothing))) \/
  (r <> Some (None, From_nothing) /\ discovered profile policy r).
Proof. exact @ingress_iff. Qed.
Print Assumptions C79_ingress.

(** A profile that the control plane refuses to give is as good as none; other errors remain. *)
Theorem C79_rejected : forall P (r : option P + error) x,
  recover_default r = x <->
  (exists w, r = inl w /\ x = inl w) \/ (exists e, r = inr e /\ (refused e /\ x = inl None \/ ~ refused e /\ x = inr e)).
Proof. exact @recovered_iff. Qed.
Print Assumptions C79_rejected.

(** Where discovery is not allowed, no profile is used, whatever the control plane has. *)
Theorem C79_not_allowed : forall P W (lookup : option P + error) (policy : W + error) r s,
  resolved (with_allowlist false lookup) policy = Some (r, s) -> r = None /\ s <> From_profile.
Proof. exact @not_allowed. Qed.
Print Assumptions C79_not_allowed.

(** With neither, everything goes where the client wanted it to go, without TLS. *)
Theorem C79_original : forall c orig_dst,
  all_to (origdst_policy c orig_dst) (c_timeout c) (Forward orig_dst default_metadata) /\
  default_metadata = Metadata [] 1 Unknown None None None h2_default None.
Proof. exact (fun c o => conj (to_orig_dst c o) eq_refl). Qed.
Print Assumptions C79_original.

(** With a profile alone, everything goes to the endpoint it names, with what it says about it, or
    else where the client wanted it to go; and that follows the profile, whatever it becomes. *)
Theorem C79_endpoint : forall c orig_dst p es,
  ~ In Dropped es ->
  all_to (f_value (follow (fun p => Some (sidecar_synthesis c orig_dst p)) p (sidecar_synthesis c orig_dst p) (es ++ [Polled])))
    (c_timeout c)
    (match p_end (holds p es) with Some (a, md) => Forward a md | None => Forward orig_dst default_metadata end).
Proof.
  exact (fun c o p es D => eq_ind_r (fun x => all_to x _ _) (to_endpoint c o (holds p es))
           (synthesized_follows (sidecar_synthesis c o) p es D)).
Qed.
Print Assumptions C79_endpoint.

(** In ingress mode: to the endpoint of the profile, or else balanced over its service, or else nowhere. *)
Theorem C79_ingress_profile : forall c p,
  (forall a md, p_end p = Some (a, md) -> all_to (ingress_synthesis c p) (c_timeout c) (Forward a md)) /\
  (forall n, p_end p = None -> p_addr p = Some n ->
     all_to (ingress_synthesis c p) (c_timeout c) (Balance (c_load c) (name_addr_to_string n))) /\
  (p_end p = None -> p_addr p = None -> all_nowhere (ingress_synthesis c p)).
Proof. exact in_ingress. Qed.
Print Assumptions C79_ingress_profile.

(** A policy controller that is asked for something it does not know, and a profile that cannot be had;
    one that is not there at all. *)
Example C79_case :
  discovered (P := nat) (W := nat) (inr [Other_error]) (inr [Other_error; Status 5]) (Some (None, From_nothing)) /\
  discovered (P := nat) (W := nat) (inl (Some 1%nat)) (inr [Status 12; Status 14]) (Some (Some 1%nat, From_profile)) /\
  discovered (P := nat) (W := nat) (inl (Some 1%nat)) (inr [Status 14; Status 5]) None.
Proof. repeat split; apply resolved_iff; reflexivity. Qed.

(** ** C80: watches that follow watches *)

(** Once the task has run, what the followers see is made of what the source holds, unless that gives
    nothing: whatever was published, skipped or closed before. *)
Theorem C80_current : forall A B (mk : A -> option B) a init es b,
  mk a = Some init -> ~ In Dropped es -> mk (holds a es) = Some b ->
  f_value (follow mk a init (es ++ [Polled])) = b.
Proof. exact @follows. Qed.
Print Assumptions C80_current.

(** At any time the followers see what some value gives that the source held, and they never see
    anything older than what they have seen. *)
Theorem C80_in_order : forall A B (mk : A -> option B) a init es es',
  mk a = Some init ->
  exists i j, (i <= j)%nat /\ gives mk a es i (f_value (follow mk a init es)) /\
    gives mk a (es ++ es') j (f_value (follow mk a init (es ++ es'))).
Proof. exact @in_order. Qed.
Print Assumptions C80_in_order.

(** Values that give nothing are ignored: the last one that gave something stays. *)
Theorem C80_ignored : forall A B (mk : A -> option B) a init es es',
  mk a = Some init -> f_unseen (follow mk a init es) = false ->
  (forall x, In (Published x) es' -> mk x = None) ->
  f_value (follow mk a init (es ++ es')) = f_value (follow mk a init es).
Proof. exact @ignored. Qed.
Print Assumptions C80_ignored.

(** The last value that is published before the source closes is seen, too. *)
Example C80_case :
  f_value (follow (fun n => if n =? 0 then None else Some (n * 10)) 1 10
             ([Published 2; Published 3; Polled; Published 0; Polled; Published 4; Closed] ++ [Polled])) = 40 /\
  f_value (follow (fun n => if n =? 0 then None else Some (n * 10)) 1 10
             [Published 2; Published 3; Polled; Published 0; Polled]) = 30.
Proof. split; reflexivity. Qed.

(** ** C81: what serves a connection *)

(** A connection to a destination whose profile says that it is opaque is never looked into. *)
Theorem C81_opaque : forall orig_dst t0 t1 t2 d,
  (exists f, serve orig_dst t0 t1 t2 d = Opaq_stack f) <->
  says_opaque (r_profile t0) \/ (exists r, cp_protocol (r_policy t0) = P_opaque r) \/
  (exists t h1 h2 r, cp_protocol (r_policy t0) = P_detect t h1 h2 r) /\ d = None.
Proof. exact opaque_iff. Qed.
Print Assumptions C81_opaque.

(** One is taken for HTTP if the policy says so, or if the policy leaves it open and it is. *)
Theorem C81_http : forall orig_dst t0 t1 t2 d v,
  (exists f, serve orig_dst t0 t1 t2 d = Http_stack v f) <->
  ~ says_opaque (r_profile t0) /\ taken_for_http (r_policy t0) d v.
Proof.
  exact (fun o t0 t1 t2 d v => conj (fun E => match E with ex_intro _ f H => http_only_if o t0 t1 t2 d v f H end)
           (fun E => http_if o t0 t1 t2 d v (proj1 E) (proj2 E))).
Qed.
Print Assumptions C81_http.

(** One is taken for TLS if the policy says so. *)
Theorem C81_tls : forall orig_dst t0 t1 t2 d,
  (exists f, serve orig_dst t0 t1 t2 d = Tls_stack f) <->
  ~ says_opaque (r_profile t0) /\ is_tls (r_policy t0).
Proof. exact tls_iff. Qed.
Print Assumptions C81_tls.

(** What the connection carries makes no difference unless the policy leaves it open. *)
Theorem C81_not_looked_at : forall orig_dst t0 t1 t2 d d',
  (forall t h1 h2 p, cp_protocol (r_policy t0) <> P_detect t h1 h2 p) \/ says_opaque (r_profile t0) ->
  serve orig_dst t0 t1 t2 d = serve orig_dst t0 t1 t2 d'.
Proof. exact not_looked_at. Qed.
Print Assumptions C81_not_looked_at.

(** A profile with routes or targets replaces the policy of HTTP requests, and it does so for as long
    as the stack lives, under the same address, even when it has no routes or targets any more. *)
Theorem C81_profile_stays : forall orig_dst t0 t1 t2 d v f s p a,
  serve orig_dst t0 t1 t2 d = Http_stack v f ->
  r_profile t1 = Some s -> overrides s a -> r_profile t2 = Some p ->
  exists init mk, f = By_profile init mk /\
    forall es, ~ In Dropped es ->
      f_value (follow mk p init (es ++ [Polled])) =
        R_profile a (p_routes (holds p es)) (p_targets (holds p es)).
Proof. exact profile_stays. Qed.
Print Assumptions C81_profile_stays.

(** Otherwise the policy decides, for as long as the stack lives; when it stops being one for HTTP,
    the last routes stay. *)
Theorem C81_policy_stays : forall orig_dst t0 t1 t2 d v f r,
  serve orig_dst t0 t1 t2 d = Http_stack v f ->
  (forall s a, r_profile t1 = Some s -> ~ overrides s a) -> stands_for (Socket orig_dst) (r_policy t2) v r ->
  exists mk, f = By_policy r mk /\
    (forall es r', ~ In Dropped es -> stands_for (Socket orig_dst) (holds (r_policy t2) es) v r' ->
      f_value (follow mk (r_policy t2) r (es ++ [Polled])) = r') /\
    (forall es es', f_unseen (follow mk (r_policy t2) r es) = false ->
      (forall q, In (Published q) es' -> ~ is_http q) ->
      f_value (follow mk (r_policy t2) r (es ++ es')) = f_value (follow mk (r_policy t2) r es)).
Proof. exact policy_stays. Qed.
Print Assumptions C81_policy_stays.

(** The same of TLS *)
Theorem C81_tls_stays : forall orig_dst t0 t1 t2 d f r,
  serve orig_dst t0 t1 t2 d = Tls_stack f -> cp_protocol (r_policy t2) = P_tls r ->
  exists init mk, f = By_policy init mk /\ tr_routes init = r /\
    (forall es r', ~ In Dropped es -> cp_protocol (holds (r_policy t2) es) = P_tls r' ->
      f_value (follow mk (r_policy t2) init (es ++ [Polled])) =
        TlsRoutes (Socket orig_dst) (cp_parent (holds (r_policy t2) es)) r' (cp_backends (holds (r_policy t2) es))) /\
    (forall es es', f_unseen (follow mk (r_policy t2) init es) = false ->
      (forall q, In (Published q) es' -> ~ is_tls q) ->
      f_value (follow mk (r_policy t2) init (es ++ es')) = f_value (follow mk (r_policy t2) init es)).
Proof. exact tls_stays. Qed.
Print Assumptions C81_tls_stays.

(** The proxy panics, and drops the connection, in exactly these cases: the policy was for HTTP, or for
    TLS, when the protocol was decided, and has changed when the stack is built; or the connection is
    taken to be opaque and the policy is not for opaque traffic, which the profile does not split. *)
Theorem C81_breaks : forall orig_dst t0 t1 t2 d,
  both_ways t1 t2 ->
  (breaks (serve orig_dst t0 t1 t2 d) <->
   (~ says_opaque (r_profile t0) /\ (exists v, taken_for_http (r_policy t0) d v) /\
      (forall s a, r_profile t1 = Some s -> ~ overrides s a) /\ ~ is_http (r_policy t2)) \/
   ((says_opaque (r_profile t0) \/ (exists r, cp_protocol (r_policy t0) = P_opaque r) \/
      (exists t h1 h2 r, cp_protocol (r_policy t0) = P_detect t h1 h2 r) /\ d = None) /\
      (forall p, r_profile t2 = Some p -> ~ splits p) /\ ~ is_opaque (r_policy t2)) \/
   (~ says_opaque (r_profile t0) /\ is_tls (r_policy t0) /\ ~ is_tls (r_policy t2))).
Proof. exact breaks_iff. Qed.
Print Assumptions C81_breaks.

(** If nothing changes meanwhile, it does so in one case only. *)
Theorem C81_breaks_stable : forall orig_dst t d,
  breaks (serve orig_dst t t t d) <->
  says_opaque (r_profile t) /\ (forall p, r_profile t = Some p -> ~ splits p) /\ ~ is_opaque (r_policy t).
Proof. exact stable_iff. Qed.
Print Assumptions C81_breaks_stable.

(** A profile that says that a destination is opaque *)
Definition opaque_port : profile := Profile (Some (NameAddr (bs "db.prod.svc.cluster.local"%string) 3306)) [] [] true None.
(** A policy for HTTP/1 *)
Definition http1_policy : client_policy := ClientPolicy UNKNOWN_META (P_http1 ([], None)) [].
(** An address *)
Definition somewhere : sock := Sock [10; 0; 0; 1] 3306.

(** "Every connection is served": not if the profile of the destination says that it is opaque while
    its policy is for HTTP. *)
Theorem C81_disagreement_refuted : ~ forall orig_dst t d, ~ breaks (serve orig_dst t t t d).
Proof. intros F. apply (F somewhere (Reading (Some opaque_port) http1_policy) None). reflexivity. Qed.
Print Assumptions C81_disagreement_refuted.

(** Nor if the policy, which left it open, becomes one for opaque traffic while the client is waited for. *)
Theorem C81_changed_refuted : ~ forall orig_dst t0 t1 d,
  r_profile t0 = r_profile t1 -> is_opaque (r_policy t0) -> is_opaque (r_policy t1) -> ~ breaks (serve orig_dst t0 t1 t1 d).
Proof.
  intros F. apply (F somewhere (Reading None (origdst_policy (Config 0 (Queue 1 1) 0) somewhere))
                     (Reading None (ClientPolicy UNKNOWN_META (P_opaque None) [])) (Some Http1));
    reflexivity || exact I.
Qed.
Print Assumptions C81_changed_refuted.

(** A profile with targets, and later without *)
Definition split_profile : profile :=
  Profile (Some (NameAddr (bs "web.prod.svc.cluster.local"%string) 80)) []
    [Target (NameAddr (bs "web-a.prod.svc.cluster.local"%string) 80) 9;
     Target (NameAddr (bs "web-b.prod.svc.cluster.local"%string) 80) 1] false None.
Definition unsplit_profile : profile :=
  Profile (Some (NameAddr (bs "web.prod.svc.cluster.local"%string) 80)) [] [] false None.
Example C81_case :
  (exists f, serve somewhere (Reading (Some split_profile) http1_policy) (Reading (Some split_profile) http1_policy)
               (Reading (Some split_profile) http1_policy) None = Http_stack Http1 f) /\
  overrides split_profile (NameAddr (bs "web.prod.svc.cluster.local") 80) /\
  f_value (follow (fun p => Some (mk_profile_routes (NameAddr (bs "web.prod.svc.cluster.local") 80) p)) split_profile
    (mk_profile_routes (NameAddr (bs "web.prod.svc.cluster.local") 80) split_profile)
    ([Published unsplit_profile] ++ [Polled])) = R_profile (NameAddr (bs "web.prod.svc.cluster.local") 80) [] [] /\
  stands_for (Socket somewhere) http1_policy H2 (R_http (Socket somewhere) UNKNOWN_META [] [] None) /\
  both_ways (Reading None http1_policy) (Reading None http1_policy).
Proof.
  split; [eexists; reflexivity|]. split; [split; [reflexivity|right; discriminate]|].
  split; [reflexivity|]. split; [apply routes_iff; reflexivity|split; intros _; reflexivity].
Qed.

(** ** C82: opaque traffic *)

(** Opaque traffic to a service that a profile splits is divided among its targets by weight, for as
    long as the stack lives. *)
Theorem C82_divided : forall a p n policy,
  p_addr p = Some n -> p_targets p <> [] ->
  exists init mk, routes_from_discovery a (Some p) policy = By_profile init mk /\ mk p = Some init /\
    forall q, exists r, mk q = Some r /\ divides n q r.
Proof. exact opaque_by_profile. Qed.
Print Assumptions C82_divided.

(** Otherwise the policy's routes are used, under the name of the service if the profile has one;
    policies that are not for opaque traffic are ignored later on. *)
Theorem C82_policy : forall orig_dst profile policy r b,
  (forall p, profile = Some p -> ~ splits p) ->
  (cp_protocol policy = P_opaque r \/ exists t h1 h2, cp_protocol policy = P_detect t h1 h2 r) ->
  b = match profile with Some p => match p_addr p with Some n => Name n | None => Socket orig_dst end | None => Socket orig_dst end ->
  exists mk, routes_from_discovery (Socket orig_dst) profile policy =
    By_policy (OpaqRoutes b (cp_parent policy) r (cp_backends policy)) mk /\
    (forall q, ~ is_opaque q -> mk q = None) /\
    (forall q x, cp_protocol q = P_opaque x \/ (exists t h1 h2, cp_protocol q = P_detect t h1 h2 x) ->
       mk q = Some (OpaqRoutes b (cp_parent q) x (cp_backends q))).
Proof. exact opaque_by_policy. Qed.
Print Assumptions C82_policy.

(** The service that metrics show for a name is the one that the name says, in any case of letters;
    other names are shown as unknown. *)
Theorem C82_service : forall a g k ns n s p,
  service_meta a = Some (Resource g k ns n s p) <->
  service_name (na_name a) n ns /\ na_port a <> 0 /\ p = Some (na_port a) /\
  g = bs "core" /\ k = bs "Service" /\ s = [].
Proof. exact service_meta_iff. Qed.
Print Assumptions C82_service.

Example C82_case :
  splits split_profile /\
  service_meta (NameAddr (bs "web-a.prod.svc.cluster.local") 80) =
    Some (Resource (bs "core") (bs "Service") (bs "prod") (bs "web-a") [] (Some 80)) /\
  service_meta (NameAddr (bs "web-a.prod.service") 80) = None.
Proof. split; [split; discriminate|split; reflexivity]. Qed.

(** ** C83: ingress mode *)

(** A request is for the name that its first `l5d-dst-override` gives, at port 80 if it gives none. *)
Theorem C83_named : forall parse orig_dst hs na,
  select_target parse orig_dst hs = Some (Named na) <->
  exists v a h, Http1Spec.first_of (bs "l5d-dst-override") hs v /\ HintSpec.printable v /\ parse v = Some a /\
    FilterModel.a_host a = h /\ h <> [] /\ name_from_str h = Some (na_name na) /\
    na_port na = match FilterModel.a_port a with Some p => p | None => 80 end.
Proof. exact by_name_iff. Qed.
Print Assumptions C83_named.

(** One without it, or one whose header is no authority, is for where the connection was going. *)
Theorem C83_original : forall parse orig_dst hs s,
  select_target parse orig_dst hs = Some (Orig s) <->
  s = orig_dst /\ ~ exists v a, Http1Spec.first_of (bs "l5d-dst-override") hs v /\ HintSpec.printable v /\ parse v = Some a.
Proof. exact by_orig_iff. Qed.
Print Assumptions C83_original.

(** "A header that is no host:port is refused": a malformed one is as good as none. *)
Theorem C83_malformed_refuted : ~ forall parse orig_dst hs v,
  Http1Spec.first_of (bs "l5d-dst-override") hs v -> parse v = None -> select_target parse orig_dst hs = None.
Proof.
  intros F. pose proof (F (fun _ => None) somewhere [(bs "l5d-dst-override", bs "a b")] (bs "a b")) as G.
  discriminate G; [|reflexivity]. exists [], []. split; [reflexivity|]. intros [].
Qed.
Print Assumptions C83_malformed_refuted.

(** A request is refused if there is neither a profile that overrides the policy nor a policy for HTTP. *)
Theorem C83_required : forall t v t1 t2,
  both_ways t1 t2 ->
  (ingress_http t v (r_profile t1) (r_profile t2) (r_policy t2) = Required <->
   (forall s a, r_profile t1 = Some s -> ~ overrides s a) /\ ~ is_http (r_policy t2)).
Proof. exact ingress_required. Qed.
Print Assumptions C83_required.

(** One that is served is served by the profile, under its service's name, or by the policy, under the
    name that the request gave. *)
Theorem C83_served : forall t v seen profile policy a f,
  ingress_http t v seen profile policy = Served a f ->
  (exists s p n, seen = Some s /\ profile = Some p /\ overrides s n /\ a = Name n /\
     f = By_profile (R_profile n (p_routes p) (p_targets p)) (fun p => Some (R_profile n (p_routes p) (p_targets p)))) \/
  (a = match t with Named n => Name n | Orig s => Socket s end /\
   exists r, stands_for a policy v r /\ f = By_policy r (mk_policy_routes a v)).
Proof. exact ingress_served. Qed.
Print Assumptions C83_served.

(** A connection that is not HTTP breaks the proxy exactly if the policy of its destination is not for
    opaque traffic, and the profile does not split that. *)
Theorem C83_not_http : forall orig_dst profile policy,
  ingress_opaque orig_dst profile policy = Panics <->
  (forall p, profile = Some p -> ~ splits p) /\ ~ is_opaque policy.
Proof. exact (fun o => opaque_panics (Socket o)). Qed.
Print Assumptions C83_not_http.

(** "A connection that is not HTTP falls back to its original destination": not if that has a policy
    for HTTP. *)
Theorem C83_fallback_refuted : ~ forall orig_dst profile policy, ingress_opaque orig_dst profile policy <> Panics.
Proof. intros F. apply (F somewhere None http1_policy). reflexivity. Qed.
Print Assumptions C83_fallback_refuted.

(** A parser that knows one authority *)
Definition knows (v : bytes) : option FilterModel.authority :=
  if beq v (bs "web.prod.svc"%string) then Some (FilterModel.Authority (bs "web.prod.svc"%string) None) else None.
Example C83_case :
  select_target knows somewhere [(bs "host", bs "x"); (bs "l5d-dst-override", bs "web.prod.svc")] =
    Some (Named (NameAddr (bs "web.prod.svc") 80)) /\
  ingress_http (Named (NameAddr (bs "web.prod.svc") 80)) H2 None None (ClientPolicy UNKNOWN_META (P_tls []) []) = Required /\
  exists f, ingress_http (Named (NameAddr (bs "web.prod.svc") 80)) H2 None None http1_policy =
    Served (Name (NameAddr (bs "web.prod.svc") 80)) f.
Proof. split; [reflexivity|]. split; [reflexivity|]. eexists. reflexivity. Qed.
