(** What C70 to C73 say *)
From Coq Require Import String List Arith NArith Bool.
From Verif Require Import Bytes RouteModel FilterModel AuthzModel AuthzSpec PolicyModel PolicySpec PolicyStoreModel.
Import ListNotations.

(** ** C70 *)

(** A port is one of those for which protocols are not detected. *)
Definition opaque_port (ranges : list (N * N)) (port : N) : Prop :=
  exists lo hi, In (lo, hi) ranges /\ (lo <= port <= hi)%N.
(** A policy as it is, but without the detection of protocols *)
Definition undetected (p : server_policy) : server_policy :=
  ServerPolicy (Opaque (tcp_authorizations (sp_protocol p))) (sp_meta p).

(** The policy of a port before the control plane says anything *)
Inductive begins : config -> N -> server_policy -> Prop :=
| b_default : forall d ports op p, ~ opaque_port op p -> begins (Discover d ports op) p (from_default d)
| b_opaque : forall d ports op p, opaque_port op p -> begins (Discover d ports op) p (undetected (from_default d))
| b_fixed : forall d ports op p x, In (p, x) ports -> begins (Fixed d ports op) p x
| b_fixed_default : forall d ports op p,
    ~ In p (map fst ports) -> ~ opaque_port op p -> begins (Fixed d ports op) p (from_default d)
| b_fixed_opaque : forall d ports op p,
    ~ In p (map fst ports) -> opaque_port op p -> begins (Fixed d ports op) p (undetected (from_default d)).

(** No port has two policies in the configuration. *)
Definition config_wf (c : config) : Prop :=
  match c with Discover _ ports _ => NoDup ports | Fixed _ ports _ => NoDup (map fst ports) end.
Definition default_of (c : config) : default_policy := match c with Discover d _ _ | Fixed d _ _ => d end.

(** How long protocols are detected for when the control plane sent something that is not understood: as long as the default
    policy says, or ten seconds (in nanoseconds) if it says nothing *)
Inductive detects_for : default_policy -> N -> Prop :=
| d_says : forall http t l m, detects_for (Allow (ServerPolicy (Detect http t l) m)) t
| d_deny : detects_for Deny 10000000000
| d_other : forall p, (forall http t l, sp_protocol p <> Detect http t l) -> detects_for (Allow p) 10000000000.

(** What the control plane sent on a watch *)
Definition sent (w : nat) (h : list (event * option nat)) : list server_in :=
  flat_map (fun x => match fst x with Receive v m => if Nat.eqb v w then [m] else [] | _ => [] end) h.
(** A connection to [p] was given the watch [w]. *)
Definition given (h : list (event * option nat)) (p : N) (w : nat) : Prop := In (Get p, Some w) h.

(** ** C71 *)

(** Whom the default policy of a name admits, in words: *)
Definition who (s : bytes) (nets : list ipnet) (client : ip) (t : tls) : Prop :=
  let in_cluster := exists n, In n nets /\ in_net n client in
  let has_dns_identity := exists n, t = Established (Some (Dns n)) in
  (s = bs "all-unauthenticated"%string) \/
  (s = bs "audit"%string) \/
  (s = bs "all-authenticated"%string /\ has_dns_identity) \/
  (s = bs "cluster-unauthenticated"%string /\ in_cluster) \/
  (s = bs "cluster-authenticated"%string /\ in_cluster /\ has_dns_identity).
(** and which names there are *)
Definition known (s : bytes) (nets : list ipnet) : Prop :=
  In s [bs "deny"%string; bs "all-authenticated"%string; bs "all-unauthenticated"%string] \/
  nets <> [] /\ In s [bs "cluster-authenticated"%string; bs "cluster-unauthenticated"%string; bs "audit"%string].

(** ** C72 *)

(** What the labels of a resource mean.  A map has one value for a key. *)
Definition distinct (l : labels) : Prop := NoDup (map fst l).
Definition has (l : labels) (k : bytes) (v : bytes) : Prop := In (k, v) l.
Definition lacks (l : labels) (k : bytes) : Prop := forall v, ~ In (k, v) l.
Inductive grouped (l : labels) (dg : bytes) : bytes -> Prop :=
| g_label : forall g, has l (bs "group"%string) g -> grouped l dg g
| g_default : lacks l (bs "group"%string) -> grouped l dg dg.
Inductive means (l : labels) (dg dk : bytes) : meta -> Prop :=
| m_kind : forall n g k, has l (bs "name"%string) n -> has l (bs "kind"%string) k -> grouped l dg g ->
    ~ (g = [] /\ k = bs "default"%string) -> means l dg dk (M_resource g k n)
| m_default : forall n, has l (bs "name"%string) n -> has l (bs "kind"%string) (bs "default"%string) -> grouped l dg [] ->
    means l dg dk (M_default n)
(* Older control planes: kind:name *)
| m_old : forall n g k, has l (bs "name"%string) (k ++ 58%N :: n) -> ~ In 58%N k -> lacks l (bs "kind"%string) ->
    grouped l dg g -> k <> bs "default"%string -> means l dg dk (M_resource g k n)
| m_old_default : forall n, has l (bs "name"%string) (bs "default:"%string ++ n) -> lacks l (bs "kind"%string) ->
    means l dg dk (M_default n)
| m_plain : forall n g, has l (bs "name"%string) n -> ~ In 58%N n -> lacks l (bs "kind"%string) -> grouped l dg g ->
    means l dg dk (M_resource g dk n).

(** ** C73 *)

(** What a server sent by the control plane must be to be accepted *)
Definition authz_ok (a : authz_in) : Prop :=
  aa_networks (ai_authz a) <> [] /\
  (forall n, In n (aa_networks (ai_authz a)) -> an_net n <> None /\ ~ In None (an_except n)) /\
  (exists p, aa_permit (ai_authz a) = Some p /\ p <> P_mesh None) /\
  match ai_metadata a with
  | Some m => m <> None
  | None => exists v, has (ai_labels a) (bs "name"%string) v
  end.
Definition rule_ok {M F} (r : rule_in M F) : Prop := ~ In None (ri_matches r) /\ ~ In A_bad (ri_filters r).
Definition route_ok {M F} (r : route_in M F) : Prop :=
  ~ In None (ro_hosts r) /\ (forall a, In a (ro_authz r) -> authz_ok a) /\ (forall ru, In ru (ro_rules r) -> rule_ok ru) /\
  exists k, ro_metadata r = Some (Some k).
Definition protocol_ok (p : protocol_in) : Prop :=
  match p with
  | P_detect routes timeout rate => (forall r, In r routes -> route_ok r) /\ (exists t, timeout = T_is t) /\ rate = true
  | P_http1 routes rate | P_http2 routes rate => (forall r, In r routes -> route_ok r) /\ rate = true
  | P_grpc routes => forall r, In r routes -> route_ok r
  | P_tls | P_opaque => True
  end.
Definition server_ok (s : server_in) : Prop :=
  (exists p, si_protocol s = Some p /\ protocol_ok p) /\ (forall a, In a (si_authz s) -> authz_ok a) /\
  exists v, has (si_labels s) (bs "name"%string) v.

Definition loopback (client : ip) : Prop := client = V4 (127 * 2 ^ 24 + 1)%N \/ client = V6 1%N.
(** Somebody is admitted by a list of authorizations of a message. *)
Definition admitted (l : list authz_in) (client : ip) (t : tls) : Prop :=
  exists a, In a l /\ AuthzSpec.allows (ai_authz a) client t.
(** The networks of a message are of the right size. *)
Definition nets_wf (l : list authz_in) : Prop :=
  forall a n, In a l -> In n (aa_networks (ai_authz a)) ->
  (forall m, an_net n = Some m -> net_wf m) /\ forall m, In (Some m) (an_except n) -> net_wf m.

(** What becomes of a filter *)
Definition filter_becomes {F} (unknown : F) (i : filter_in F) (f : F) : Prop := i = A_filter f \/ i = A_unknown /\ f = unknown.
(** What becomes of the rules of a route: the same matches and filters, and whoever is admitted
    by the route, by the server or by being on the same host *)
Definition rule_becomes {M F} (unknown : F) (server route : list authz_in) (i : rule_in M F) (r : rule M (route_policy F)) : Prop :=
  ri_matches i = map Some (ru_matches r) /\
  Forall2 (filter_becomes unknown) (ri_filters i) (rp_filters (ru_policy r)) /\
  forall client t, ip_wf client ->
    (authorized (rp_authorizations (ru_policy r)) client t <-> loopback client \/ admitted server client t \/ admitted route client t).
Definition route_becomes {M F} (unknown : F) (server : list authz_in) (i : route_in M F) (r : route M (route_policy F)) : Prop :=
  ro_hosts i = map Some (rt_hosts r) /\ Forall2 (rule_becomes unknown server (ro_authz i)) (ro_rules i) (rt_rules r).
(** All the routes; there is one that matches everything when there is none *)
Definition routes_become {M F} (unknown : F) (server : list authz_in) (ins : list (route_in M F)) (rs : list (route M (route_policy F))) : Prop :=
  ins <> [] /\ Forall2 (route_becomes unknown server) ins rs \/
  ins = [] /\ exists a, rs = [Route [] [Rule [] (RoutePolicy a [])]] /\
    forall client t, ip_wf client -> (authorized a client t <-> loopback client \/ admitted server client t).
Definition http_unknown : http_filter := F_internal (bs "server policy configured with unknown filter"%string).
Definition grpc_unknown : grpc_filter := G_internal (bs "server policy configured with unknown filter"%string).
(** Whoever is admitted by the server or is on the same host *)
Definition connections (server : list authz_in) (l : list authorization) : Prop :=
  forall client t, ip_wf client -> (authorized l client t <-> loopback client \/ admitted server client t).
Inductive becomes (server : list authz_in) : protocol_in -> protocol -> Prop :=
| bc_detect : forall ins t rs l rate, routes_become http_unknown server ins rs -> connections server l ->
    becomes server (P_detect ins (T_is t) rate) (Detect rs t l)
| bc_http1 : forall ins rs rate, routes_become http_unknown server ins rs -> becomes server (P_http1 ins rate) (Http1 rs)
| bc_http2 : forall ins rs rate, routes_become http_unknown server ins rs -> becomes server (P_http2 ins rate) (Http2 rs)
| bc_grpc : forall ins rs, routes_become grpc_unknown server ins rs -> becomes server (P_grpc ins) (Grpc rs)
| bc_tls : forall l, connections server l -> becomes server P_tls (Tls l)
| bc_opaque : forall l, connections server l -> becomes server P_opaque (Opaque l).
(** The authorizations of each route of a server *)
Definition route_authz (p : protocol_in) : list (list authz_in) :=
  match p with
  | P_detect routes _ _ | P_http1 routes _ | P_http2 routes _ => map ro_authz routes
  | P_grpc routes => map ro_authz routes
  | P_tls | P_opaque => []
  end.
Definition server_nets_wf (s : server_in) : Prop :=
  nets_wf (si_authz s) /\ forall p l, si_protocol s = Some p -> In l (route_authz p) -> nets_wf l.
(** Servers whose connections are authorized as they are accepted, and not request by request *)
Definition by_connection (p : protocol_in) : Prop :=
  match p with P_detect _ _ _ | P_tls | P_opaque => True | _ => False end.
