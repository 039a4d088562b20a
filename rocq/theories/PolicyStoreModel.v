(** Model of where the inbound proxy's policies come from: linkerd/app/inbound/src/policy/store.rs,
    defaults.rs, config.rs and api.rs, the reading of a server sent by the control plane,
    linkerd/proxy/server-policy/src/{lib,http,grpc,authz,meta}.rs, and the default policies
    of linkerd/app/src/env.rs. *)
From Coq Require Import String List Arith NArith Bool.
From Verif Require Import Bytes RouteModel FilterModel AuthzModel PolicyModel.
Import ListNotations.
Open Scope nat_scope.

(** ** Names of resources: server-policy/src/meta.rs *)

(** meta.rs:3-13 *)
Inductive meta :=
| M_default (name : bytes)
| M_resource (group kind name : bytes).
(** meta.rs:22-27 *)
Definition name (m : meta) : bytes := match m with M_default n => n | M_resource _ _ n => n end.
(** meta.rs:29-34 *)
Definition kind (m : meta) : bytes := match m with M_default _ => bs "default"%string | M_resource _ k _ => k end.
(** meta.rs:36-41 *)
Definition group (m : meta) : bytes := match m with M_default _ => [] | M_resource g _ _ => g end.
(** meta.rs:43-45 *)
Definition is_audit (m : meta) : bool :=
  match m with M_default n => beq n (bs "audit"%string) | M_resource _ _ _ => false end.
(** meta.rs:48-53 *)
Definition meta_eqb (a b : meta) : bool :=
  beq (group a) (group b) && beq (kind a) (kind b) && beq (name a) (name b).
(** meta.rs:55-62: what is given to the hasher, in order *)
Definition hashed (m : meta) : list bytes := [group m; kind m; name m].

(** The labels of a message: a `HashMap`, so no key is there twice. *)
Definition labels := list (bytes * bytes).
(** `HashMap::remove`, of which only the value returned matters in meta.rs:92-98 *)
Definition label (k : bytes) (l : labels) : option bytes :=
  option_map snd (List.find (fun kv => beq (fst kv) k) l).

(** meta.rs:87-127; the error is always `InvalidMeta::Name` *)
Definition try_new_with_default (l : labels) (default_group default_kind : bytes) : option meta :=
  match label (bs "name"%string) l with
  | None => None
  | Some name =>
      let group := match label (bs "group"%string) l with Some g => g | None => default_group end in
      match label (bs "kind"%string) l with
      | Some kind =>
          if beq group [] && beq kind (bs "default"%string) then Some (M_default name)
          else Some (M_resource group kind name)
      | None =>
          match split_once 58 name with     (* ':' *)
          | Some (k, n) => if beq k (bs "default"%string) then Some (M_default n) else Some (M_resource group k n)
          | None => Some (M_resource group default_kind name)
          end
      end
  end.

(** `api::metadata::Kind` and `api::Resource` of another crate *)
Inductive api_kind := K_default (name : bytes) | K_resource (group kind name : bytes).
(** `api::Metadata` *)
Definition api_metadata := option api_kind.
(** meta.rs:130-151 *)
Definition meta_of (m : api_metadata) : option meta :=
  match m with
  | None => None
  | Some (K_default n) => Some (M_default n)
  | Some (K_resource g k n) => Some (M_resource g k n)
  end.

(** ** Policies *)

(** server-policy/src/lib.rs:19-24, without the rate limit *)
Record server_policy := ServerPolicy { sp_protocol : protocol; sp_meta : meta }.

(** http.rs:24-36; the metadata of routes are not modelled *)
Definition http_default (a : list authorization) : route match_request (route_policy http_filter) :=
  Route [] [Rule [] (RoutePolicy a [])].
(** grpc.rs:23-35 *)
Definition grpc_default (a : list authorization) : route match_grpc (route_policy grpc_filter) :=
  Route [] [Rule [] (RoutePolicy a [])].

(** lib.rs:48-73 *)
Definition invalid (timeout : N) : server_policy :=
  ServerPolicy
    (Detect
      [Route []
        [Rule [MatchRequest None [] [] None]
          (RoutePolicy [] [F_internal (bs "invalid server configuration"%string)])]]
      timeout [])
    (M_default (bs "invalid"%string)).

(** ** What the control plane sends *)

(** `api::Authz`: [ai_authz] is what AuthzModel reads *)
Record authz_in := AuthzIn { ai_authz : api_authz; ai_labels : labels; ai_metadata : option api_metadata }.
(** `api::http_route::Filter` and `api::grpc_route::Filter`: [A_unknown] has no kind;
    [A_bad] has a kind whose content is refused. *)
Inductive filter_in (F : Type) := A_unknown | A_bad | A_filter (f : F).
Arguments A_unknown {F}. Arguments A_bad {F}. Arguments A_filter {F}.
(** `api::http_route::Rule` and `api::grpc_route::Rule`; a match that is refused is [None] *)
Record rule_in (M F : Type) := RuleIn { ri_matches : list (option M); ri_filters : list (filter_in F) }.
Arguments RuleIn {M F}. Arguments ri_matches {M F}. Arguments ri_filters {M F}.
(** `api::HttpRoute` and `api::GrpcRoute`; a host that is refused is [None] *)
Record route_in (M F : Type) := RouteIn {
  ro_hosts : list (option match_host);
  ro_authz : list authz_in;
  ro_rules : list (rule_in M F);
  ro_metadata : option api_metadata;
}.
Arguments RouteIn {M F}. Arguments ro_hosts {M F}. Arguments ro_authz {M F}.
Arguments ro_rules {M F}. Arguments ro_metadata {M F}.
(** `prost_types::Duration`: missing, refused or read *)
Inductive timeout_in := T_missing | T_bad | T_is (t : N).
(** `api::proxy_protocol::Kind`; [rate]: whether its rate limit is accepted *)
Inductive protocol_in :=
| P_detect (routes : list (route_in match_request http_filter)) (timeout : timeout_in) (rate : bool)
| P_http1 (routes : list (route_in match_request http_filter)) (rate : bool)
| P_http2 (routes : list (route_in match_request http_filter)) (rate : bool)
| P_grpc (routes : list (route_in match_grpc grpc_filter))
| P_tls
| P_opaque.
(** `api::Server`; `server_ips` is not looked at *)
Record server_in := ServerIn { si_protocol : option protocol_in; si_authz : list authz_in; si_labels : labels }.

(** authz.rs:150-157 *)
Definition authz_meta (a : authz_in) : option meta :=
  match ai_metadata a with
  | Some m => meta_of m
  | None => try_new_with_default (ai_labels a) (bs "policy.linkerd.io"%string) (bs "serverauthorization"%string)
  end.
(** authz.rs:93-165; the metadata is dropped when it is there *)
Definition try_authz (a : authz_in) : option authorization :=
  match authz_of (ai_authz a), authz_meta a with
  | Some z, Some _ => Some z
  | _, _ => None
  end.
(** authz.rs:80-89 *)
Definition try_authzs (l : list authz_in) (parents : list authorization) : option (list authorization) :=
  option_map (fun l => l ++ parents) (all_some (map try_authz l)).

(** http.rs:120-135 and grpc.rs:119-133: [unknown] is the filter for those with no kind *)
Definition try_filter {F} (unknown : F) (f : filter_in F) : option F :=
  match f with
  | A_unknown => Some unknown
  | A_bad => None
  | A_filter f => Some f
  end.
(** http.rs:106-145 and grpc.rs:105-143 *)
Definition try_rule {M F} (unknown : F) (a : list authorization) (r : rule_in M F) : option (rule M (route_policy F)) :=
  match all_some (ri_matches r), all_some (map (try_filter unknown) (ri_filters r)) with
  | Some ms, Some fs => Some (Rule ms (RoutePolicy a fs))
  | _, _ => None
  end.
(** http.rs:80-104 and grpc.rs:79-103 *)
Definition try_route {M F} (unknown : F) (server : list authorization) (r : route_in M F)
  : option (route M (route_policy F)) :=
  match all_some (ro_hosts r), try_authzs (ro_authz r) server,
        match ro_metadata r with Some m => meta_of m | None => None end with
  | Some hosts, Some a, Some _ => option_map (Route hosts) (all_some (map (try_rule unknown a) (ro_rules r)))
  | _, _, _ => None
  end.
(** lib.rs:108-125 *)
Definition mk_routes {M F} (unknown : F) (default : list authorization -> route M (route_policy F))
    (server : list authorization) (l : list (route_in M F)) : option (list (route M (route_policy F))) :=
  match l with
  | [] => Some [default server]
  | l => all_some (map (try_route unknown server) l)
  end.
(** http.rs:131-133 and grpc.rs:129-131 *)
Definition unknown_filter : bytes := bs "server policy configured with unknown filter"%string.
(** lib.rs:184-194 *)
Definition mk_http := mk_routes (F_internal unknown_filter) http_default.
(** lib.rs:201-203 *)
Definition mk_grpc := mk_routes (G_internal unknown_filter) grpc_default.

(** lib.rs:138-157 *)
Definition rate_ok (p : protocol_in) : bool :=
  match p with
  | P_detect _ _ ok | P_http1 _ ok | P_http2 _ ok => ok
  | _ => true
  end.
(** lib.rs:175-207 *)
Definition try_protocol (p : protocol_in) (a : list authorization) : option protocol :=
  match p with
  | P_detect routes timeout _ =>
      match mk_http a routes, timeout with
      | Some rs, T_is t => Some (Detect rs t a)
      | _, _ => None
      end
  | P_http1 routes _ => option_map Http1 (mk_http a routes)
  | P_http2 routes _ => option_map Http2 (mk_http a routes)
  | P_grpc routes => option_map Grpc (mk_grpc a routes)
  | P_tls => Some (Tls a)
  | P_opaque => Some (Opaque a)
  end.
(** lib.rs:127-219 *)
Definition try_server (s : server_in) : option server_policy :=
  match si_protocol s with
  | None => None
  | Some p =>
      if negb (rate_ok p) then None
      else
        match try_authzs (si_authz s) [localhost] with
        | None => None
        | Some a =>
            match try_protocol p a,
                  try_new_with_default (si_labels s) (bs "policy.linkerd.io"%string) (bs "server"%string) with
            | Some q, Some m => Some (ServerPolicy q m)
            | _, _ => None
            end
        end
  end.
(** api.rs:90-102.  Simplification: the invalid policy is a `OnceCell` of the process, and
    so has the timeout of the first store of the process to need it. *)
Definition received (detect_timeout : N) (s : server_in) : server_policy :=
  match try_server s with
  | Some p => p
  | None => invalid detect_timeout
  end.

(** ** The default policies: app/inbound/src/policy/defaults.rs and policy.rs *)

(** policy.rs:50-54 *)
Inductive default_policy := Allow (p : server_policy) | Deny.
(** policy.rs:90-101 *)
Definition from_default (d : default_policy) : server_policy :=
  match d with
  | Allow p => p
  | Deny => ServerPolicy (Opaque []) (M_default (bs "deny"%string))
  end.

(** defaults.rs:57-59: 0.0.0.0/0 and ::/0 *)
Definition all_nets : list ipnet := [Net4 0 0; Net6 0 0].
(** defaults.rs:61-66 *)
Definition authenticated : authentication := Tls_authenticated [] [suffix_of_parts []].
(** defaults.rs:68-93 *)
Definition mk (name : bytes) (nets : list ipnet) (authn : authentication) (timeout : N) : server_policy :=
  let a := [Authorization (map (fun n => Net n []) nets) authn] in
  ServerPolicy (Detect [http_default a] timeout a) (M_default name).
(** defaults.rs:7-9 *)
Definition all_authenticated : N -> server_policy := mk (bs "all-authenticated"%string) all_nets authenticated.
(** defaults.rs:11-18 *)
Definition all_unauthenticated : N -> server_policy := mk (bs "all-unauthenticated"%string) all_nets Unauthenticated.
(** defaults.rs:20-25 *)
Definition cluster_authenticated (nets : list ipnet) : N -> server_policy :=
  mk (bs "cluster-authenticated"%string) nets authenticated.
(** defaults.rs:27-37 *)
Definition cluster_unauthenticated (nets : list ipnet) : N -> server_policy :=
  mk (bs "cluster-unauthenticated"%string) nets Unauthenticated.
(** defaults.rs:39-46 *)
Definition audit : N -> server_policy := mk (bs "audit"%string) all_nets Unauthenticated.
(** defaults.rs:48-55, used in tests only *)
Definition all_mtls_unauthenticated : N -> server_policy :=
  mk (bs "all-tls-unauthenticated"%string) all_nets Tls_unauthenticated.

(** app/src/env.rs:999-1030; an error is [None] *)
Definition parse_default_policy (s : bytes) (cluster_nets : list ipnet) (timeout : N) : option default_policy :=
  if beq s (bs "deny"%string) then Some Deny
  else if beq s (bs "all-authenticated"%string) then Some (Allow (all_authenticated timeout))
  else if beq s (bs "all-unauthenticated"%string) then Some (Allow (all_unauthenticated timeout))
  else
    match cluster_nets with
    | [] => None
    | _ =>
        if beq s (bs "cluster-authenticated"%string) then Some (Allow (cluster_authenticated cluster_nets timeout))
        else if beq s (bs "cluster-unauthenticated"%string) then Some (Allow (cluster_unauthenticated cluster_nets timeout))
        else if beq s (bs "audit"%string) then Some (Allow (audit timeout))
        else None
    end.

(** ** The store: app/inbound/src/policy/store.rs *)

(** config.rs:17-30, without the idle age.  The ranges of [opaque_ports] include both
    their ends. *)
Inductive config :=
| Discover (default : default_policy) (ports : list N) (opaque_ports : list (N * N))
| Fixed (default : default_policy) (ports : list (N * server_policy)) (opaque_ports : list (N * N)).

(** store.rs:112-126; [None]: the `unreachable!` of store.rs:120 *)
Definition make_opaque (d : default_policy) : option default_policy :=
  match d with
  | Deny => Some Deny
  | Allow p =>
      match sp_protocol p with
      | Detect _ _ l | Opaque l => Some (Allow (ServerPolicy (Opaque l) (sp_meta p)))
      | _ => None
      end
  end.

(** `RangeInclusiveSet::contains`, used in store.rs:91,154 *)
Definition contains (ranges : list (N * N)) (port : N) : bool :=
  existsb (fun r => N.leb (fst r) port && N.leb port (snd r)) ranges.
(** `range.clone().map(|port| …)` of store.rs:43-45: the ports of a range *)
Definition range (r : N * N) : list N :=
  map N.of_nat (seq (N.to_nat (fst r)) (S (N.to_nat (snd r)) - N.to_nat (fst r))).

(** store.rs:15-21.  The watch channels are numbered and [st_values] has the value that each
    holds; [st_cache] maps a port to its channel and tells whether the entry is permanent.
    The channel of the default policy is number 0, that of the opaque default number 1.
    [st_timeout] is the timeout given to the API's client, config.rs:64-71; it is [None] when
    there is no discovery. *)
Record store := Store {
  st_values : list server_policy;
  st_cache : list (N * (nat * bool));
  st_opaque : list (N * N);
  st_timeout : option N;
}.

(** `HashMap::insert` *)
Definition insert (c : list (N * (nat * bool))) (e : N * (nat * bool)) : list (N * (nat * bool)) :=
  e :: filter (fun x => negb (N.eqb (fst x) (fst e))) c.
(** `HashMap::get` *)
Definition cached (c : list (N * (nat * bool))) (port : N) : option (nat * bool) :=
  option_map snd (List.find (fun x => N.eqb (fst x) port) c).
(** idle-cache/src/lib.rs:91-105: the later of two entries for a key stays *)
Definition with_permanent_from_iter (l : list (N * nat)) : list (N * (nat * bool)) :=
  fold_left (fun c x => insert c (fst x, (snd x, true))) l [].

(** Helper: pairs the ports with the numbers of their channels, from [w] *)
Fixpoint number (w : nat) (ports : list N) : list (N * nat) :=
  match ports with
  | [] => []
  | p :: ports => (p, w) :: number (S w) ports
  end.

(** config.rs:64-70: ten seconds when the default policy does not detect *)
Definition detect_timeout (d : default_policy) : N :=
  match d with
  | Allow (ServerPolicy (Detect _ t _) _) => t
  | _ => 10 * 1000000000
  end.

(** config.rs:35-76, with store.rs:35-63 and store.rs:69-110 *)
Definition build (c : config) : option store :=
  match c with
  | Fixed d ports opaque =>
      match make_opaque d with
      | None => None
      | Some o =>
          Some (Store
            ([from_default d; from_default o] ++ map snd ports)
            (with_permanent_from_iter
              (flat_map (fun r => map (fun p => (p, 1)) (range r)) opaque ++ number 2 (map fst ports)))
            opaque None)
      end
  | Discover d ports opaque =>
      match make_opaque d with
      | None => None
      | Some o =>
          Some (Store
            ([from_default d; from_default o] ++ map (fun p => from_default (if contains opaque p then o else d)) ports)
            (with_permanent_from_iter (number 2 ports))
            opaque (Some (detect_timeout d)))
      end
  end.

(** What a channel holds *)
Definition read (s : store) (w : nat) : option server_policy := nth_error (st_values s) w.

(** What can happen: a connection asks for the policy of its port (store.rs:146-177); the
    control plane answers on a watch; the cache drops an idle entry (the idle timer's
    conditions are in CacheModel and not repeated: here an entry may go at any time). *)
Inductive event :=
| Get (port : N)
| Receive (w : nat) (s : server_in)
| Evict (port : N).
(** Helper: `watch::Sender::send` on a channel *)
Fixpoint set_nth {A} (n : nat) (x : A) (l : list A) : list A :=
  match l, n with
  | [], _ => []
  | _ :: l, 0 => x :: l
  | y :: l, S n => y :: set_nth n x l
  end.
(** The channel that [Get] returned, if the event was one, and what the store is then;
    [None] when the event cannot happen *)
Definition step (s : store) (e : event) : option (store * option nat) :=
  match e with
  | Get port =>
      match cached (st_cache s) port with
      | Some (w, _) => Some (s, Some w)
      | None =>
          match st_timeout s with
          | Some _ =>
              let init := nth (if contains (st_opaque s) port then 1 else 0) (st_values s) (from_default Deny) in
              let w := List.length (st_values s) in
              Some (Store (st_values s ++ [init]) (insert (st_cache s) (port, (w, false))) (st_opaque s) (st_timeout s), Some w)
          | None => Some (Store (st_values s) (insert (st_cache s) (port, (0, false))) (st_opaque s) None, Some 0)
          end
      end
  (* Only the watches of the API have a sender that sends: the first two channels are only
     held open, store.rs:128-136. *)
  | Receive w m =>
      match st_timeout s with
      | Some t =>
          if Nat.leb 2 w && Nat.ltb w (List.length (st_values s))
          then Some (Store (set_nth w (received t m) (st_values s)) (st_cache s) (st_opaque s) (st_timeout s), None)
          else None
      | None => None
      end
  | Evict port =>
      match cached (st_cache s) port with
      | Some (_, false) => Some (Store (st_values s) (filter (fun x => negb (N.eqb (fst x) port)) (st_cache s)) (st_opaque s) (st_timeout s), None)
      | _ => None
      end
  end.

(** Histories, latest event last, with the channel each [Get] returned *)
Inductive run (c : config) : list (event * option nat) -> store -> Prop :=
| run_start : forall s, build c = Some s -> run c [] s
| run_step : forall h s e s' o, run c h s -> step s e = Some (s', o) -> run c (h ++ [(e, o)]) s'.

(** Helper: computes a history *)
Fixpoint go (s : store) (es : list event) : option (list (event * option nat) * store) :=
  match es with
  | [] => Some ([], s)
  | e :: es =>
      match step s e with
      | None => None
      | Some (s', o) => option_map (fun x => ((e, o) :: fst x, snd x)) (go s' es)
      end
  end.
