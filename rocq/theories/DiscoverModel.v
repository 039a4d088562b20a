(** Model of what the outbound proxy discovers about a destination and of how it decides what to do
    with a connection: linkerd/app/outbound/src/discover.rs, sidecar.rs, protocol.rs, opaq.rs,
    ingress.rs and `spawn_routes` of http.rs (and of tls.rs and opaq.rs, which are the same), with
    linkerd/service-profiles/src/allowlist.rs.

    Simplifications: what the routing never looks into is a number (the filters and parameters of
    routes, failure accrual, load estimators, the routes of TLS policies); a watch is the value it
    holds, and the reading of a watch at some time is a value of a function of time. *)
From Coq Require Import String List NArith Bool.
From Verif Require Import Bytes NameModel EndpointModel DnsModel ProfileModel.
From Verif Require RouteModel FilterModel Http1Model.
Import ListNotations.
Open Scope N_scope.

(** ** Client policies: linkerd/proxy/client-policy/src/lib.rs *)

(** 46-59; no section is the empty text *)
Inductive meta :=
| Default_meta (name : bytes)
| Resource (group kind namespace name section : bytes) (port : option N).
(** 95-99 *)
Record queue := Queue { q_capacity : N; q_failfast : N }.
(** 101-118: a load estimator is a number *)
Inductive dispatcher :=
| Forward (addr : sock) (m : metadata)
| Balance (load : N) (path : bytes)
| Fail (message : bytes).
(** 88-93 *)
Record backend := Backend { b_meta : meta; b_queue : queue; b_dispatcher : dispatcher }.
(** 81-85: filters are numbers *)
Record route_backend := RouteBackend { rb_filters : list N; rb_backend : backend }.
(** 72-79 *)
Inductive distribution :=
| Empty
| First_available (l : list route_backend)
| Random_available (l : list (route_backend * N)).
(** 61-68: filters and parameters are numbers; 0 stands for the default parameters *)
Record route_policy := RoutePolicy {
  rp_meta : meta; rp_filters : list N; rp_params : N; rp_distribution : distribution }.
(** client-policy/src/http.rs:9-10 *)
Definition http_routes := list (RouteModel.route RouteModel.match_request route_policy).
(** client-policy/src/grpc.rs:9-10 *)
Definition grpc_routes := list (RouteModel.route RouteModel.match_grpc route_policy).
(** 28-44 *)
Inductive protocol :=
| P_detect (timeout : N) (http1 http2 : http_routes * option N) (opaque : option route_policy)
| P_http1 (h : http_routes * option N)
| P_http2 (h : http_routes * option N)
| P_grpc (g : grpc_routes * option N)
| P_opaque (o : option route_policy)
| P_tls (routes : list N).
(** 15-20 *)
Record client_policy := ClientPolicy { cp_parent : meta; cp_protocol : protocol; cp_backends : list backend }.
(** 318-343 *)
Definition empty (timeout : N) : client_policy :=
  ClientPolicy (Default_meta (bs "empty"%string)) (P_detect timeout ([], None) ([], None) None) [].

(** ** discover.rs *)

(** `MatchRequest::default()`, http/route/src/http/match.rs:17-23 *)
Definition any_request : RouteModel.match_request := RouteModel.MatchRequest None [] [] None.
(** discover.rs:233-294 *)
Definition policy_for_backend (m : meta) (timeout : N) (b : backend) : client_policy :=
  let pol := RoutePolicy m [] 0 (First_available [RouteBackend [] b]) in
  let routes := [RouteModel.Route [] [RouteModel.Rule [any_request] pol]] in
  ClientPolicy m (P_detect timeout (routes, None) (routes, None) (Some pol)) [b].
(** discover.rs:191-207 *)
Definition synthesize_forward_policy (m : meta) (timeout : N) (q : queue) (a : sock) (md : metadata) : client_policy :=
  policy_for_backend m timeout (Backend m q (Forward a md)).
(** discover.rs:209-231 *)
Definition synthesize_balance_policy (m : meta) (timeout : N) (q : queue) (load : N) (a : name_addr) : client_policy :=
  policy_for_backend m timeout (Backend m q (Balance load (name_addr_to_string a))).

(** `Metadata::default()`, proxy/api-resolve/src/metadata.rs:47-60 *)
Definition default_metadata : metadata := Metadata [] 1 Unknown None None None h2_default None.

(** An error and its causes, as far as it matters here: a gRPC status, a `DiscoveryRejected`, others *)
Inductive cause := Status (code : N) | Rejected | Other_error.
(** `linkerd_error::Error`: the error, its source, and so on *)
Definition error := list cause.
(** app/core/src/errors.rs:27-31 with error/src/lib.rs:29-38: the first status *)
Fixpoint has_grpc_status (e : error) (code : N) : bool :=
  match e with
  | [] => false
  | Status c :: _ => c =? code
  | _ :: e => has_grpc_status e code
  end.
(** `tonic::Code::NotFound` *)
Definition NOT_FOUND : N := 5.
(** `tonic::Code::Unimplemented` *)
Definition UNIMPLEMENTED : N := 12.

(** service-profiles/src/lib.rs:298-317 *)
Fixpoint is_rejected (e : error) : bool :=
  match e with
  | [] => false
  | Rejected :: _ => true
  | Status c :: _ => (c =? 3) || (c =? 9)
  | Other_error :: e => is_rejected e
  end.
(** service-profiles/src/default.rs:39-50 *)
Definition recover_default {W} (r : option W + error) : option W + error :=
  match r with
  | inl w => inl w
  | inr e => if is_rejected e then inl None else inr e
  end.
(** service-profiles/src/allowlist.rs:31-43: [allowed] is `allow_discovery.matches`, and the profile
    is looked up only if it is allowed. *)
Definition with_allowlist {W} (allowed : bool) (lookup : option W + error) : option W + error :=
  if allowed then lookup else inl None.

(** Where the policy of a destination comes from: the control plane's watch; a watch that follows the
    profile; one that never changes *)
Inductive source (W : Type) := From_control (w : W) | From_profile | From_nothing.
Arguments From_control {W}. Arguments From_profile {W}. Arguments From_nothing {W}.

(** discover.rs:84-150 and ingress.rs:146-195: of both lookups; [None] if the discovery fails with
    the policy's error *)
Definition resolved {P W} (profile : option P + error) (policy : W + error) : option (option P * source W) :=
  let profile := match profile with inl p => p | inr _ => None end in
  match policy with
  | inl w => Some (profile, From_control w)
  | inr e =>
      if has_grpc_status e NOT_FOUND || has_grpc_status e UNIMPLEMENTED then
        match profile with
        | Some p => Some (Some p, From_profile)
        | None => Some (None, From_nothing)
        end
      else None
  end.
(** ingress.rs:187-195: in ingress mode there must be a profile, at least *)
Definition ingress_resolved {P W} (profile : option P + error) (policy : W + error) : option (option P * source W) :=
  match resolved profile policy with
  | Some (None, From_nothing) => None
  | r => r
  end.

(** The configuration of the outbound proxy, as far as it matters here: discover.rs:75-82, ingress.rs:135-149 *)
Record config := Config { c_timeout : N; c_queue : queue; c_load : N }.

(** discover.rs:123-143 *)
Definition sidecar_synthesis (c : config) (orig_dst : sock) (p : profile) : client_policy :=
  let '(a, md) := match p_end p with Some e => e | None => (orig_dst, default_metadata) end in
  synthesize_forward_policy (Default_meta (bs "endpoint"%string)) (c_timeout c) (c_queue c) a md.
(** discover.rs:296-315 *)
Definition origdst_policy (c : config) (orig_dst : sock) : client_policy :=
  synthesize_forward_policy (Default_meta (bs "fallback"%string)) (c_timeout c) (c_queue c) orig_dst default_metadata.
(** ingress.rs:197-240 *)
Definition ingress_synthesis (c : config) (p : profile) : client_policy :=
  match p_end p with
  | Some (a, md) => synthesize_forward_policy (Default_meta (bs "endpoint"%string)) (c_timeout c) (c_queue c) a md
  | None =>
      match p_addr p with
      | Some logical =>
          synthesize_balance_policy (Default_meta (bs "profile"%string)) (c_timeout c) (c_queue c) (c_load c) logical
      | None => empty (c_timeout c)
      end
  end.

(** ** Watches that follow watches: discover.rs:157-191, http.rs:39-73, opaq.rs:224-258, tls.rs:28-62 *)

Section Follow.
Context {A B : Type}.
(** What a value of the source gives, if anything *)
Variable mk : A -> option B.

(** The source: its value, whether the task has not seen it, and whether the sender is there; the
    value that is followed with, whether it has receivers, and whether the task runs *)
Record follower := Follower {
  f_source : A; f_unseen : bool; f_open : bool; f_value : B; f_read : bool; f_runs : bool }.

(** The source publishes a value, or its sender is dropped; all receivers are dropped; the task is
    polled until it waits *)
Inductive event := Published (a : A) | Closed | Dropped | Polled.

(** http.rs:44-72 and the others.  A publication needs the sender.  `biased`: first whether there
    are receivers; `changed()` gives a value that has not been seen before it tells that the
    sender is gone. *)
Definition handle (f : follower) (e : event) : follower :=
  match e with
  | Published a =>
      if f_open f then Follower a true (f_open f) (f_value f) (f_read f) (f_runs f) else f
  | Closed => Follower (f_source f) (f_unseen f) false (f_value f) (f_read f) (f_runs f)
  | Dropped => Follower (f_source f) (f_unseen f) (f_open f) (f_value f) false (f_runs f)
  | Polled =>
      if negb (f_runs f) then f
      else if negb (f_read f) then Follower (f_source f) (f_unseen f) (f_open f) (f_value f) (f_read f) false
      else
        let v := if f_unseen f then match mk (f_source f) with Some b => b | None => f_value f end else f_value f in
        Follower (f_source f) false (f_open f) v (f_read f) (f_open f)
  end.

(** When it is spawned: the first value was made of what the source holds (`borrow_and_update`). *)
Definition spawn (a : A) (init : B) : follower := Follower a false true init true true.
(** What happens to it *)
Definition follow (a : A) (init : B) (es : list event) : follower := fold_left handle es (spawn a init).
End Follow.
Arguments event : clear implicits.
Arguments follower : clear implicits.

(** ** sidecar.rs and protocol.rs *)

(** protocol.rs:18-25 *)
Inductive stack_protocol := Is_http1 | Is_http2 | Is_opaque | Is_tls | Is_detect.
(** http/variant/src/lib.rs:9-14 *)
Inductive variant := Http1 | H2.
(** http/detect/src/lib.rs:25-29: what is found, if it is HTTP *)
Definition detection := option variant.
(** Which stack serves a connection *)
Inductive stack := S_http (v : variant) | S_opaque | S_tls.

(** sidecar.rs:143-159 *)
Definition protocol_of (profile : option profile) (policy : client_policy) : stack_protocol :=
  if match profile with Some p => p_opaque p | None => false end then Is_opaque
  else match cp_protocol policy with
       | P_http1 _ => Is_http1
       | P_http2 _ | P_grpc _ => Is_http2
       | P_opaque _ => Is_opaque
       | P_tls _ => Is_tls
       | P_detect _ _ _ _ => Is_detect
       end.
(** protocol.rs:117-137 and 75-90; the bytes are only looked at if need be *)
Definition stack_of (p : stack_protocol) (d : detection) : stack :=
  match p with
  | Is_http1 => S_http Http1
  | Is_http2 => S_http H2
  | Is_opaque => S_opaque
  | Is_tls => S_tls
  | Is_detect => match d with Some v => S_http v | None => S_opaque end
  end.

(** http/logical.rs:26-36 and http/logical/profile.rs:21-25: the routes of the HTTP stack *)
Inductive routes :=
| R_profile (addr : name_addr) (routes : list (req_match * ProfileModel.route)) (targets : list target)
| R_http (a : addr) (m : meta) (r : http_routes) (bs : list backend) (accrual : option N)
| R_grpc (a : addr) (m : meta) (r : grpc_routes) (bs : list backend) (accrual : option N).
(** opaq/logical.rs:14-25 *)
Record opaq_routes := OpaqRoutes { o_addr : addr; o_meta : meta; o_routes : option route_policy; o_backends : list backend }.
(** tls/logical.rs:18-24 *)
Record tls_routes := TlsRoutes { tr_addr : addr; tr_meta : meta; tr_routes : list N; tr_backends : list backend }.

(** sidecar.rs:222-282, and ingress.rs:533-600, with any address *)
Definition mk_policy_routes (a : addr) (v : variant) (p : client_policy) : option routes :=
  match cp_protocol p with
  | P_detect _ h1 h2 _ =>
      let h := match v with Http1 => h1 | H2 => h2 end in
      Some (R_http a (cp_parent p) (fst h) (cp_backends p) (snd h))
  | P_http1 h | P_http2 h => Some (R_http a (cp_parent p) (fst h) (cp_backends p) (snd h))
  | P_grpc g => Some (R_grpc a (cp_parent p) (fst g) (cp_backends p) (snd g))
  | P_opaque _ | P_tls _ => None
  end.
(** sidecar.rs:284-290, ingress.rs:522-531 *)
Definition mk_profile_routes (a : name_addr) (p : profile) : routes := R_profile a (p_routes p) (p_targets p).

(** What a stack follows, from when it is built: which of the two watches, and how *)
Inductive following (R : Type) :=
| By_profile (init : R) (mk : profile -> option R)
| By_policy (init : R) (mk : client_policy -> option R)
| Panics.
Arguments By_profile {R}. Arguments By_policy {R}. Arguments Panics {R}.

(** sidecar.rs:183-218.  [seen] is the profile when it is asked whether it overrides the policy,
    [profile] when the first routes are made of it, and [policy] the policy at that time. *)
Definition http_sidecar (orig_dst : sock) (v : variant) (seen profile : option profile) (policy : client_policy) : following routes :=
  match match seen with Some s => should_override_policy s | None => None end, profile with
  | Some a, Some p => By_profile (mk_profile_routes a p) (fun p => Some (mk_profile_routes a p))
  | _, _ =>
      match mk_policy_routes (Socket orig_dst) v policy with
      | Some r => By_policy r (mk_policy_routes (Socket orig_dst) v)
      | None => Panics
      end
  end.

(** sidecar.rs:357-376 *)
Definition mk_tls_routes (orig_dst : sock) (p : client_policy) : option tls_routes :=
  match cp_protocol p with
  | P_tls r => Some (TlsRoutes (Socket orig_dst) (cp_parent p) r (cp_backends p))
  | _ => None
  end.
(** sidecar.rs:343-353 *)
Definition tls_sidecar (orig_dst : sock) (policy : client_policy) : following tls_routes :=
  match mk_tls_routes orig_dst policy with
  | Some r => By_policy r (mk_tls_routes orig_dst)
  | None => Panics
  end.

(** opaq.rs:138-157 *)
Definition routes_from_policy (a : addr) (p : client_policy) : option opaq_routes :=
  match cp_protocol p with
  | P_opaque o | P_detect _ _ _ o => Some (OpaqRoutes a (cp_parent p) o (cp_backends p))
  | _ => None
  end.
(** app/outbound/src/lib.rs:353-371 *)
Definition service_meta (a : name_addr) : option meta :=
  match split 46 (na_name a) with
  | name :: namespace :: svc :: _ =>
      if eq_ignore_case svc (bs "svc"%string) then
        if na_port a =? 0 then None
        else Some (Resource (bs "core"%string) (bs "Service"%string) namespace name [] (Some (na_port a)))
      else None
  | _ => None
  end.
(** app/outbound/src/lib.rs:350-351 *)
Definition UNKNOWN_META : meta := Default_meta (bs "unknown"%string).
(** app/outbound/src/opaq.rs:174 and 182: `unwrap_or_else` *)
Definition meta_for (a : name_addr) : meta := match service_meta a with Some m => m | None => UNKNOWN_META end.
(** opaq.rs:159-222; the estimator (168-171) is the number 1 *)
Definition routes_from_profile (a : name_addr) (p : profile) : opaq_routes :=
  let backends := map (fun t => (RouteBackend [] (Backend (meta_for (t_addr t)) (Queue 100 3000000000)
                                   (Balance 1 (name_addr_to_string (t_addr t)))), t_weight t)) (p_targets p) in
  OpaqRoutes (Name a) (meta_for a)
    (Some (RoutePolicy (Default_meta (bs "serviceprofile"%string)) [] 0 (Random_available backends)))
    (map (fun b => rb_backend (fst b)) backends).
(** service-profiles/src/lib.rs:199-201 *)
Definition has_targets (p : profile) : bool := match p_targets p with [] => false | _ => true end.
(** opaq.rs:97-136 *)
Definition routes_from_discovery (a : addr) (profile : option profile) (policy : client_policy) : following opaq_routes :=
  let by_policy (profile_addr : option name_addr) :=
    let a := match a, profile_addr with
             | Name n, _ => Name n
             | Socket _, Some n => Name n
             | Socket s, None => Socket s
             end in
    match routes_from_policy a policy with
    | Some r => By_policy r (routes_from_policy a)
    | None => Panics
    end in
  match profile with
  | Some p =>
      match p_addr p with
      | Some n =>
          if has_targets p then By_profile (routes_from_profile n p) (fun p => Some (routes_from_profile n p))
          else by_policy (Some n)
      | None => by_policy None
      end
  | None => by_policy None
  end.
(** sidecar.rs:402-412 *)
Definition opaq_sidecar (orig_dst : sock) (profile : option profile) (policy : client_policy) : following opaq_routes :=
  routes_from_discovery (Socket orig_dst) profile policy.

(** ** A connection of the sidecar *)

(** What serves a connection *)
Inductive served :=
| Http_stack (v : variant) (f : following routes)
| Opaq_stack (f : following opaq_routes)
| Tls_stack (f : following tls_routes).

(** Both watches, read at some time *)
Record reading := Reading { r_profile : option profile; r_policy : client_policy }.

(** protocol.rs:117-137: the protocol is read at [decided], the stack is built later: the profile is
    asked at [asked], and used, as is the policy, at [built]. *)
Definition serve (orig_dst : sock) (decided asked built : reading) (d : detection) : served :=
  match stack_of (protocol_of (r_profile decided) (r_policy decided)) d with
  | S_http v => Http_stack v (http_sidecar orig_dst v (r_profile asked) (r_profile built) (r_policy built))
  | S_opaque => Opaq_stack (opaq_sidecar orig_dst (r_profile built) (r_policy built))
  | S_tls => Tls_stack (tls_sidecar orig_dst (r_policy built))
  end.

(** ** ingress.rs *)

(** ingress.rs:34-38 *)
Inductive request_target := Named (a : name_addr) | Orig (a : sock).
(** ingress.rs:58 *)
Definition DST_OVERRIDE : bytes := bs "l5d-dst-override"%string.

Section Ingress.
(** The `http` crate's parser of authorities *)
Variable parse_authority : bytes -> option FilterModel.authority.

(** addr/src/lib.rs:201-209 *)
Definition from_authority_with_default_port (a : FilterModel.authority) (default : N) : option name_addr :=
  match from_str_and_port (FilterModel.a_host a) (match FilterModel.a_port a with Some p => p | None => default end) with
  | inl n => Some n
  | inr _ => None
  end.
(** ingress.rs:356-379; [None] is InvalidOverrideHeader. *)
Definition select_target (orig_dst : sock) (hs : FilterModel.headers) : option request_target :=
  match Http1Model.authority_from_header parse_authority hs DST_OVERRIDE with
  | Some a => option_map Named (from_authority_with_default_port a 80)
  | None => Some (Orig orig_dst)
  end.
End Ingress.

(** What becomes of a request in ingress mode: refused (`DiscoveryRequired`, `PolicyRequired`), or
    served, with an address (`Logical`) *)
Inductive ingress := Required | Served (a : addr) (f : following routes).
(** ingress.rs:433-519: [seen], [profile] and [policy] as in [http_sidecar] *)
Definition ingress_http (t : request_target) (v : variant) (seen profile : option profile) (policy : client_policy) : ingress :=
  match match seen with Some s => should_override_policy s | None => None end, profile with
  | Some a, Some p => Served (Name a) (By_profile (mk_profile_routes a p) (fun p => Some (mk_profile_routes a p)))
  | _, _ =>
      let a := match t with Named n => Name n | Orig s => Socket s end in
      match mk_policy_routes a v policy with
      | Some r => Served a (By_policy r (mk_policy_routes a v))
      | None => Required
      end
  end.
(** ingress.rs:622-633, of what is not HTTP (ingress.rs:325-338) *)
Definition ingress_opaque (orig_dst : sock) (profile : option profile) (policy : client_policy) : following opaq_routes :=
  routes_from_discovery (Socket orig_dst) profile policy.
