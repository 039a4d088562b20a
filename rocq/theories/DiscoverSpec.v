(** What the theorems about the discovery of destinations say, apart from the model's own functions. *)
From Coq Require Import String List NArith Bool.
From Verif Require Import Bytes NameModel EndpointModel DnsModel ProfileModel DiscoverModel.
From Verif Require RouteModel FilterModel Http1Model.
Import ListNotations.
Open Scope N_scope.

(** The gRPC status an error is about: the first one among its causes *)
Definition status_of (e : error) (code : N) : Prop :=
  exists a b, e = a ++ Status code :: b /\ forall c, ~ In (Status c) a.

(** The policy controller does not know the destination (5) or the API (12). *)
Definition not_served (e : error) : Prop := status_of e 5 \/ status_of e 12.

(** The control plane refuses to say anything: the first cause of an error that tells is a rejection,
    an invalid argument (3) or a failed precondition (9). *)
Definition refused (e : error) : Prop :=
  exists a x b, e = a ++ x :: b /\ (forall y, In y a -> y = Other_error) /\
    (x = Rejected \/ x = Status 3 \/ x = Status 9).

(** What the answers to the lookups of a profile and of a policy come to *)
Inductive discovered {P W} : (option P + error) -> (W + error) -> option (option P * source W) -> Prop :=
| By_control : forall pr w, discovered (inl pr) (inl w) (Some (pr, From_control w))
| By_control_alone : forall e w, discovered (inr e) (inl w) (Some (None, From_control w))
| By_its_profile : forall p e, not_served e -> discovered (inl (Some p)) (inr e) (Some (Some p, From_profile))
| By_none : forall e, not_served e -> discovered (inl None) (inr e) (Some (None, From_nothing))
| By_failure : forall e e', not_served e -> discovered (inr e') (inr e) (Some (None, From_nothing))
| Not_at_all : forall pr e, ~ not_served e -> discovered pr (inr e) None.

(** A route without filters that leads to one place *)
Definition leads_to (p : route_policy) (d : dispatcher) : Prop :=
  rp_filters p = [] /\ rp_params p = 0 /\
  exists b, rp_distribution p = First_available [RouteBackend [] b] /\ b_dispatcher b = d.
(** Every request, over either version of HTTP, and every other connection leads to one place, once
    it has been found out which of these it is. *)
Definition all_to (p : client_policy) (timeout : N) (d : dispatcher) : Prop :=
  exists h1 h2 o, cp_protocol p = P_detect timeout h1 h2 (Some o) /\ leads_to o d /\
    (forall req, exists s r, RouteModel.http_find (fst h1) req = Some (s, r) /\ leads_to r d) /\
    (forall req, exists s r, RouteModel.http_find (fst h2) req = Some (s, r) /\ leads_to r d) /\
    exists b, cp_backends p = [b] /\ b_dispatcher b = d.
(** No request and no connection leads anywhere. *)
Definition all_nowhere (p : client_policy) : Prop :=
  exists t h1 h2, cp_protocol p = P_detect t h1 h2 None /\ cp_backends p = [] /\
    (forall req, RouteModel.http_find (fst h1) req = None) /\
    (forall req, RouteModel.http_find (fst h2) req = None).

(** ** Watches *)

(** What the source has held, the newest value last: nothing is published once it is closed. *)
Fixpoint held {A} (a : A) (es : list (event A)) : list A :=
  match es with
  | [] => [a]
  | Published b :: es => a :: held b es
  | Closed :: _ => [a]
  | _ :: es => held a es
  end.
(** What the source holds *)
Fixpoint holds {A} (a : A) (es : list (event A)) : A :=
  match es with
  | [] => a
  | Published b :: es => holds b es
  | Closed :: _ => a
  | _ :: es => holds a es
  end.
(** The [i]th thing the source held gives [b]. *)
Definition gives {A B} (mk : A -> option B) (a : A) (es : list (event A)) (i : nat) (b : B) : Prop :=
  exists x, nth_error (held a es) i = Some x /\ mk x = Some b.

(** ** Connections *)

(** A profile that replaces the policy of HTTP requests, for a service *)
Definition overrides (p : profile) (a : name_addr) : Prop :=
  p_addr p = Some a /\ (p_routes p <> [] \/ p_targets p <> []).
(** Kinds of policies *)
Definition is_http (p : client_policy) : Prop :=
  match cp_protocol p with P_detect _ _ _ _ | P_http1 _ | P_http2 _ | P_grpc _ => True | _ => False end.
Definition is_tls (p : client_policy) : Prop := exists r, cp_protocol p = P_tls r.
Definition is_opaque (p : client_policy) : Prop :=
  match cp_protocol p with P_detect _ _ _ _ | P_opaque _ => True | _ => False end.
Definition says_opaque (p : option profile) : Prop := exists q, p = Some q /\ p_opaque q = true.

(** The connection cannot be served: the proxy panics. *)
Definition breaks (s : served) : Prop :=
  match s with
  | Http_stack _ f => f = Panics
  | Opaq_stack f => f = Panics
  | Tls_stack f => f = Panics
  end.

(** Two readings of the watches of one destination: there is a profile in both, or in neither *)
Definition both_ways (t1 t2 : reading) : Prop := r_profile t1 = None <-> r_profile t2 = None.
(** A profile that splits the traffic of a service *)
Definition splits (p : profile) : Prop := p_addr p <> None /\ p_targets p <> [].
(** The routes of the service [n] for opaque traffic, divided as a profile says: each target is a
    load-balanced destination, picked by its weight, with the proxy's own estimator and a queue of
    100 connections and three seconds. *)
Definition divides (n : name_addr) (p : profile) (r : opaq_routes) : Prop :=
  o_addr r = Name n /\ exists pol l, o_routes r = Some pol /\ rp_filters pol = [] /\
    rp_distribution pol = Random_available l /\
    Forall2 (fun t b => snd b = t_weight t /\ rb_filters (fst b) = [] /\
               b_queue (rb_backend (fst b)) = Queue 100 3000000000 /\
               b_dispatcher (rb_backend (fst b)) = Balance 1 (name_addr_to_string (t_addr t)))
            (p_targets p) l /\
    o_backends r = map (fun b => rb_backend (fst b)) l.

(** The HTTP routes and the policy that a client policy has for a version of HTTP *)
Inductive has_routes (p : client_policy) (v : variant) : http_routes * option N -> Prop :=
| Of_detect1 : forall t h1 h2 o, v = Http1 -> cp_protocol p = P_detect t h1 h2 o -> has_routes p v h1
| Of_detect2 : forall t h1 h2 o, v = H2 -> cp_protocol p = P_detect t h1 h2 o -> has_routes p v h2
| Of_http1 : forall h, cp_protocol p = P_http1 h -> has_routes p v h
| Of_http2 : forall h, cp_protocol p = P_http2 h -> has_routes p v h.
(** The routes a client policy stands for, at an address *)
Inductive stands_for (a : addr) (p : client_policy) (v : variant) : routes -> Prop :=
| For_http : forall h, has_routes p v h ->
    stands_for a p v (R_http a (cp_parent p) (fst h) (cp_backends p) (snd h))
| For_grpc : forall g, cp_protocol p = P_grpc g ->
    stands_for a p v (R_grpc a (cp_parent p) (fst g) (cp_backends p) (snd g)).

(** Why a connection is taken for HTTP, of a version *)
Inductive taken_for_http (p : client_policy) (d : detection) : variant -> Prop :=
| Said_http1 : forall h, cp_protocol p = P_http1 h -> taken_for_http p d Http1
| Said_http2 : forall h, cp_protocol p = P_http2 h -> taken_for_http p d H2
| Said_grpc : forall g, cp_protocol p = P_grpc g -> taken_for_http p d H2
| Found : forall t h1 h2 o v, cp_protocol p = P_detect t h1 h2 o -> d = Some v -> taken_for_http p d v.

(** ** Services *)

(** The name of a Kubernetes service: [name].[namespace].svc, perhaps with more labels *)
Definition service_name (n name namespace : bytes) : Prop :=
  exists svc rest, n = name ++ [46] ++ namespace ++ [46] ++ svc ++ rest /\
    (rest = [] \/ exists r, rest = 46 :: r) /\
    eq_ignore_case svc (bs "svc"%string) = true /\ ~ In 46 name /\ ~ In 46 namespace.
