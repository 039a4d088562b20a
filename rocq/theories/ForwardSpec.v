(** What is to be said of outbound connections that are not HTTP (C120), of their counters (C121) and of the kinds of
    errors (C122) *)
From Coq Require Import String List NArith.
From Verif Require Import Bytes NameModel EndpointModel ClientPolicyModel.
From Verif Require Import ForwardModel.
From Verif Require DnsModel DistributeModel DistributeSpec OutboundModel OutboundSpec TlsRouteModel TlsRouteSpec.
Import ListNotations.
Open Scope N_scope.

(** ** The way of a connection *)

(** The route that a connection takes: its labels, its filters and its backends.  For TLS it is the first of the best routes
    for the name that the client asks for (C94); the labels have the name only if the policy says so. *)
Inductive takes : routes -> hello -> labels -> flavor -> list tcp_filter ->
                  DistributeModel.distribution (list tcp_filter * concrete) -> Prop :=
| takes_opaq a p t h :
    takes (Opaq_routes a p (Some t)) h (Labels p (ta_meta t) (To_addr a)) Opaq_stack (ta_filters t) (ta_distribution t)
| takes_tls a p rts sni t :
    TlsRouteSpec.tls_first_best rts sni t ->
    takes (Tls_routes a p rts) (Found (Some sni))
      (Labels p (ta_meta t) (To_host (if ta_params t then Some sni else None))) Tls_stack (ta_filters t) (ta_distribution t).
(** What a filter says to a connection *)
Definition says (f : flavor) (x : tcp_filter) : cause :=
  match x with
  | Forbidden => Forbidden_route f
  | Invalid m => Invalid_backend f m
  | Tcp_error m => Invalid_policy f m
  end.
(** Every distribution is one that can be made (C27). *)
Definition all_valid (rs : routes) : Prop :=
  match rs with
  | Opaq_routes _ _ None => True
  | Opaq_routes _ _ (Some t) => DistributeSpec.valid (ta_distribution t)
  | Tls_routes _ _ rts => forall rt, In rt rts -> DistributeSpec.valid (ta_distribution (TlsRouteModel.tr_policy rt))
  end.
(** A connection is refused for a reason, and counted by its labels. *)
Definition turned_away (l : labels) (why : cause) (s : selected) : Prop :=
  s = Selected l (Refused [Route_error (l_route l); why]).

(** ** Kinds of errors: that of the outermost error that is known *)
Section Kinds.
  Context {K : Type}.
  Variable known : cause -> K -> Prop.
  (** [e] is of the kind [k]; of [unknown] if it has no cause that is known *)
  Definition of_kind (unknown : K) (e : error) (k : K) : Prop :=
    (exists outer c inner, e = outer ++ c :: inner /\ known c k /\ forall d k', In d outer -> ~ known d k') \/
    (k = unknown /\ forall d k', In d e -> ~ known d k').
End Kinds.
(** What the counter of closed connections knows *)
Inductive known_closed : cause -> closed_kind -> Prop :=
| kc_forbidden f : known_closed (Forbidden_route f) K_forbidden
| kc_backend f m : known_closed (Invalid_backend f m) K_invalid_backend
| kc_policy f m : known_closed (Invalid_policy f m) K_invalid_policy.
(** What the outbound counters of errors know *)
Inductive known_outbound : cause -> error_kind -> Prop :=
| ko_io : known_outbound Io_error E_io
| ko_identity : known_outbound Identity_required E_identity_required
| ko_failfast : known_outbound Fail_fast E_fail_fast
| ko_timeout : known_outbound Response_timeout E_response_timeout
| ko_shed : known_outbound Load_shed E_load_shed.
(** What the inbound counters of errors know; refusals by policy are known but not counted here. *)
Inductive known_inbound : cause -> option error_kind -> Prop :=
| ki_server : known_inbound Server_unauthorized None
| ki_route : known_inbound Route_unauthorized None
| ki_not_found : known_inbound Route_not_found None
| ki_failfast : known_inbound Fail_fast (Some E_fail_fast)
| ki_io : known_inbound Io_error (Some E_io)
| ki_tls : known_inbound Tls_timeout (Some E_tls_timeout)
| ki_domain : known_inbound Gateway_domain_invalid (Some E_gateway_domain_invalid)
| ki_loop : known_inbound Gateway_loop (Some E_gateway_loop)
| ki_shed : known_inbound Load_shed (Some E_load_shed).

(** ** Histories *)

(** The routes in force after [es] *)
Definition in_force (rs : routes) (es : list event) (rs' : routes) : Prop :=
  (rs' = rs /\ forall r, ~ In (Update r) es) \/
  exists es1 es2, es = es1 ++ Update rs' :: es2 /\ forall r, ~ In (Update r) es2.
(** The connection [id] came, for [dst], when [rs'] was in force; [sel] is what was decided, and [after] came after. *)
Definition accepted (rs : routes) (es : list event) (id : N) (dst : sock) (rs' : routes) (sel : selected) (after : list event) : Prop :=
  exists before h ready draws, es = before ++ Accept id dst h ready draws :: after /\ in_force rs before rs' /\
    sel = select rs' h ready draws.
(** Every connection comes once. *)
Definition came (ev : event) : list N := match ev with Accept id _ _ _ _ => [id] | _ => [] end.
Definition once (es : list event) : Prop := NoDup (flat_map came es).
(** What happens to it first *)
Definition about (id : N) (ev : event) : Prop := (exists x, ev = End id x) \/ ev = Gone id.
Definition first_about (id : N) (es : list event) (ev : event) : Prop :=
  about id ev /\ exists es1 es2, es = es1 ++ ev :: es2 /\ forall e, In e es1 -> ~ about id e.
(** How the end of a connection is told: an endpoint that a balancer cannot connect to is named by the balancer; then the
    route and the router are named. *)
Definition told (a : DnsModel.addr) (route : meta) (c : concrete) (x : ending) (r : option error) : Prop :=
  match x with
  | Finished => r = None
  | Broken e => r = Some (Logical_error a :: Route_error route :: e)
  | Not_connected e =>
      exists w, r = Some (Logical_error a :: Route_error route :: w ++ e) /\
        ((exists n l, c_target c = Balance n l /\ w = [Concrete_error n]) \/
         ((forall n l, c_target c <> Balance n l) /\ w = []))
  end.
(** The destination that routes are for *)
Definition destination (rs : routes) : DnsModel.addr := match rs with Opaq_routes a _ _ => a | Tls_routes a _ _ => a end.
(** What a connection came to *)
Inductive comes_to (rs : routes) (es : list event) (id : N) : sock -> option labels -> option error -> Prop :=
| without_route dst rs' e after :
    accepted rs es id dst rs' (No_selection e) after -> comes_to rs es id dst None (Some e)
| refused dst rs' l e after :
    accepted rs es id dst rs' (Selected l (Refused e)) after ->
    comes_to rs es id dst (Some l) (Some (Logical_error (destination rs') :: e))
| ended dst rs' l c after x r :
    accepted rs es id dst rs' (Selected l (Begun c)) after -> first_about id after (End id x) ->
    told (destination rs') (l_route l) c x r -> comes_to rs es id dst (Some l) r.
(** A connection goes on. *)
Definition goes_on (rs : routes) (es : list event) (id : N) (l : labels) (c : concrete) : Prop :=
  exists dst rs' after, accepted rs es id dst rs' (Selected l (Begun c)) after /\ forall e, In e after -> ~ about id e.

(** ** Counters *)

(** Labels that are the same to a counter.  Namespaces, sections and ports of parents and routes make no difference. *)
Definition same_meta (a b : meta) : Prop := group a = group b /\ kind a = kind b /\ name a = name b.
Definition same_series (a b : labels) : Prop :=
  same_meta (l_parent a) (l_parent b) /\ same_meta (l_route a) (l_route b) /\ l_goal a = l_goal b.
(** A connection that was closed, and why *)
Definition closes (rs : routes) (es : list event) (id : N) (l : labels) (k : option closed_kind) : Prop :=
  exists dst r, comes_to rs es id dst (Some l) r /\
    match r with
    | None => k = None
    | Some e => exists k', k = Some k' /\ of_kind known_closed K_unexpected e k'
    end.
(** A connection that was opened *)
Definition opens (rs : routes) (es : list event) (id : N) (l : labels) : Prop :=
  exists dst rs' r after, accepted rs es id dst rs' (Selected l r) after.
(** A connection that failed, for [dst], with an error of the kind [k] *)
Definition fails (rs : routes) (es : list event) (id : N) (dst : sock) (k : error_kind) : Prop :=
  exists l e, comes_to rs es id dst l (Some e) /\ of_kind known_outbound E_unexpected e k.
(** A connection that the proxy dropped *)
Definition dropped (rs : routes) (es : list event) (id : N) (l : labels) : Prop :=
  exists dst rs' c after, accepted rs es id dst rs' (Selected l (Begun c)) after /\ first_about id after (Gone id).

(** What is read in the text of the metrics: a label without a value has the empty one. *)
Definition shown (v : value) : value := match v with Nothing => Text [] | _ => v end.
Definition text_of (l : labels) : list (bytes * value) := map (fun x => (fst x, shown (snd x))) (encode l).
(** Labels whose text tells all of what they say of where the connection was to go *)
Definition telling (l : labels) : Prop :=
  match l_goal l with To_addr (DnsModel.Name _) => False | To_host (Some h) => h <> [] | _ => True end.
