(** What C144 says *)
From Coq Require Import String List NArith Bool.
From Verif Require Import Bytes RouteModel FilterModel AuthzModel PolicyModel CountModel.
Import ListNotations.

(** The names that a policy shows: a default and a resource that look alike are the same. *)
Definition shown (m : meta) : bytes * bytes * bytes :=
  match m with
  | M_default n => ([], bs "default"%string, n)
  | M_resource g k n => (g, k, n)
  end.
Definition same_meta (a b : meta) : Prop := shown a = shown b.
Definition same_labels (a b : labels) : Prop :=
  match a, b with
  | L_server s p, L_server s' p' => same_meta s s' /\ p = p'
  | L_server_authz s p a, L_server_authz s' p' a' => same_meta s s' /\ p = p' /\ same_meta a a'
  | L_route s p r, L_route s' p' r' => same_meta s s' /\ p = p' /\ same_meta r r'
  | L_route_authz s p r a, L_route_authz s' p' r' a' => same_meta s s' /\ p = p' /\ same_meta r r' /\ same_meta a a'
  | L_limit s p l x, L_limit s' p' l' x' =>
      same_meta s s' /\ p = p' /\ option_map shown l = option_map shown l' /\ x = x'
  | _, _ => False
  end.
(** Two keys are of one series. *)
Definition same_key (a b : key) : Prop :=
  k_target a = k_target b /\ k_tls a = k_tls b /\ same_labels (k_labels a) (k_labels b).

(** Of a list, those that are increments of the counter [c] for the series of [k] *)
Inductive increments (c : counter) (k : key) : list note -> N -> Prop :=
| in_nil : increments c k [] 0
| in_yes : forall s k' l n, same_key k k' -> increments c k l n -> increments c k (Counted s c k' :: l) (n + 1)
| in_no : forall s c' k' l n, c <> c' \/ ~ same_key k k' -> increments c k l n ->
    increments c k (Counted s c' k' :: l) n
| in_check : forall s l n, increments c k l n -> increments c k (Checked s :: l) n.
(** All that happened to all connections and requests *)
Definition all_notes (w : world) : list note := concat (map t_notes (w_tasks w)).

(** An authorization applies; [first l c a]: [a] is the first that does *)
Definition applies (c : client) (a : lauthz) : Prop := is_authorized (la_authz a) (c_ip c) (c_tls c) = true.
Definition first (l : list lauthz) (c : client) (a : lauthz) : Prop :=
  exists before after, l = before ++ a :: after /\ applies c a /\ forall b, In b before -> ~ applies c b.
Definition none (l : list lauthz) (c : client) : Prop := forall a, In a l -> ~ applies c a.

(** The authorizations of connections *)
Definition of_connections (s : server) : list lauthz :=
  match s_protocol s with L_detect _ _ l | L_tls l | L_opaque l => l | _ => [] end.
(** The name and authorizations of the route of a request *)
Inductive route_of (q : ask) : lprotocol -> meta -> list lauthz -> Prop :=
| ro_http : forall p routes x r,
    (p = L_http1 routes \/ p = L_http2 routes \/ exists timeout l, p = L_detect routes timeout l) ->
    http_find routes (a_request q) = Some (x, r) ->
    route_of q p (lr_meta r) (lr_authorizations r)
| ro_grpc : forall routes x r,
    grpc_find routes (a_request q) = Some (x, r) ->
    route_of q (L_grpc routes) (lr_meta r) (lr_authorizations r).

(** The labels of a connection or request *)
Definition labelled (c : client) (l : labels) : key := Key (c_dst c) (c_tls c) l.
Definition port (c : client) : N := sk_port (c_dst c).

(** What may have happened to a connection *)
Inductive conn_history (c : client) : conn_state -> list note -> Prop :=
| ch_new : conn_history c C_new []
| ch_permitted : forall s a, first (of_connections s) c a ->
    conn_history c (C_permitted (labelled c (L_server_authz (s_meta s) (port c) (la_meta a)))) [Checked s]
| ch_open : forall st s s' a, st = C_open \/ st = C_ended -> first (of_connections s) c a ->
    conn_history c st
      [Checked s; Counted s' Tcp_allow (labelled c (L_server_authz (s_meta s) (port c) (la_meta a)))]
| ch_terminated : forall s s' a t, first (of_connections s) c a -> none (of_connections t) c ->
    conn_history c C_terminated
      [Checked s; Counted s' Tcp_allow (labelled c (L_server_authz (s_meta s) (port c) (la_meta a)));
       Checked t; Counted t Tcp_terminate (labelled c (L_server (s_meta t) (port c)))]
| ch_denied : forall s, none (of_connections s) c -> conn_history c C_denied [Checked s]
| ch_refused : forall s s', none (of_connections s) c ->
    conn_history c C_refused [Checked s; Counted s' Tcp_deny (labelled c (L_server (s_meta s') (port c)))].

(** How a request is counted that the policy [s] decides while [s'] is in force *)
Inductive counted (c : client) (q : ask) (s s' : server) : counter -> key -> Prop :=
| co_not_found : (forall m l, ~ route_of q (s_protocol s) m l) ->
    counted c q s s' Http_not_found (labelled c (L_server (s_meta s') (port c)))
| co_denied : forall m l, route_of q (s_protocol s) m l -> none l c ->
    counted c q s s' Http_deny (labelled c (L_route (s_meta s') (port c) m))
| co_allowed : forall m l a, route_of q (s_protocol s) m l -> first l c a ->
    counted c q s s' Http_allow (labelled c (L_route_authz (s_meta s') (port c) m (la_meta a))).
(** How the answer goes with the counter *)
Definition answer_of (ctr : counter) (r : response) : Prop :=
  match ctr with
  | Http_not_found => r = R_not_found
  | Http_deny => r = R_unauthorized
  | Http_allow => r <> R_not_found /\ r <> R_unauthorized /\ r <> R_limited
  | _ => False
  end.
(** What may have happened to a request *)
Inductive ask_history (c : client) (q : ask) : ask_state -> list note -> Prop :=
| ah_new : ask_history c q Q_new []
| ah_routed : forall s, ask_history c q (Q_routed s) [Checked s]
| ah_passed : forall s s' k hs, counted c q s s' Http_allow k ->
    ask_history c q (Q_passed hs) [Checked s; Counted s' Http_allow k]
| ah_done : forall s s' ctr k r, counted c q s s' ctr k -> answer_of ctr r ->
    ask_history c q (Q_done r) [Checked s; Counted s' ctr k]
| ah_limited : forall s s' k t e, counted c q s s' Http_allow k ->
    ask_history c q (Q_done R_limited)
      [Checked s; Counted s' Http_allow k;
       Counted t Http_limited
         (labelled c (L_limit (s_meta t) (port c) (s_limit t)
            match e with E_total => bs "total"%string | _ => bs "identity"%string end))].

(** A connection that was accepted or refused; a request that was decided *)
Definition conn_decided (t : task) : bool :=
  match t_what t with W_conn (C_open | C_refused | C_ended | C_terminated) => true | _ => false end.
Definition ask_decided (t : task) : bool :=
  match t_what t with W_ask _ (Q_passed _ | Q_done _) => true | _ => false end.
Definition conn_terminated (t : task) : bool :=
  match t_what t with W_conn C_terminated => true | _ => false end.
Definition ask_limited (t : task) : bool :=
  match t_what t with W_ask _ (Q_done R_limited) => true | _ => false end.
Definition number (f : task -> bool) (w : world) : N := N.of_nat (List.length (filter f (w_tasks w))).
(** All series of a counter together *)
Definition total (w : world) (c : counter) : N :=
  fold_right N.add 0%N (map (fun '(c', _, n) => if counter_eq c c' then n else 0%N) (w_counts w)).

(** The policies of a history; whether a note is of one of them *)
Definition published (es : list event) : list server :=
  flat_map (fun e => match e with Publish s => [s] | _ => [] end) es.
Definition note_server (n : note) : server := match n with Checked s => s | Counted s _ _ => s end.
Definition labels_server (l : labels) : meta :=
  match l with
  | L_server s _ | L_server_authz s _ _ | L_route s _ _ | L_route_authz s _ _ _ | L_limit s _ _ _ => s
  end.

(** A policy without its names *)
Definition erase_rule {M F} (r : rule M (lroute F)) : rule M (route_policy F) :=
  Rule (ru_matches r) (RoutePolicy (map la_authz (lr_authorizations (ru_policy r))) (lr_filters (ru_policy r))).
Definition erase_route {M F} (r : route M (lroute F)) : route M (route_policy F) :=
  Route (rt_hosts r) (map erase_rule (rt_rules r)).
Definition erase (p : lprotocol) : protocol :=
  match p with
  | L_detect r t l => Detect (map erase_route r) t (map la_authz l)
  | L_http1 r => Http1 (map erase_route r)
  | L_http2 r => Http2 (map erase_route r)
  | L_grpc r => Grpc (map erase_route r)
  | L_tls l => Tls (map la_authz l)
  | L_opaque l => Opaque (map la_authz l)
  end.
