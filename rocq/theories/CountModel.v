(** Model of the counters of authorizations: linkerd/app/inbound/src/metrics/authz.rs, where
    policy/tcp.rs and policy/http.rs use them, and linkerd/proxy/server-policy/src/meta.rs.
    The checks themselves are those of PolicyModel.v; here policies have their names. *)
From Coq Require Import String List Arith NArith Bool.
From Verif Require Import Bytes RouteModel FilterModel AuthzModel PolicyModel.
Import ListNotations.

(** ** Names: server-policy/src/meta.rs *)

(** meta.rs:3-13 *)
Inductive meta := M_default (name : bytes) | M_resource (group kind name : bytes).
(** meta.rs:22-27 *)
Definition name (m : meta) : bytes := match m with M_default n => n | M_resource _ _ n => n end.
(** meta.rs:29-34 *)
Definition kind (m : meta) : bytes := match m with M_default _ => bs "default"%string | M_resource _ k _ => k end.
(** meta.rs:36-41 *)
Definition group (m : meta) : bytes := match m with M_default _ => [] | M_resource g _ _ => g end.
(** meta.rs:48-53 *)
Definition meta_eq (a b : meta) : bool :=
  beq (group a) (group b) && beq (kind a) (kind b) && beq (name a) (name b).

(** ** Policies with names: server-policy/src/lib.rs *)

(** authz.rs:8-13 *)
Record lauthz := LAuthz { la_meta : meta; la_authz : authorization }.
(** lib.rs:40-45 *)
Record lroute (F : Type) := LRoute { lr_meta : meta; lr_authorizations : list lauthz; lr_filters : list F }.
Arguments LRoute {F}. Arguments lr_meta {F}. Arguments lr_authorizations {F}. Arguments lr_filters {F}.
(** lib.rs:26-38 *)
Inductive lprotocol :=
| L_detect (http : list (route match_request (lroute http_filter))) (timeout : N) (tcp : list lauthz)
| L_http1 (http : list (route match_request (lroute http_filter)))
| L_http2 (http : list (route match_request (lroute http_filter)))
| L_grpc (grpc : list (route match_grpc (lroute grpc_filter)))
| L_tls (tcp : list lauthz)
| L_opaque (tcp : list lauthz).
(** lib.rs:19-24; of the rate limit, its name, local_rate_limit.rs `LocalRateLimit::meta` *)
Record server := Server { s_meta : meta; s_protocol : lprotocol; s_limit : option meta }.

(** ** Keys: metrics/authz.rs *)

(** `SocketAddr` *)
Record sock := Sock { sk_ip : ip; sk_port : N }.
(** app/core/src/metrics.rs `ServerLabel`, `ServerAuthzLabels`, `RouteLabels`, `RouteAuthzLabels`,
    and authz.rs:60-65.  The port is that of the target. *)
Inductive labels :=
| L_server (server : meta) (port : N)
| L_server_authz (server : meta) (port : N) (authz : meta)
| L_route (server : meta) (port : N) (route : meta)
| L_route_authz (server : meta) (port : N) (route authz : meta)
| L_limit (server : meta) (port : N) (limit : option meta) (scope : bytes).
(** authz.rs:67-72; the labels of TLS are those that [tls] has, without a server's name *)
Record key := Key { k_target : sock; k_tls : tls; k_labels : labels }.
(** authz.rs:46-58: which map a counter is in *)
Inductive counter :=
| Tcp_allow | Tcp_deny | Tcp_terminate
| Http_allow | Http_deny | Http_not_found | Http_limited.

(** Derived `PartialEq` of `IpAddr`, of the standard library; for authz.rs:67 *)
Definition ip_eq (a b : ip) : bool :=
  match a, b with V4 a, V4 b => N.eqb a b | V6 a, V6 b => N.eqb a b | _, _ => false end.
(** Derived `PartialEq` of `SocketAddr`; for authz.rs:67 *)
Definition sock_eq (a b : sock) : bool := ip_eq (sk_ip a) (sk_ip b) && N.eqb (sk_port a) (sk_port b).
(** linkerd/identity/src/lib.rs:23, derived *)
Definition id_eq (a b : id) : bool :=
  match a, b with Dns a, Dns b => beq a b | Uri a, Uri b => beq a b | _, _ => false end.
(** Derived `PartialEq` of `Option`; for authz.rs:67 *)
Definition opt_eq {A} (eq : A -> A -> bool) (a b : option A) : bool :=
  match a, b with None, None => true | Some a, Some b => eq a b | _, _ => false end.
(** linkerd/tls/src/server.rs `ServerTlsLabels`, derived *)
Definition tls_eq (a b : tls) : bool :=
  match a, b with
  | Established a, Established b => opt_eq id_eq a b
  | Passthru, Passthru => true
  | No_tls, No_tls => true
  | _, _ => false
  end.
(** authz.rs:60 and app/core/src/metrics.rs, derived, for labels of the same type *)
Definition labels_eq (a b : labels) : bool :=
  match a, b with
  | L_server s p, L_server s' p' => meta_eq s s' && N.eqb p p'
  | L_server_authz s p a, L_server_authz s' p' a' => meta_eq s s' && N.eqb p p' && meta_eq a a'
  | L_route s p r, L_route s' p' r' => meta_eq s s' && N.eqb p p' && meta_eq r r'
  | L_route_authz s p r a, L_route_authz s' p' r' a' =>
      meta_eq s s' && N.eqb p p' && meta_eq r r' && meta_eq a a'
  | L_limit s p l x, L_limit s' p' l' x' => meta_eq s s' && N.eqb p p' && opt_eq meta_eq l l' && beq x x'
  | _, _ => false
  end.
(** authz.rs:67, derived *)
Definition key_eq (a b : key) : bool :=
  sock_eq (k_target a) (k_target b) && tls_eq (k_tls a) (k_tls b) && labels_eq (k_labels a) (k_labels b).
(** Which of the maps of authz.rs:46-58 it is *)
Definition counter_eq (a b : counter) : bool :=
  match a, b with
  | Tcp_allow, Tcp_allow | Tcp_deny, Tcp_deny | Tcp_terminate, Tcp_terminate
  | Http_allow, Http_allow | Http_deny, Http_deny | Http_not_found, Http_not_found
  | Http_limited, Http_limited => true
  | _, _ => false
  end.

(** The maps of authz.rs:46-58 in one list.  A counter is a number without a bound here. *)
Definition counts := list (counter * key * N).
(** authz.rs:85-130, 188-214: `entry(key).or_default().incr()` *)
Fixpoint incr (c : counter) (k : key) (m : counts) : counts :=
  match m with
  | [] => [(c, k, 1%N)]
  | (c', k', n) :: m =>
      if counter_eq c c' && key_eq k k' then (c', k', N.succ n) :: m else (c', k', n) :: incr c k m
  end.
(** What authz.rs:133-186, 218-244 print for a key *)
Fixpoint value (m : counts) (c : counter) (k : key) : N :=
  match m with
  | [] => 0%N
  | (c', k', n) :: m => if counter_eq c c' && key_eq k k' then n else value m c k
  end.

(** ** Connections and requests *)

(** policy/tcp.rs:43-52, policy/http.rs:38-44 `ConnectionMeta` *)
Record client := Client { c_ip : ip; c_tls : tls; c_dst : sock }.
(** A request, its URI, and which of its injected failures happen; http.rs:172 *)
Record ask := Ask { a_request : request; a_uri : uri; a_draw : nat -> bool }.

(** policy.rs:150-152: `server_label` of the policy in force *)
Definition server_key (s : server) (c : client) : key :=
  Key (c_dst c) (c_tls c) (L_server (s_meta s) (sk_port (c_dst c))).
(** policy/tcp.rs:196-213 and http.rs:226-229 *)
Definition lfind (l : list lauthz) (c : client) : option lauthz :=
  List.find (fun a => is_authorized (la_authz a) (c_ip c) (c_tls c)) l.
(** policy/tcp.rs:183-219 and policy.rs:214-228 `ServerPermit::new` *)
Definition check (s : server) (c : client) : option key :=
  match s_protocol s with
  | L_detect _ _ l | L_tls l | L_opaque l =>
      option_map (fun a => Key (c_dst c) (c_tls c)
                             (L_server_authz (s_meta s) (sk_port (c_dst c)) (la_meta a))) (lfind l c)
  | _ => None
  end.

(** Where a connection is: policy/tcp.rs:64-175 *)
Inductive conn_state :=
| C_new
| C_permitted (permit : key)  (* tcp.rs:73-74; the reference to the policy is gone *)
| C_denied                    (* the same *)
| C_open                      (* in the loop of tcp.rs:158-175 *)
| C_refused | C_ended | C_terminated.
(** Where a request is: policy/http.rs:172-207 *)
Inductive ask_state :=
| Q_new
| Q_routed (routes : server)  (* `routes()` has returned the routes of this policy *)
| Q_passed (hs : headers)     (* authorized, and its filters let it pass *)
| Q_done (r : response).
(** policy.rs:154-166 and local_rate_limit.rs `RateLimitError` *)
Inductive limit_error := E_total | E_per_identity | E_override.
(** policy.rs:154-166 *)
Definition scope (e : limit_error) : bytes :=
  match e with E_total => bs "total"%string | E_per_identity | E_override => bs "identity"%string end.
(** policy.rs:154-166 *)
Definition limit_key (s : server) (c : client) (e : limit_error) : key :=
  Key (c_dst c) (c_tls c) (L_limit (s_meta s) (sk_port (c_dst c)) (s_limit s) (scope e)).

(** What happened to a connection or request, for theorems; not code.  [Checked s]: the policy [s]
    decided.  [Counted s c k]: the counter [c] was incremented for [k] while [s] was in force. *)
Inductive note := Checked (s : server) | Counted (s : server) (c : counter) (k : key).
(** A connection (tcp.rs) or a request (http.rs) that has its own reference to the policy *)
Inductive what := W_conn (s : conn_state) | W_ask (q : ask) (s : ask_state).
(** As above, with its client; the notes are not code *)
Record task := Task { t_client : client; t_what : what; t_notes : list note }.
(** The proxy's side of one policy: policy.rs:59-63 and metrics/authz.rs:40-44 *)
Record world := World { w_server : server; w_counts : counts; w_tasks : list task }.

(** What a request that has been authorized, or not, does next: http.rs:172-313.  [inr]: its
    route and authorization, and then its filters' answer. *)
Inductive verdict :=
| V_not_found
| V_denied (route : meta)
| V_allowed (route authz : meta) (filtered : headers + response).
(** http.rs:213-313, given the route that was found *)
Definition authorize {S F} (found : option ((option host_match * S) * lroute F)) (c : client)
  (filters : S -> list F -> headers + response) : verdict :=
  match found with
  | None => V_not_found
  | Some ((_, m), r) =>
      match lfind (lr_authorizations r) c with
      | Some a => V_allowed (lr_meta r) (la_meta a) (filters m (lr_filters r))
      | None => V_denied (lr_meta r)
      end
  end.
(** http.rs:176-199 with policy.rs:177-186 *)
Definition decide (pq_valid : bytes -> bool) (s : server) (c : client) (q : ask) : verdict :=
  let hs := rq_headers (a_request q) in
  match s_protocol s with
  | L_detect routes _ _ | L_http1 routes | L_http2 routes =>
      authorize (http_find routes (a_request q)) c
        (fun m fs => apply_http_filters pq_valid (a_draw q) 0 fs (a_uri q) m hs)
  | L_grpc routes =>
      authorize (grpc_find routes (a_request q)) c (fun _ fs => apply_grpc_filters (a_draw q) 0 fs hs)
  | L_tls _ | L_opaque _ => V_not_found
  end.

(** One step of a connection, tcp.rs:64-175: what it becomes, and what is counted.  [w] is the
    policy in force.  [ended]: the forwarded connection ended; else `changed()` returned.  The
    reference of tcp.rs:161 is held until `terminate` has counted (see LockModel.v), so both see one
    policy; that of tcp.rs:72-76 is not. *)
Definition step_conn (w : server) (c : client) (s : conn_state) (ended : bool) : conn_state * list note :=
  match s with
  | C_new =>
      match check w c with
      | Some k => (C_permitted k, [Checked w])
      | None => (C_denied, [Checked w])
      end
  | C_permitted k => (C_open, [Counted w Tcp_allow k])
  | C_denied => (C_refused, [Counted w Tcp_deny (server_key w c)])
  | C_open =>
      if ended then (C_ended, [])
      else
        match check w c with
        | Some _ => (C_open, [])
        | None => (C_terminated, [Checked w; Counted w Tcp_terminate (server_key w c)])
        end
  | C_refused | C_ended | C_terminated => (s, [])
  end.
(** One step of a request, http.rs:172-207: [limit] is what the limiter of the policy in force says.
    The reference of http.rs:333 is held until `ratelimit` has counted. *)
Definition step_ask (pq_valid : bytes -> bool) (w : server) (c : client) (q : ask) (s : ask_state)
  (limit : option limit_error) : ask_state * list note :=
  let port := sk_port (c_dst c) in
  let k l := Key (c_dst c) (c_tls c) l in
  match s with
  | Q_new => (Q_routed w, [Checked w])
  | Q_routed p =>
      match decide pq_valid p c q with
      (* http.rs:315-323 *)
      | V_not_found => (Q_done R_not_found, [Counted w Http_not_found (server_key w c)])
      (* http.rs:221-224, 275-280 *)
      | V_denied r => (Q_done R_unauthorized, [Counted w Http_deny (k (L_route (s_meta w) port r))])
      (* http.rs:221-224, 283-311 *)
      | V_allowed r a f =>
          (match f with inl hs => Q_passed hs | inr e => Q_done e end,
           [Counted w Http_allow (k (L_route_authz (s_meta w) port r a))])
      end
  (* http.rs:325-345 *)
  | Q_passed hs =>
      match limit with
      | None => (Q_done (R_forward hs), [])
      | Some e => (Q_done R_limited, [Counted w Http_limited (limit_key w c e)])
      end
  | Q_done _ => (s, [])
  end.

(** What the policy's stream, the clients and the scheduler do; tcp.rs:64, http.rs:172 *)
Inductive event :=
| Publish (s : server)
| Connect (c : client)
| Arrive (c : client) (q : ask)
| Run (i : nat) (ended : bool) (limit : option limit_error).

(** The increments that a step makes; metrics/authz.rs:85-130, 188-214 *)
Definition count_all (l : list note) (m : counts) : counts :=
  fold_left (fun m n => match n with Counted _ c k => incr c k m | Checked _ => m end) l m.
(** Helper: replace the i-th task *)
Fixpoint set {A} (l : list A) (i : nat) (x : A) : list A :=
  match l, i with
  | [], _ => []
  | _ :: l, O => x :: l
  | y :: l, S i => y :: set l i x
  end.
(** One event: tcp.rs:64-175, http.rs:172-345 *)
Definition handle (pq_valid : bytes -> bool) (w : world) (e : event) : world :=
  match e with
  | Publish s => World s (w_counts w) (w_tasks w)
  | Connect c => World (w_server w) (w_counts w) (w_tasks w ++ [Task c (W_conn C_new) []])
  | Arrive c q => World (w_server w) (w_counts w) (w_tasks w ++ [Task c (W_ask q Q_new) []])
  | Run i ended limit =>
      match nth_error (w_tasks w) i with
      | None => w
      | Some t =>
          let '(x, l) :=
            match t_what t with
            | W_conn s => let '(s, l) := step_conn (w_server w) (t_client t) s ended in (W_conn s, l)
            | W_ask q s => let '(s, l) := step_ask pq_valid (w_server w) (t_client t) q s limit in (W_ask q s, l)
            end in
          World (w_server w) (count_all l (w_counts w))
                (set (w_tasks w) i (Task (t_client t) x (t_notes t ++ l)))
      end
  end.
(** Any history; not code of its own *)
Definition run (pq_valid : bytes -> bool) (s : server) (es : list event) : world :=
  fold_left (handle pq_valid) es (World s [] []).
