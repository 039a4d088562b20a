(** The way of an outbound connection that is not HTTP through the route that a client policy gives it, and the counters
    of such connections: linkerd/app/outbound/src/opaq/logical/{router,route}.rs, opaq/logical/route/filters.rs,
    opaq/concrete.rs, their counterparts in linkerd/app/outbound/src/tls, metrics/transport.rs and metrics/error.rs, with
    linkerd/tls/src/server/required_sni.rs, linkerd/proxy/tcp/src/forward.rs and linkerd/app/inbound/src/metrics/error.rs.
    Paths without a directory are in linkerd/app/outbound/src. *)
From Coq Require Import String List NArith Bool.
From Verif Require Import Bytes NameModel EndpointModel ClientPolicyModel.
From Verif Require DnsModel DistributeModel OutboundModel TlsRouteModel PeekModel PromModel.
Import ListNotations.
Open Scope N_scope.

(** Which of the two stacks: opaq.rs, tls.rs *)
Inductive flavor := Opaq_stack | Tls_stack.
(** The errors that are told apart: opaq/logical/route/filters.rs:97-111, tls/logical/route/filters.rs:97-111,
    opaq/logical.rs:35-45, opaq/logical/route.rs:46-53, opaq/concrete.rs:39-49, linkerd/tls/src/server/required_sni.rs:17-23,
    metrics/error.rs:28-46 and linkerd/app/inbound/src/metrics/error.rs:30-60 *)
Inductive cause :=
| Forbidden_route (f : flavor) | Invalid_backend (f : flavor) (m : bytes) | Invalid_policy (f : flavor) (m : bytes)
| No_route (f : flavor) | Load_shed | Fail_fast | Dispatcher_failed (m : bytes) | Sni_timeout | Sni_missing | Io_error
| Identity_required | Response_timeout | Stream_timeout
| Server_unauthorized | Route_unauthorized | Route_not_found | Tls_timeout | Gateway_domain_invalid | Gateway_loop
| Route_error (r : meta) | Logical_error (a : DnsModel.addr) | Concrete_error (a : name_addr) | Other_cause (n : N).
(** An error, its source, the source's source, and so on: `std::error::Error::source` *)
Definition error := list cause.

(** opaq/logical/route/filters.rs:49-70, tls/logical/route/filters.rs:49-70: only the first filter is ever looked at *)
Definition apply_filters (f : flavor) (fs : list tcp_filter) : option cause :=
  match fs with
  | [] => None
  | Forbidden :: _ => Some (Forbidden_route f)
  | Invalid m :: _ => Some (Invalid_backend f m)
  | Tcp_error m :: _ => Some (Invalid_policy f m)
  end.

(** The backends that are ready and the numbers that are drawn, as [OutboundModel.choose] takes them *)
Definition among (ready : nat -> bool) (draws : nat -> N) : OutboundModel.trial :=
  OutboundModel.Trial (fun _ => 0) (fun _ => 0) ready draws [] (fun _ _ => RetryModel.Err []).

(** What becomes of a connection when its route is called *)
Inductive start := Refused (e : error) | Begun (c : concrete).
(** opaq/logical/route.rs:87-112, tls/logical/route.rs:92-117: the filters of the route, then
    linkerd/stack/src/loadshed.rs:64-95, the distribution over backends, the filters of the backend, and the dispatcher:
    opaq/concrete.rs:178-180 and 230 (one that fails does so at once).  The filters are applied when a connection comes,
    whatever is ready. *)
Definition route_call {P} (f : flavor) (t : target tcp_filter P) (ready : nat -> bool) (draws : nat -> N) : start :=
  match apply_filters f (ta_filters t) with
  | Some e => Refused [Route_error (ta_meta t); e]
  | None =>
      match OutboundModel.choose (ta_distribution t) (among ready draws) with
      | None => Refused [Route_error (ta_meta t); Load_shed]
      | Some i =>
          match nth_error (OutboundModel.backends (ta_distribution t)) i with
          | None => Refused [Route_error (ta_meta t); Load_shed]
          | Some (fs, c) =>
              match apply_filters f fs with
              | Some e => Refused [Route_error (ta_meta t); e]
              | None =>
                  match c_target c with
                  | Fail_with m => Refused [Route_error (ta_meta t); Dispatcher_failed m]
                  | _ => Begun c
                  end
              end
          end
      end
  end.

(** How a connection that was begun ends: there was none to the endpoint; the copying failed; or both sides are through *)
Inductive ending := Not_connected (e : error) | Broken (e : error) | Finished.
(** opaq/concrete.rs:196-240 and 245-252, tls/concrete.rs, with linkerd/proxy/tcp/src/forward.rs:46-53: a balancer's errors
    are wrapped, those of the copying are not *)
Definition concrete_end (c : concrete) (x : ending) : option error :=
  match x with
  | Finished => None
  | Broken e => Some e
  | Not_connected e => match c_target c with Balance a _ => Some (Concrete_error a :: e) | _ => Some e end
  end.

(** What the labels say of where a connection was to go: opaq/logical/route.rs:36-41, tls/logical/route.rs:40-45 *)
Inductive goal := To_addr (a : DnsModel.addr) | To_host (h : option bytes).
(** opaq/logical/route.rs:36-41, tls/logical/route.rs:40-45 *)
Record labels := Labels { l_parent : meta; l_route : meta; l_goal : goal }.

(** A router: opaq/logical/router.rs:12-18, tls/logical/router.rs:14-20.  Its backends are known to the cache
    (C97_opaque_cached, C97_tls_cached). *)
Inductive routes :=
| Opaq_routes (a : DnsModel.addr) (parent : meta) (r : option (target tcp_filter unit))
| Tls_routes (a : DnsModel.addr) (parent : meta) (r : list (TlsRouteModel.tls_route (target tcp_filter bool))).
(** What a TLS connection begins with, linkerd/tls/src/server/required_sni.rs:103-115: what [SniModel.detect_sni] finds in
    time, a failure to read, or the timeout *)
Inductive hello := Found (sni : option bytes) | Read_failed | Timed_out.

(** What is known of a connection once it has a route: its labels, and what became of it *)
Inductive selected := No_selection (e : error) | Selected (l : labels) (r : start).
(** opaq/logical/router.rs:178-196 and opaq/logical.rs:77-80; tls/logical/router.rs:190-212, tls/logical.rs:74-78,
    tls/logical/route.rs:139-156, with linkerd/tls/src/server/required_sni.rs:98-116.  Errors of detection are not wrapped
    in a `LogicalError`; the others are, here [below]. *)
Definition select (rs : routes) (h : hello) (ready : nat -> bool) (draws : nat -> N) : selected :=
  match rs with
  | Opaq_routes a parent None => No_selection [Logical_error a; No_route Opaq_stack]
  | Opaq_routes a parent (Some t) =>
      Selected (Labels parent (ta_meta t) (To_addr a)) (route_call Opaq_stack t ready draws)
  | Tls_routes a parent rts =>
      match h with
      | Timed_out => No_selection [Sni_timeout]
      | Read_failed => No_selection [Io_error]
      | Found None => No_selection [Sni_missing]
      | Found (Some sni) =>
          match TlsRouteModel.tls_select rts sni with
          | None => No_selection [Logical_error a; No_route Tls_stack]
          | Some t =>
              Selected (Labels parent (ta_meta t) (To_host (if ta_params t then Some sni else None)))
                       (route_call Tls_stack t ready draws)
          end
      end
  end.
(** The address of a router: opaq/logical.rs:86-96, tls/logical.rs:90-98 *)
Definition logical_addr (rs : routes) : DnsModel.addr :=
  match rs with Opaq_routes a _ _ | Tls_routes a _ _ => a end.

(** metrics/transport.rs:31-37 *)
Inductive closed_kind := K_forbidden | K_invalid_backend | K_invalid_policy | K_unexpected.
(** metrics/transport.rs:100-120 *)
Fixpoint closed_mk (e : error) : closed_kind :=
  match e with
  | [] => K_unexpected
  | Forbidden_route Opaq_stack :: _ => K_forbidden
  | Invalid_backend Opaq_stack _ :: _ => K_invalid_backend
  | Invalid_policy Opaq_stack _ :: _ => K_invalid_policy
  | Forbidden_route Tls_stack :: _ => K_forbidden
  | Invalid_backend Tls_stack _ :: _ => K_invalid_backend
  | Invalid_policy Tls_stack _ :: _ => K_invalid_policy
  | _ :: e => closed_mk e
  end.
(** metrics/transport.rs:122-131 and 141-144: the label's value *)
Definition closed_text (k : option closed_kind) : bytes :=
  match k with
  | Some K_forbidden => bs "forbidden"%string
  | Some K_invalid_backend => bs "invalid_backend"%string
  | Some K_invalid_policy => bs "invalid_policy"%string
  | Some K_unexpected => bs "unexpected"%string
  | None => []
  end.

(** metrics/error.rs:15-23 and linkerd/app/inbound/src/metrics/error.rs:18-26 *)
Inductive error_kind :=
| E_fail_fast | E_identity_required | E_io | E_response_timeout | E_unexpected | E_load_shed
| E_gateway_domain_invalid | E_gateway_loop | E_tls_timeout.
(** metrics/error.rs:28-46 *)
Fixpoint outbound_mk (e : error) : error_kind :=
  match e with
  | [] => E_unexpected
  | Io_error :: _ => E_io
  | Identity_required :: _ => E_identity_required
  | Fail_fast :: _ => E_fail_fast
  | Response_timeout :: _ => E_response_timeout
  | Load_shed :: _ => E_load_shed
  | _ :: e => outbound_mk e
  end.
(** linkerd/app/inbound/src/metrics/error.rs:30-60 *)
Fixpoint inbound_mk (e : error) : option error_kind :=
  match e with
  | [] => Some E_unexpected
  | Server_unauthorized :: _ | Route_unauthorized :: _ | Route_not_found :: _ => None
  | Fail_fast :: _ => Some E_fail_fast
  | Io_error :: _ => Some E_io
  | Tls_timeout :: _ => Some E_tls_timeout
  | Gateway_domain_invalid :: _ => Some E_gateway_domain_invalid
  | Gateway_loop :: _ => Some E_gateway_loop
  | Load_shed :: _ => Some E_load_shed
  | _ :: e => inbound_mk e
  end.
(** metrics/error.rs:48-64 and linkerd/app/inbound/src/metrics/error.rs:62-79: the label's value *)
Definition error_text (k : error_kind) : bytes :=
  match k with
  | E_load_shed => bs "loadshed"%string
  | E_fail_fast => bs "failfast"%string
  | E_identity_required => bs "identity required"%string
  | E_io => bs "i/o"%string
  | E_response_timeout => bs "response timeout"%string
  | E_unexpected => bs "unexpected"%string
  | E_tls_timeout => bs "tls detection timeout"%string
  | E_gateway_loop => bs "gateway loop"%string
  | E_gateway_domain_invalid => bs "gateway domain invalid"%string
  end.

(** `PartialEq for Addr` *)
Definition addr_eqb (a b : DnsModel.addr) : bool :=
  match a, b with
  | DnsModel.Name n, DnsModel.Name m => name_addr_eq n m
  | DnsModel.Socket s, DnsModel.Socket t => sock_eq s t
  | _, _ => false
  end.
(** `derive(PartialEq)` on the labels: opaq/logical/route.rs:36, tls/logical/route.rs:40 *)
Definition goal_eqb (a b : goal) : bool :=
  match a, b with
  | To_addr x, To_addr y => addr_eqb x y
  | To_host x, To_host y => PromModel.option_eqb beq x y
  | _, _ => false
  end.
(** As above; the metadata of parents and routes compare as [meta_eq] does. *)
Definition labels_eqb (a b : labels) : bool :=
  meta_eq (l_parent a) (l_parent b) && meta_eq (l_route a) (l_route b) && goal_eqb (l_goal a) (l_goal b).
(** `derive(PartialEq)`: metrics/transport.rs:31 *)
Definition closed_kind_eqb (a b : closed_kind) : bool := beq (closed_text (Some a)) (closed_text (Some b)).
(** `derive(PartialEq)`: metrics/transport.rs:39-43 *)
Definition closed_eqb (a b : labels * option closed_kind) : bool :=
  labels_eqb (fst a) (fst b) && PromModel.option_eqb closed_kind_eqb (snd a) (snd b).
(** `derive(PartialEq)`: metrics/error.rs:15, metrics/error/tcp.rs:20-21 *)
Definition error_eqb (a b : sock * error_kind) : bool :=
  sock_eq (fst a) (fst b) && beq (error_text (snd a)) (error_text (snd b)).

(** The value of a label: text, an IP address, a port, or nothing, which is the empty text *)
Inductive value := Text (t : bytes) | Ip (ip : list N) | Port (p : N) | Nothing.
(** client-policy/src/lib.rs:381-386 *)
Definition section (m : meta) : bytes :=
  match m with Resource _ _ _ _ (Some s) _ => s | _ => [] end.
(** client-policy/src/lib.rs:388-393 *)
Definition port (m : meta) : option N := match m with Default _ => None | Resource _ _ _ _ _ p => p end.
(** metrics.rs:173-183 *)
Definition encode_meta (scope : bytes) (m : meta) : list (bytes * value) :=
  [(scope ++ bs "_group"%string, Text (group m)); (scope ++ bs "_kind"%string, Text (kind m));
   (scope ++ bs "_namespace"%string, Text (namespace m)); (scope ++ bs "_name"%string, Text (name m))].
(** metrics.rs:185-197 *)
Definition encode_service (scope : bytes) (m : meta) : list (bytes * value) :=
  encode_meta scope m ++
  [(scope ++ bs "_port"%string, match port m with Some p => Port p | None => Nothing end);
   (scope ++ bs "_section_name"%string, Text (section m))].
(** opaq/logical/route.rs:150-174, tls/logical/route.rs:160-173 *)
Definition encode (l : labels) : list (bytes * value) :=
  encode_service (bs "parent"%string) (l_parent l) ++ encode_meta (bs "route"%string) (l_route l) ++
  match l_goal l with
  | To_addr (DnsModel.Socket a) => [(bs "target_ip"%string, Ip (s_ip a)); (bs "target_port"%string, Port (s_port a))]
  | To_addr (DnsModel.Name a) => [(bs "target_ip"%string, Nothing); (bs "target_port"%string, Port (na_port a))]
  | To_host h => [(bs "hostname"%string, match h with Some h => Text h | None => Nothing end)]
  end.

(** ** Histories *)

(** A connection that was begun: where it was to go, its labels, the router's address, its route and its backend *)
Record conn := Conn { cn_dst : sock; cn_labels : labels; cn_addr : DnsModel.addr; cn_route : meta; cn_to : concrete }.
(** The routes, the connections that go on, how others ended, with the errors that the server sees, and the counters:
    metrics/transport.rs:15-18 and metrics/error/tcp.rs:20-21 *)
Record state := State {
  st_routes : routes; st_live : list (N * conn); st_done : list (N * option error);
  st_open : list (labels * N); st_closed : list ((labels * option closed_kind) * N);
  st_errors : list ((sock * error_kind) * N) }.
(** The routes change (linkerd/stack/src/watch.rs:80-101); a connection comes; one ends; the proxy drops one *)
Inductive event :=
| Update (rs : routes)
| Accept (id : N) (dst : sock) (h : hello) (ready : nat -> bool) (draws : nat -> N)
| End (id : N) (x : ending)
| Gone (id : N).

(** linkerd/stack/src/monitor.rs:119-137 with metrics/error/tcp.rs:74-88 *)
Definition monitor (dst : sock) (r : option error) (es : list ((sock * error_kind) * N)) : list ((sock * error_kind) * N) :=
  match r with None => es | Some e => PromModel.inc error_eqb (dst, outbound_mk e) es end.
(** metrics/transport.rs:205-223 and 232-252: [e] is the error of the route, without the address of the router *)
Definition close (l : labels) (r : option error) (cs : list ((labels * option closed_kind) * N)) :=
  PromModel.inc closed_eqb (l, option_map closed_mk r) cs.
(** opaq/logical.rs:75, tls/logical.rs:77: `LogicalError` *)
Definition below (a : DnsModel.addr) (r : option error) : option error := option_map (cons (Logical_error a)) r.
(** The connections but one *)
Definition without {A} (id : N) (l : list (N * A)) : list (N * A) := filter (fun x => negb (fst x =? id)) l.
(** metrics/transport.rs:202-223, tcp.rs:50-60 *)
Definition step (s : state) (ev : event) : state :=
  match ev with
  | Update rs => State rs (st_live s) (st_done s) (st_open s) (st_closed s) (st_errors s)
  | Accept id dst h ready draws =>
      match select (st_routes s) h ready draws with
      | No_selection e =>
          State (st_routes s) (st_live s) ((id, Some e) :: st_done s) (st_open s) (st_closed s) (monitor dst (Some e) (st_errors s))
      | Selected l (Refused e) =>
          let r := below (logical_addr (st_routes s)) (Some e) in
          State (st_routes s) (st_live s) ((id, r) :: st_done s) (PromModel.inc labels_eqb l (st_open s))
                (close l (Some e) (st_closed s)) (monitor dst r (st_errors s))
      | Selected l (Begun c) =>
          State (st_routes s) ((id, Conn dst l (logical_addr (st_routes s)) (l_route l) c) :: st_live s) (st_done s)
                (PromModel.inc labels_eqb l (st_open s)) (st_closed s) (st_errors s)
      end
  | End id x =>
      match find (fun y => fst y =? id) (st_live s) with
      | None => s
      | Some (_, cn) =>
          let r := option_map (cons (Route_error (cn_route cn))) (concrete_end (cn_to cn) x) in
          let r' := below (cn_addr cn) r in
          State (st_routes s) (without id (st_live s)) ((id, r') :: st_done s) (st_open s) (close (cn_labels cn) r (st_closed s))
                (monitor (cn_dst cn) r' (st_errors s))
      end
  | Gone id => State (st_routes s) (without id (st_live s)) (st_done s) (st_open s) (st_closed s) (st_errors s)
  end.
(** A history *)
Definition run (rs : routes) (es : list event) : state := fold_left step es (State rs [] [] [] [] []).
