(** Declarative reading of route matching (properties C01 - C05).  Only the
    data types of the model are used, none of its functions except the plain
    accessors. *)
From Coq Require Import String List NArith.
From Verif Require Import Bytes RouteModel.
Import ListNotations.
Open Scope N_scope.

(** ** Hosts *)

(** The request host with one trailing dot removed, if there is one. *)
Inductive undotted : bytes -> bytes -> Prop :=
| undotted_dot h : undotted (h ++ [46]) h
| undotted_id h : (forall h', h <> h' ++ [46]) -> undotted h h.

Definition same_ignoring_case (a b : bytes) : Prop := lowers a = lowers b.

(** An exact host match. *)
Definition exact_host_accepts (configured host : bytes) : Prop :=
  (exists h, configured = h ++ [46] /\ same_ignoring_case configured host)
  \/ ((forall h, configured <> h ++ [46]) /\
      exists h, undotted host h /\ same_ignoring_case configured h).

(** A name is absolute when it ends with a dot, or is the root (empty) name. *)
Definition absolute (name : bytes) : Prop := name = [] \/ exists n, name = n ++ [46].

(** `*.name` accepts `prefix.name`; the trailing dot of the request's host is
    ignored unless the configured name is absolute. *)
Definition wildcard_host_accepts (name host : bytes) : Prop :=
  (absolute name /\ exists pre, same_ignoring_case host (pre ++ [46] ++ name))
  \/ (~ absolute name /\
      exists h, undotted host h /\
      exists pre, same_ignoring_case h (pre ++ [46] ++ name)).

(** ** Paths *)

(** With trailing slashes removed. *)
Inductive no_trailing_slash : bytes -> Prop :=
| nts_nil : no_trailing_slash []
| nts_last p c : c <> 47 -> no_trailing_slash (p ++ [c]).
Definition strips_slashes (s t : bytes) : Prop :=
  no_trailing_slash t /\ exists n, s = t ++ repeat 47 n.

Definition prefix_accepts (prefix path : bytes) : Prop :=
  prefix = [47] \/
  exists p q, strips_slashes prefix p /\ strips_slashes path q /\
    (q = p \/ exists rest, q = p ++ 47 :: rest).

(** A regular expression must match the whole string: the leftmost match the
    engine finds spans all of it. *)
Definition regex_spans (re : regex) (s : bytes) : Prop := re s = Some (0, len s).

Definition path_accepts (m : match_path) (path : bytes) : Prop :=
  match m with
  | PExact p => path = p
  | PPrefix p => prefix_accepts p path
  | PRegex re => regex_spans re path
  end.

(** ** Headers, query parameters *)

Definition printable (v : bytes) : Prop := forall c, In c v -> (32 <= c < 127) \/ c = 9.

Definition header_accepts (m : match_header) (hs : list (bytes * bytes)) : Prop :=
  match m with
  | MHExact n v => In (n, v) hs
  | MHRegex n re => exists v, In (n, v) hs /\ printable v /\ regex_spans re v
  end.

Definition query_accepts (m : match_query) (q : option (list (bytes * bytes))) : Prop :=
  exists qs, q = Some qs /\
  match m with
  | MQExact n v => In (n, v) qs
  | MQRegex n re => exists v, In (n, v) qs /\ regex_spans re v
  end.

(** ** HTTP matches *)

Definition http_accepts (m : match_request) (req : request) : Prop :=
  (forall x, mr_method m = Some x -> rq_method req = x) /\
  (forall p, mr_path m = Some p -> path_accepts p (rq_path req)) /\
  (forall h, In h (mr_headers m) -> header_accepts h (rq_headers req)) /\
  (forall q, In q (mr_query m) -> query_accepts q (rq_query req)).

(** What a match is ranked by. *)
Definition path_weight (m : match_request) (req : request) (w : N) : Prop :=
  match mr_path m with
  | None => w = 1
  | Some (PExact p) => w = len p
  | Some (PRegex _) => w = len (rq_path req)
  | Some (PPrefix p) =>
      (p = [47] /\ w = 1) \/ (p <> [47] /\ exists q, strips_slashes p q /\ w = len q)
  end.

(** Lexicographic comparison of ranks, most significant first. *)
Inductive lex_lt : list N -> list N -> Prop :=
| lex_here a b l m : a < b -> lex_lt (a :: l) (b :: m)
| lex_next a l m : lex_lt l m -> lex_lt (a :: l) (a :: m).

Definition http_rank (m : match_request) (req : request) (r : list N) : Prop :=
  exists w, path_weight m req w /\
  r = [w; N.of_nat (length (mr_headers m)); N.of_nat (length (mr_query m));
       match mr_method m with Some _ => 1 | None => 0 end].

(** ** gRPC matches *)

(** A path with at least a service and a method part: "/service/method..." *)
Definition rpc_path (path service method : bytes) : Prop :=
  ~ In 47 service /\ ~ In 47 method /\
  (path = 47 :: service ++ 47 :: method \/
   exists rest, path = 47 :: service ++ 47 :: method ++ 47 :: rest).

Definition grpc_accepts (m : match_grpc) (req : request) : Prop :=
  rq_method req = bs "POST"%string /\
  (exists service method, rpc_path (rq_path req) service method /\
     (forall s, rpc_service (mg_rpc m) = Some s -> service = s) /\
     (forall s, rpc_method (mg_rpc m) = Some s -> method = s)) /\
  (forall h, In h (mg_headers m) -> header_accepts h (rq_headers req)).

Definition olen (o : option bytes) : N := match o with Some s => len s | None => 0 end.

Definition grpc_rank (m : match_grpc) (req : request) (r : list N) : Prop :=
  r = [olen (rpc_service (mg_rpc m)); olen (rpc_method (mg_rpc m));
       N.of_nat (length (mg_headers m))].

(** ** Whole routes *)

(** Wildcards hold the reversed labels of a name. *)
Definition wildcard_of (name : bytes) (labels : list bytes) : Prop :=
  labels = rev (split 46 name).
Definition well_formed_host (m : match_host) : Prop :=
  match m with HExact _ => True | HSuffix labels => exists name, wildcard_of name labels end.

Definition host_accepts (m : match_host) (host : bytes) : Prop :=
  match m with
  | HExact h => exact_host_accepts h host
  | HSuffix labels => exists name, wildcard_of name labels /\ wildcard_host_accepts name host
  end.

(** Rank of a host: exact above wildcard, longer above shorter. *)
Definition host_rank (m : match_host) (r : list N) : Prop :=
  match m with
  | HExact h => r = [2; len h]
  | HSuffix labels => exists name, wildcard_of name labels /\ r = [1; len name + 1]
  end.

Definition lex_le (a b : list N) : Prop := a = b \/ lex_lt a b.

Section Routes.
  Context {M P : Type}.
  Variable accepts : M -> request -> Prop.
  Variable rank : M -> request -> list N -> Prop.
  Variable default_rank : list N.

  (** The rank a route's hosts give to a request: without hosts every request
      is accepted with the lowest rank; otherwise the best accepting host
      counts. *)
  Definition route_hosts_rank (rt : route M P) (req : request) (r : list N) : Prop :=
    (rt_hosts rt = [] /\ r = [0; 0]) \/
    (exists host, rq_host req = Some host /\
      (exists m, In m (rt_hosts rt) /\ host_accepts m host /\ host_rank m r) /\
      (forall m r', In m (rt_hosts rt) -> host_accepts m host -> host_rank m r' -> lex_le r' r)).

  (** The rank a rule gives to a request: without matches the default rank;
      otherwise the best accepting match counts. *)
  Definition rule_rank (ru : rule M P) (req : request) (r : list N) : Prop :=
    (ru_matches ru = [] /\ r = default_rank) \/
    ((exists m, In m (ru_matches ru) /\ accepts m req /\ rank m req r) /\
     (forall m r', In m (ru_matches ru) -> accepts m req -> rank m req r' -> lex_le r' r)).

  (** How a rule of a route ranks for a request, if it applies. *)
  Definition applies (rt : route M P) (ru : rule M P) (req : request) (r : list N) : Prop :=
    exists h s, route_hosts_rank rt req h /\ rule_rank ru req s /\ r = h ++ s.

  Definition well_formed (routes : list (route M P)) : Prop :=
    forall rt m, In rt routes -> In m (rt_hosts rt) -> well_formed_host m.

  (** Lookup gives nothing when no rule applies ... *)
  Definition no_rule_applies (routes : list (route M P)) (req : request) : Prop :=
    forall rt ru r, In rt routes -> In ru (rt_rules rt) -> ~ applies rt ru req r.

  (** ... and otherwise the policy of an applicable rule such that every rule
      listed before ranks strictly lower and every rule listed after does not
      rank higher. *)
  Definition first_best (routes : list (route M P)) (req : request) (p : P) : Prop :=
    exists before rt after rbefore ru rafter r,
      routes = before ++ rt :: after /\
      rt_rules rt = rbefore ++ ru :: rafter /\
      ru_policy ru = p /\
      applies rt ru req r /\
      (forall rt' ru' r', In rt' before -> In ru' (rt_rules rt') ->
          applies rt' ru' req r' -> lex_lt r' r) /\
      (forall ru' r', In ru' rbefore -> applies rt ru' req r' -> lex_lt r' r) /\
      (forall ru' r', In ru' rafter -> applies rt ru' req r' -> lex_le r' r) /\
      (forall rt' ru' r', In rt' after -> In ru' (rt_rules rt') ->
          applies rt' ru' req r' -> lex_le r' r).
End Routes.

(** [m1] is more specific than [m2]: it names a service and [m2] does not, or
    they agree on that and it names a method and [m2] does not, or they agree
    on both and it has more header conditions. *)
Definition names (o : option bytes) : Prop := exists s, o = Some s /\ s <> [].
Definition grpc_more_specific (m1 m2 : match_grpc) : Prop :=
  let s1 := rpc_service (mg_rpc m1) in let s2 := rpc_service (mg_rpc m2) in
  let t1 := rpc_method (mg_rpc m1) in let t2 := rpc_method (mg_rpc m2) in
  (names s1 /\ s2 = None) \/
  (s1 = s2 /\ names t1 /\ t2 = None) \/
  (s1 = s2 /\ t1 = t2 /\ (length (mg_headers m2) < length (mg_headers m1))%nat).
