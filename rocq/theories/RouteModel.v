(** Model of linkerd/http/route: request matching and route lookup. *)
From Coq Require Import List NArith Bool.
From Verif Require Import Bytes.
Import ListNotations.
Open Scope N_scope.

(** The parts of an [http::Request] that matchers look at.  Header names are
    the (already lower-cased) bytes of a [HeaderName]; [rq_query] is what
    [url::form_urlencoded::parse] yields for the query, when there is one.
    Simplification: the body and extensions are not modelled; percent-decoding
    of the query is done by the external `url` crate. *)
Record request := Request {
  rq_method : bytes;
  rq_host : option bytes;           (* uri.authority().map(|a| a.host()) *)
  rq_path : bytes;                  (* uri.path() *)
  rq_query : option (list (bytes * bytes));
  rq_headers : list (bytes * bytes);
}.

(** A compiled regular expression is external: it is represented by its `find`
    method, which gives the start and end of the leftmost match. *)
Definition regex := bytes -> option (N * N).

(** m.start() == 0 && m.end() == s.len(), as in path.rs:31-37,
    header.rs:22-28 and query_param.rs:19-23. *)
Definition regex_anchored (re : regex) (s : bytes) : bool :=
  match re s with
  | Some (a, b) => (a =? 0) && (b =? len s)
  | None => false
  end.

(** [cmp::Ord] results are Coq's [comparison]; [Ordering::then_with]. *)
Definition then_with (c : comparison) (d : comparison) : comparison :=
  match c with Eq => d | _ => c end.

(** ** Hosts: linkerd/http/route/src/http/match/host.rs *)

(** host.rs:4-12 *)
Inductive match_host :=
| HExact (h : bytes)
| HSuffix (reverse_labels : list bytes).

(** host.rs:15-18 *)
Inductive host_match :=
| HMExact (n : N)
| HMSuffix (n : N).

(** host.rs:34-47, [MatchHost::from_str] after the validation by `url::Host`,
    which is external and only rejects. *)
Definition host_from_str (s : bytes) : match_host :=
  match strip_prefix [42; 46] s with           (* "*." *)
  | Some h => HSuffix (rev (split 46 h))
  | None => HExact s
  end.

(** host.rs:85-89.  Hosts of an [http::Uri] are ASCII so [split_at_checked]
    never fails. *)
Definition strip_suffix_ignore_case (host sfx : bytes) : option bytes :=
  if Nat.leb (length sfx) (length host) then
    let i := (length host - length sfx)%nat in
    if eq_ignore_case (skipn i host) sfx then Some (firstn i host) else None
  else None.

(** host.strip_suffix('.').unwrap_or(host), host.rs:57,68 *)
Definition strip_dot (h : bytes) : bytes :=
  match strip_suffix [46] h with Some h' => h' | None => h end.

(** host.rs:70-77, the loop over the labels. *)
Fixpoint strip_labels (host : bytes) (labels : list bytes) (length : N) : option N :=
  match labels with
  | [] => Some length
  | sfx :: rest =>
      match strip_suffix_ignore_case host sfx with
      | None => None
      | Some h =>
          match strip_suffix [46] h with
          | None => None
          | Some h' => strip_labels h' rest (length + (len sfx + 1))
          end
      end
  end.

(** host.rs:51-80 *)
Definition summarize_match (m : match_host) (authority_host : option bytes) : option host_match :=
  match authority_host with
  | None => None
  | Some host =>
      match m with
      | HExact h =>
          let host := if ends_with [46] h then host else strip_dot host in
          if eq_ignore_case h host then Some (HMExact (len h)) else None
      | HSuffix suffix =>
          let absolute := match suffix with [] :: _ => true | _ => false end in
          let host := if absolute then host else strip_dot host in
          match strip_labels host suffix 0 with
          | Some n => Some (HMSuffix n)
          | None => None
          end
      end
  end.

(** host.rs:99-109 *)
Definition host_cmp (a b : host_match) : comparison :=
  match a, b with
  | HMExact l, HMExact r => l ?= r
  | HMSuffix l, HMSuffix r => l ?= r
  | HMExact _, HMSuffix _ => Gt
  | HMSuffix _, HMExact _ => Lt
  end.

(** ** Paths: linkerd/http/route/src/http/match/path.rs *)

(** path.rs:5-9 *)
Inductive match_path :=
| PExact (p : bytes)
| PPrefix (p : bytes)
| PRegex (re : regex).

(** path.rs:13-17 *)
Inductive path_match :=
| PMExact (n : N)
| PMRegex (n : N)
| PMPrefix (n : N).

(** path.rs:22-55 *)
Definition match_length (m : match_path) (path : bytes) : option path_match :=
  match m with
  | PExact s => if beq s path then Some (PMExact (len s)) else None
  | PRegex re => if regex_anchored re path then Some (PMRegex (len path)) else None
  | PPrefix prefix =>
      if beq prefix [47] then Some (PMPrefix 1)
      else
        let prefix := trim_end 47 prefix in
        match strip_prefix prefix (trim_end 47 path) with
        | None => None
        | Some suffix =>
            if match suffix with [] => true | _ => false end || starts_with [47] suffix
            then Some (PMPrefix (len prefix))
            else None
        end
  end.

(** path.rs:84-90 *)
Definition path_len (m : path_match) : N :=
  match m with PMExact n => n | PMRegex n => n | PMPrefix n => n end.

(** path.rs:100-102 *)
Definition path_cmp (a b : path_match) : comparison := path_len a ?= path_len b.

(** ** Headers and query parameters *)

(** [HeaderMap::get_all] *)
Definition get_all (n : bytes) (hs : list (bytes * bytes)) : list bytes :=
  map snd (filter (fun kv => beq (fst kv) n) hs).

(** [HeaderValue::to_str] succeeds on visible ASCII and tab only. *)
Definition visible (b : N) : bool := ((32 <=? b) && (b <? 127)) || (b =? 9).

(** header.rs:6-9 *)
Inductive match_header :=
| MHExact (n v : bytes)
| MHRegex (n : bytes) (re : regex).

(** header.rs:14-31 *)
Definition header_is_match (m : match_header) (hs : list (bytes * bytes)) : bool :=
  match m with
  | MHExact n v => existsb (fun h => beq h v) (get_all n hs)
  | MHRegex n re =>
      existsb (fun h => regex_anchored re h) (filter (forallb visible) (get_all n hs))
  end.

(** query_param.rs:5-8 *)
Inductive match_query :=
| MQExact (n v : bytes)
| MQRegex (n : bytes) (re : regex).

(** query_param.rs:13-29 *)
Definition query_is_match (m : match_query) (q : option (list (bytes * bytes))) : bool :=
  match q with
  | None => false
  | Some qs =>
      existsb (fun kv =>
        match m with
        | MQExact n v => beq n (fst kv) && beq v (snd kv)
        | MQRegex n re => beq n (fst kv) && regex_anchored re (snd kv)
        end) qs
  end.

(** ** HTTP request matching: linkerd/http/route/src/http/match.rs *)

(** match.rs:18-23 *)
Record match_request := MatchRequest {
  mr_path : option match_path;
  mr_headers : list match_header;
  mr_query : list match_query;
  mr_method : option bytes;
}.

(** match.rs:27-32 *)
Record request_match := RequestMatch {
  rm_path : path_match;
  rm_headers : N;
  rm_query : N;
  rm_method : bool;
}.

(** match.rs:74-85 *)
Definition request_match_default : request_match :=
  RequestMatch (PMPrefix 1) 0 0 false.

(** match.rs:45-70 *)
Definition http_match (m : match_request) (req : request) : option request_match :=
  let method_ok :=
    match mr_method m with
    | Some x => beq (rq_method req) x
    | None => true
    end in
  if negb method_ok then None else
  let has_method := match mr_method m with Some _ => true | None => false end in
  let path :=
    match mr_path m with
    | Some p => match_length p (rq_path req)
    | None => Some (rm_path request_match_default)
    end in
  match path with
  | None => None
  | Some pm =>
      if negb (forallb (fun h => header_is_match h (rq_headers req)) (mr_headers m)) then None else
      if negb (forallb (fun q => query_is_match q (rq_query req)) (mr_query m)) then None else
      Some (RequestMatch pm (N.of_nat (length (mr_headers m)))
                         (N.of_nat (length (mr_query m))) has_method)
  end.

(** [bool]'s order: false < true. *)
Definition bool_cmp (a b : bool) : comparison :=
  match a, b with
  | true, false => Gt
  | false, true => Lt
  | _, _ => Eq
  end.

(** match.rs:97-103 *)
Definition request_match_cmp (a b : request_match) : comparison :=
  then_with (path_cmp (rm_path a) (rm_path b))
  (then_with (rm_headers a ?= rm_headers b)
  (then_with (rm_query a ?= rm_query b)
             (bool_cmp (rm_method a) (rm_method b)))).

(** ** gRPC matching: linkerd/http/route/src/grpc/match.rs *)

(** grpc/match.rs:22-25 *)
Record match_rpc := MatchRpc { rpc_service : option bytes; rpc_method : option bytes }.
(** grpc/match.rs:8-11 *)
Record match_grpc := MatchGrpc { mg_rpc : match_rpc; mg_headers : list match_header }.
(** grpc/match.rs:15-18 and 29-34 *)
Record grpc_match := GrpcMatch { gm_service : N; gm_method : N; gm_headers : N }.

(** grpc/match.rs:14-18, 28-34: derived `Default` *)
Definition grpc_match_default : grpc_match := GrpcMatch 0 0 0.

(** grpc/match.rs:78-103 *)
Definition rpc_match_length (m : match_rpc) (path : bytes) : option (N * N) :=
  match split 47 path with
  | [] :: service :: rest =>
      let service_ok := match rpc_service m with Some s => beq s service | None => true end in
      if negb service_ok then None else
      match rest with
      | method :: _ =>
          let method_ok := match rpc_method m with Some s => beq s method | None => true end in
          if negb method_ok then None else
          Some (match rpc_service m with Some s => len s | None => 0 end,
                match rpc_method m with Some s => len s | None => 0 end)
      | [] => None
      end
  | _ => None
  end.

(** `Method::POST`, grpc/match.rs:42 *)
Definition POST : bytes := [80; 79; 83; 84].

(** grpc/match.rs:41-56 *)
Definition grpc_match_request (m : match_grpc) (req : request) : option grpc_match :=
  if negb (beq (rq_method req) POST) then None else
  match rpc_match_length (mg_rpc m) (rq_path req) with
  | None => None
  | Some (s, me) =>
      if negb (forallb (fun h => header_is_match h (rq_headers req)) (mg_headers m)) then None else
      Some (GrpcMatch s me (N.of_nat (length (mg_headers m))))
  end.

(** grpc/match.rs:28 (derived lexicographic order of RpcMatch) and 68-72 *)
Definition grpc_match_cmp (a b : grpc_match) : comparison :=
  then_with (then_with (gm_service a ?= gm_service b) (gm_method a ?= gm_method b))
            (gm_headers a ?= gm_headers b).

(** ** Lookup: linkerd/http/route/src/lib.rs *)

(** [Iterator::max]: the last one of several equally maximal elements. *)
Definition max_by {A} (cmp : A -> A -> comparison) (l : list A) : option A :=
  match l with
  | [] => None
  | x :: l => Some (fold_left (fun a b => match cmp a b with Gt => a | _ => b end) l x)
  end.

(** [Iterator::filter_map] *)
Fixpoint filter_map {A B} (f : A -> option B) (l : list A) : list B :=
  match l with
  | [] => []
  | x :: l' => match f x with Some y => y :: filter_map f l' | None => filter_map f l' end
  end.

(** lib.rs:103-107: the first one of several equally maximal elements. *)
Definition best {K P} (cmp : K -> K -> comparison) (l : list (K * P)) : option (K * P) :=
  match l with
  | [] => None
  | x :: l =>
      Some (fold_left (fun a b => match cmp (fst a) (fst b) with Lt => b | _ => a end) l x)
  end.

(** lib.rs:17-39 *)
Record rule (M P : Type) := Rule { ru_matches : list M; ru_policy : P }.
(** lib.rs:17-27 *)
Record route (M P : Type) := Route { rt_hosts : list match_host; rt_rules : list (rule M P) }.
Arguments Rule {M P}. Arguments ru_matches {M P}. Arguments ru_policy {M P}.
Arguments Route {M P}. Arguments rt_hosts {M P}. Arguments rt_rules {M P}.

(** lib.rs:43-47: derived order: host first ([None] below [Some]), then the
    summary. *)
Definition opt_cmp {A} (cmp : A -> A -> comparison) (a b : option A) : comparison :=
  match a, b with
  | None, None => Eq
  | None, Some _ => Lt
  | Some _, None => Gt
  | Some x, Some y => cmp x y
  end.
(** lib.rs:43-47: derived `Ord` *)
Definition route_match_cmp {S} (cmp : S -> S -> comparison)
    (a b : option host_match * S) : comparison :=
  then_with (opt_cmp host_cmp (fst a) (fst b)) (cmp (snd a) (snd b)).

Section Find.
  Context {M S P : Type}.
  Variable matches : M -> request -> option S.   (* Match::match_request *)
  Variable scmp : S -> S -> comparison.          (* Ord for Match::Summary *)
  Variable default : S.                          (* Default for Match::Summary *)

  (** lib.rs:65-76: outer [None] means the route does not apply. *)
  Definition route_host (rt : route M P) (req : request) : option (option host_match) :=
    match rt_hosts rt with
    | [] => Some None
    | hosts =>
        match max_by host_cmp (filter_map (fun a => summarize_match a (rq_host req)) hosts) with
        | Some hm => Some (Some hm)
        | None => None
        end
    end.

  (** lib.rs:79-96, one rule *)
  Definition rule_summary (ru : rule M P) (req : request) : option (S * P) :=
    match ru_matches ru with
    | [] => Some (default, ru_policy ru)
    | ms =>
        match max_by scmp (filter_map (fun m => matches m req) ms) with
        | Some s => Some (s, ru_policy ru)
        | None => None
        end
    end.

  (** lib.rs:63-98, one route *)
  Definition route_summary (rt : route M P) (req : request) : option ((option host_match * S) * P) :=
    match route_host rt req with
    | None => None
    | Some host =>
        match best scmp (filter_map (fun ru => rule_summary ru req) (rt_rules rt)) with
        | None => None
        | Some (s, p) => Some ((host, s), p)
        end
    end.

  (** lib.rs:57-100 *)
  Definition find (routes : list (route M P)) (req : request) : option ((option host_match * S) * P) :=
    best (route_match_cmp scmp) (filter_map (fun rt => route_summary rt req) routes).
End Find.

(** http.rs:15-20 and grpc.rs:15-20 *)
Definition http_find {P} : list (route match_request P) -> request -> option _ :=
  find http_match request_match_cmp request_match_default.
(** grpc.rs:15-20 *)
Definition grpc_find {P} : list (route match_grpc P) -> request -> option _ :=
  find grpc_match_request grpc_match_cmp grpc_match_default.
