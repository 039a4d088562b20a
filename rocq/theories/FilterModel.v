(** Model of linkerd/http/route/src/http/filter: header modification and
    redirects. *)
From Coq Require Import List NArith Bool.
From Verif Require Import Bytes RouteModel.
Import ListNotations.
Open Scope N_scope.

(** ** modify_header.rs *)

(** An [http::HeaderMap] is the list of its (name, value) entries; only the
    order of the values of one name is meaningful.  Simplification: the map's
    capacity limit (a panic above 2^15 entries) is not modelled. *)
Definition headers := list (bytes * bytes).

(** [HeaderMap::append], [insert] and [remove]. *)
Definition hm_append (hs : headers) (n v : bytes) : headers := hs ++ [(n, v)].
(** `HeaderMap::remove` *)
Definition hm_remove (hs : headers) (n : bytes) : headers :=
  filter (fun kv => negb (beq (fst kv) n)) hs.
(** `HeaderMap::insert` *)
Definition hm_insert (hs : headers) (n v : bytes) : headers := hm_remove hs n ++ [(n, v)].

(** modify_header.rs:7-11 *)
Record modify_header := ModifyHeader {
  mh_add : list (bytes * bytes);
  mh_set : list (bytes * bytes);
  mh_remove : list bytes;
}.

(** modify_header.rs:16-26 *)
Definition modify_apply (f : modify_header) (hs : headers) : headers :=
  let hs := fold_left (fun h nv => hm_append h (fst nv) (snd nv)) (mh_add f) hs in
  let hs := fold_left (fun h nv => hm_insert h (fst nv) (snd nv)) (mh_set f) hs in
  fold_left hm_remove (mh_remove f) hs.

(** ** redirect.rs *)

(** An authority.  Simplification: no userinfo part. *)
Record authority := Authority { a_host : bytes; a_port : option N }.

(** A URI.  [u_path] and [u_query] are what `path()` and `query()` return.
    Simplification: fragments are not modelled (the `http` crate drops them). *)
Record uri := Uri {
  u_scheme : option bytes;
  u_auth : option authority;
  u_path : bytes;
  u_query : option bytes;
}.

(** [http::Uri::path_and_query] is [None] for the authority form (`CONNECT`). *)
Definition has_path_and_query (u : uri) : bool :=
  match u_scheme u, u_auth u with
  | None, Some _ => false
  | _, _ => true
  end.

(** `Scheme::HTTP` *)
Definition HTTP : bytes := [104; 116; 116; 112].
(** `Scheme::HTTPS` *)
Definition HTTPS : bytes := [104; 116; 116; 112; 115].

(** filter.rs: ModifyPath *)
Inductive modify_path :=
| ReplaceFullPath (p : bytes)
| ReplacePrefixMatch (p : bytes).

(** redirect.rs:18-22.  A [Host] override holds an authority, which in a sane
    configuration has no port. *)
Inductive authority_override :=
| AExact (a : authority)
| AHost (h : authority)
| APort (p : N).

(** redirect.rs:10-15 *)
Record redirect := Redirect {
  rd_scheme : option bytes;
  rd_authority : option authority_override;
  rd_path : option modify_path;
  rd_status : option N;
}.

(** redirect.rs:25-37 *)
Inductive redirect_error := EReplacePrefix | EInvalid | EMissingAuthority.

(** redirect.rs:40-43 *)
Record redirection := Redirection { rn_status : N; rn_location : uri }.

(** Result of [apply]; [RPanic] is the `expect` of redirect.rs:160. *)
Inductive redirect_result :=
| ROk (r : option redirection)
| RErr (e : redirect_error)
| RPanic.

(** [Scheme]'s equality is case-insensitive. *)
Definition scheme_eq (a b : bytes) : bool := eq_ignore_case a b.

(** redirect.rs:137-145 *)
Definition port_if_not_default (scheme : bytes) (port : N) : option N :=
  if scheme_eq scheme HTTP && (port =? 80) then None
  else if scheme_eq scheme HTTPS && (port =? 443) then None
  else Some port.

(** format!("{h}:{p}").try_into(), redirect.rs:101,113: an authority text that
    already has a port does not parse with a second one. *)
Definition with_port (a : authority) (p : N) : option authority :=
  match a_port a with
  | None => Some (Authority (a_host a) (Some p))
  | Some _ => None
  end.

(** `Uri::port_u16` *)
Definition u_port (u : uri) : option N :=
  match u_auth u with Some a => a_port a | None => None end.

(** Helper: equality of optional ports *)
Definition opt_eqb (a b : option N) : bool :=
  match a, b with
  | Some x, Some y => x =? y
  | None, None => true
  | _, _ => false
  end.

(** redirect.rs:78-135 *)
Definition redirect_authority (r : redirect) (orig : uri) (scheme : bytes) : authority + redirect_error :=
  match rd_authority r with
  | None => match u_auth orig with Some a => inl a | None => inr EMissingAuthority end
  | Some (AExact a) => inl a
  | Some (AHost h) =>
      match (match u_port orig with Some p => port_if_not_default scheme p | None => None end) with
      | Some p => match with_port h p with Some a => inl a | None => inr EInvalid end
      | None => inl h
      end
  | Some (APort p) =>
      match port_if_not_default scheme p with
      | Some p =>
          if negb (opt_eqb (Some p) (u_port orig)) then
            match u_auth orig with
            | Some a => inl (Authority (a_host a) (Some p))
            | None => inr EMissingAuthority
            end
          else match u_auth orig with Some a => inl a | None => inr EMissingAuthority end
      | None =>
          match u_port orig with
          | Some _ =>
              match u_auth orig with
              | Some a => inl (Authority (a_host a) None)
              | None => inr EMissingAuthority
              end
          | None => match u_auth orig with Some a => inl a | None => inr EMissingAuthority end
          end
      end
  end.

(** Splitting a path-and-query text at the first '?'. *)
Definition pq_of_text (t : bytes) : bytes * option bytes :=
  match split_once 63 t with
  | Some (p, q) => (p, Some q)
  | None => (t, None)
  end.

Section Redirect.
  (** Whether a text is a valid path and query for the `http` crate. *)
  Variable pq_valid : bytes -> bool.

  (** The result of parsing a path and query, or the panic/errors. *)
  Inductive pq_result := PQ (p : bytes) (q : option bytes) | PQErr (e : redirect_error) | PQPanic.

  (** `PathAndQuery::from_str`, redirect.rs:149-193 *)
  Definition pq_parse (t : bytes) : pq_result :=
    if pq_valid t then let '(p, q) := pq_of_text t in PQ p q else PQErr EInvalid.

  (** redirect.rs:149-193 *)
  Definition redirect_path (r : redirect) (orig : uri) (rm : request_match) : pq_result :=
    match rd_path r with
    | None => if has_path_and_query orig then PQ (u_path orig) (u_query orig) else PQPanic
    | Some (ReplaceFullPath p) => pq_parse p
    | Some (ReplacePrefixMatch new_pfx) =>
        match rm_path rm with
        | PMPrefix n =>
            if n <=? len (u_path orig) then
              let rest := skipn (N.to_nat n) (u_path orig) in
              let slash :=
                if negb (match rest with [] => true | _ => false end) && negb (starts_with [47] rest)
                then [47] else [] in
              let query := match u_query orig with Some q => 63 :: q | None => [] end in
              pq_parse (new_pfx ++ slash ++ rest ++ query)
            else PQErr EReplacePrefix
        | _ => PQErr EReplacePrefix
        end
    end.

  (** `PartialEq for Authority`: ignores case *)
  Definition auth_eq (a b : authority) : bool :=
    eq_ignore_case (a_host a) (a_host b) && opt_eqb (a_port a) (a_port b).
  (** `PartialEq for Option` *)
  Definition opt_rel {A} (f : A -> A -> bool) (a b : option A) : bool :=
    match a, b with Some x, Some y => f x y | None, None => true | _, _ => false end.

  (** Equality of [http::Uri]. *)
  Definition uri_eq (a b : uri) : bool :=
    opt_rel scheme_eq (u_scheme a) (u_scheme b) && opt_rel auth_eq (u_auth a) (u_auth b)
    && beq (u_path a) (u_path b) && opt_rel beq (u_query a) (u_query b).

  (** redirect.rs:48-76 *)
  Definition redirect_apply (r : redirect) (orig : uri) (rm : request_match) : redirect_result :=
    let scheme :=
      match rd_scheme r with
      | Some s => s
      | None => match u_scheme orig with Some s => s | None => HTTP end
      end in
    match redirect_authority r orig scheme with
    | inr e => RErr e
    | inl auth =>
        match redirect_path r orig rm with
        | PQPanic => RPanic
        | PQErr e => RErr e
        | PQ p q =>
            let location := Uri (Some scheme) (Some auth) p q in
            if uri_eq location orig then ROk None
            else ROk (Some (Redirection (match rd_status r with Some s => s | None => 301 end) location))
        end
    end.
End Redirect.
