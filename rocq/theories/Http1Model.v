(** Model of what the proxy does to HTTP/1 messages: the upgrade service of its HTTP/1 server
    (linkerd/http/upgrade), the forms of URIs (linkerd/proxy/http/src/normalize_uri.rs,
    linkerd/http/override-authority), carrying them over HTTP/2
    (linkerd/proxy/http/src/orig_proto.rs) and the HTTP/1 client (linkerd/proxy/http/src/h1.rs).

    Simplifications: bodies are not modelled; of a request's extensions only those that these
    modules read or write are; the names in a header map are lower-case, as `HeaderName`s are;
    parsing an authority is a parameter. *)
From Coq Require Import String List NArith Bool.
From Verif Require Import Bytes FilterModel TraceModel RetryModel.
Import ListNotations.
Open Scope N_scope.

(** `http::Version` *)
Inductive version := Http_09 | Http_10 | Http_11 | Http_2 | Http_3.
(** `==` on versions *)
Definition version_eqb (a b : version) : bool :=
  match a, b with
  | Http_09, Http_09 | Http_10, Http_10 | Http_11, Http_11 | Http_2, Http_2 | Http_3, Http_3 => true
  | _, _ => false
  end.

(** `http::Request`, with the extensions `h1::WasAbsoluteForm` (h1.rs:14-15),
    `upgrade::Http11Upgrade` (upgrade.rs:25-28) and `orig_proto::WasUpgrade` (orig_proto.rs:42-44) *)
Record request := Request {
  q_method : bytes; q_version : version; q_uri : uri; q_headers : headers;
  q_absolute : bool; q_upgrade : bool; q_was_upgrade : bool }.
(** `http::Response` *)
Record response := Response { r_status : N; r_version : version; r_headers : headers }.

(** `req.headers_mut()`: the request with other headers *)
Definition with_headers (r : request) (hs : headers) : request :=
  Request (q_method r) (q_version r) (q_uri r) hs (q_absolute r) (q_upgrade r) (q_was_upgrade r).
(** `*req.uri_mut() = …` *)
Definition with_uri (r : request) (u : uri) : request :=
  Request (q_method r) (q_version r) u (q_headers r) (q_absolute r) (q_upgrade r) (q_was_upgrade r).
(** `*req.version_mut() = …` *)
Definition with_version (r : request) (v : version) : request :=
  Request (q_method r) v (q_uri r) (q_headers r) (q_absolute r) (q_upgrade r) (q_was_upgrade r).
(** inserting or removing `WasAbsoluteForm` *)
Definition with_absolute (r : request) (b : bool) : request :=
  Request (q_method r) (q_version r) (q_uri r) (q_headers r) b (q_upgrade r) (q_was_upgrade r).
(** inserting or removing `Http11Upgrade` *)
Definition with_upgrade (r : request) (b : bool) : request :=
  Request (q_method r) (q_version r) (q_uri r) (q_headers r) (q_absolute r) b (q_was_upgrade r).
(** inserting `WasUpgrade` *)
Definition with_was_upgrade (r : request) (b : bool) : request :=
  Request (q_method r) (q_version r) (q_uri r) (q_headers r) (q_absolute r) (q_upgrade r) b.

(** `http::Method::CONNECT` *)
Definition CONNECT : bytes := bs "CONNECT"%string.
(** `http::header::CONNECTION` *)
Definition CONNECTION : bytes := bs "connection"%string.
(** `http::header::UPGRADE` *)
Definition UPGRADE : bytes := bs "upgrade"%string.
(** http/upgrade/src/lib.rs:73 *)
Definition PROXY_CONNECTION : bytes := bs "proxy-connection"%string.
(** http/upgrade/src/lib.rs:74 *)
Definition KEEP_ALIVE : bytes := bs "keep-alive"%string.
(** `http::header::TRANSFER_ENCODING` *)
Definition TRANSFER_ENCODING : bytes := bs "transfer-encoding"%string.
(** `http::header::CONTENT_LENGTH` *)
Definition CONTENT_LENGTH : bytes := bs "content-length"%string.
(** `http::header::HOST` *)
Definition HOST : bytes := bs "host"%string.
(** upgrade.rs:317 *)
Definition H2C : bytes := bs "h2c"%string.
(** orig_proto.rs:15 *)
Definition L5D_ORIG_PROTO : bytes := bs "l5d-orig-proto"%string.
(** app/core/src/lib.rs:59 *)
Definition CANONICAL_DST_HEADER : bytes := bs "l5d-dst-canonical"%string.

(** ** linkerd/http/upgrade *)

(** http/upgrade/src/lib.rs:54-75.  `HeaderMap::remove` of a string ignores case; a string
    that is no header name is no name in the map. *)
Definition strip_connection_headers (hs : headers) : headers :=
  let hs :=
    match hm_get hs CONNECTION with
    | Some val =>
        let hs := hm_remove hs CONNECTION in
        match to_str val with
        | Some conn_header => fold_left (fun hs name => hm_remove hs (lowers (trim name))) (split 44 conn_header) hs
        | None => hs
        end
    | None => hs
    end in
  hm_remove (hm_remove (hm_remove hs UPGRADE) PROXY_CONNECTION) KEEP_ALIVE.

(** upgrade.rs:294-296 *)
Definition is_origin_form (u : uri) : bool :=
  match u_scheme u with Some _ => false | None => negb (has_path_and_query u) end.
(** upgrade.rs:269-289 *)
Definition is_bad_request (r : request) : bool :=
  if beq (q_method r) CONNECT then
    if negb (version_eqb (q_version r) Http_11) then true
    else negb (is_origin_form (q_uri r))
  else is_origin_form (q_uri r).
(** upgrade.rs:299-322 *)
Definition wants_upgrade (r : request) : bool :=
  if negb (version_eqb (q_version r) Http_11) then false
  else match hm_get (q_headers r) UPGRADE with
       | Some upgrade => negb (beq upgrade H2C)
       | None => beq (q_method r) CONNECT
       end.
(** What the upgrade service does with a request: it is answered, or passed on. *)
Inductive accepted := Answered (rsp : response) | Passed (r : request).
(** upgrade.rs:228-260 *)
Definition upgrade_call (r : request) : accepted :=
  if is_bad_request r then Answered (Response 400 Http_11 [])
  else if wants_upgrade r then Passed (with_upgrade r true)
  else Passed (with_headers r (strip_connection_headers (q_headers r))).

(** The two halves of an upgrade (upgrade.rs:25-28 and 40-44): which handles are alive, which
    have been given a future, and how many tunnels were spawned *)
Record halves := Halves {
  server_alive : bool; client_alive : bool; server_set : bool; client_set : bool; tunnels : nat }.
(** upgrade.rs:73-90 *)
Definition new_halves : halves := Halves true true false false 0.
(** What happens to them: the body of the request is dropped; the client inserts its future; the
    request's extension is dropped without; the client does so on a clone of the extension. *)
Inductive half_op := Body_dropped | Client_insert | Client_drop | Clone_insert.
(** upgrade.rs:152-190: once both handles are gone, `Inner` is dropped. *)
Definition drop_inner (h : halves) : halves :=
  if negb (server_alive h) && negb (client_alive h) then
    if server_set h && client_set h then Halves false false false false (S (tunnels h))
    else Halves false false false false (tunnels h)
  else h.
(** glue.rs:105-119 and upgrade.rs:92-120; the boolean: it succeeded *)
Definition half_step (h : halves) (o : half_op) : halves * bool :=
  match o with
  | Body_dropped =>
      if server_alive h
      then (drop_inner (Halves false (client_alive h) true (client_set h) (tunnels h)), true)
      else (h, false)
  | Client_insert =>
      if client_alive h
      then (drop_inner (Halves (server_alive h) false (server_set h) true (tunnels h)), true)
      else (h, false)
  | Client_drop =>
      if client_alive h
      then (drop_inner (Halves (server_alive h) false (server_set h) (client_set h) (tunnels h)), true)
      else (h, false)
  | Clone_insert => (h, false)
  end.
(** The halves after any number of those *)
Definition half_run (os : list half_op) : halves := fold_left (fun h o => fst (half_step h o)) os new_halves.

(** ** linkerd/http/override-authority *)

(** `http::uri::Parts` *)
Record parts := Parts {
  p_scheme : option bytes; p_authority : option authority; p_path_and_query : option (bytes * option bytes) }.
(** `uri::Parts::from` *)
Definition into_parts (u : uri) : parts :=
  Parts (u_scheme u) (u_auth u) (if has_path_and_query u then Some (u_path u, u_query u) else None).
(** `Uri::from_parts`; [None]: an error *)
Definition from_parts (p : parts) : option uri :=
  let ok := Some (Uri (p_scheme p) (p_authority p)
                      (match p_path_and_query p with Some (path, _) => path | None => [] end)
                      (match p_path_and_query p with Some (_, q) => q | None => None end)) in
  match p_scheme p, p_authority p, p_path_and_query p with
  | Some _, None, _ => None
  | Some _, _, None => None
  | None, Some _, Some _ => None
  | _, _, _ => ok
  end.
(** http/override-authority/src/lib.rs:30-48; [None]: the `expect` panics *)
Definition set_authority (u : uri) (auth : authority) : option uri :=
  let p := into_parts u in
  from_parts (Parts (match p_path_and_query p with Some _ => Some HTTP | None => p_scheme p end)
                    (Some auth) (p_path_and_query p)).
(** http/override-authority/src/lib.rs:98-115; [None]: a panic *)
Definition override_authority (headers_to_strip : list bytes) (over : option authority) (r : request) : option request :=
  match over with
  | Some a =>
      let r := with_headers r (fold_left hm_remove headers_to_strip (q_headers r)) in
      match set_authority (q_uri r) a with
      | Some u => Some (with_uri r u)
      | None => None
      end
  | None => Some r
  end.
(** app/outbound/src/http/endpoint.rs:125-128 *)
Definition endpoint_override : option authority -> request -> option request :=
  override_authority [HOST; CANONICAL_DST_HEADER].

(** ** normalize_uri.rs *)

(** h1.rs:211-221 *)
Definition is_absolute_form (u : uri) : bool := match u_scheme u with Some _ => true | None => false end.
(** normalize_uri.rs:157-168 *)
Definition mark_absolute_form (r : request) : request :=
  match q_version r with
  | Http_10 | Http_11 => if is_absolute_form (q_uri r) then with_absolute r true else r
  | _ => r
  end.

(** What normalizing does with a request *)
Inductive normalized := Normalized (r : request) | No_authority | Normalize_panic.

Section Authority.
Variable parse_authority : bytes -> option authority.
(** proxy/http/src/lib.rs:86-92 *)
Definition authority_from_header (hs : headers) (name : bytes) : option authority :=
  match hm_get hs name with
  | Some v => match to_str v with Some s => parse_authority s | None => None end
  | None => None
  end.
(** normalize_uri.rs:113-131 *)
Definition normalize_uri (default : option authority) (r : request) : normalized :=
  match q_version r with
  | Http_10 | Http_11 =>
      if negb (q_absolute r) && (match u_auth (q_uri r) with None => true | Some _ => false end) then
        match (match authority_from_header (q_headers r) HOST with Some a => Some a | None => default end) with
        | Some a =>
            match set_authority (q_uri r) a with
            | Some u => Normalized (with_uri r u)
            | None => Normalize_panic
            end
        | None => No_authority
        end
      else Normalized r
  | _ => Normalized r
  end.
End Authority.

(** ** orig_proto.rs *)

(** orig_proto.rs:122-128 *)
Definition HTTP_11_STR : bytes := bs "HTTP/1.1"%string.
(** orig_proto.rs:125 *)
Definition HTTP_10_STR : bytes := bs "HTTP/1.0"%string.
(** orig_proto.rs:124 and 126 *)
Definition ABSOLUTE : bytes := bs "; absolute-form"%string.
(** orig_proto.rs:344-346 *)
Definition ABSOLUTE_FORM : bytes := bs "absolute-form"%string.

(** How a request is sent *)
Inductive dispatched := Over_http1 (r : request) | Over_h2 (r : request) (orig_version : version) | Unreachable.
(** orig_proto.rs:96-135 *)
Definition orig_proto_upgrade (r : request) : dispatched :=
  if q_upgrade r then Over_http1 r
  else
    let orig_version := q_version r in
    let absolute_form := q_absolute r in
    let r := with_absolute r false in
    match (match orig_version, absolute_form with
           | Http_11, false => Some HTTP_11_STR
           | Http_11, true => Some (HTTP_11_STR ++ ABSOLUTE)
           | Http_10, false => Some HTTP_10_STR
           | Http_10, true => Some (HTTP_10_STR ++ ABSOLUTE)
           | _, _ => None
           end) with
    | None => Unreachable
    | Some header =>
        let hs := hm_insert (q_headers r) L5D_ORIG_PROTO header in
        let hs := hm_remove hs TRANSFER_ENCODING in
        Over_h2 (with_version (with_headers r hs) Http_2) orig_version
    end.
(** orig_proto.rs:137-154 *)
Definition orig_proto_upgrade_response (orig_version : version) (rsp : response) : response :=
  let v := match hm_get (r_headers rsp) L5D_ORIG_PROTO with
           | Some orig_proto =>
               if beq orig_proto HTTP_11_STR then Some Http_11
               else if beq orig_proto HTTP_10_STR then Some Http_10
               else None
           | None => None
           end in
  Response (r_status rsp) (match v with Some v => v | None => orig_version end) (hm_remove (r_headers rsp) L5D_ORIG_PROTO).

(** orig_proto.rs:344-346 *)
Definition was_absolute_form (val : bytes) : bool :=
  (23 <=? len val) && beq (firstn 13 (skipn 10 val)) ABSOLUTE_FORM.
(** orig_proto.rs:294-319; the boolean: `upgrade_response` *)
Definition downgrade (r : request) : request * bool :=
  if version_eqb (q_version r) Http_2 then
    match hm_get (q_headers r) L5D_ORIG_PROTO with
    | Some val =>
        let r := with_headers r (hm_remove (q_headers r) L5D_ORIG_PROTO) in
        let r := if starts_with HTTP_11_STR val then with_version r Http_11
                 else if starts_with HTTP_10_STR val then with_version r Http_10
                 else r in
        let r := if was_absolute_form val then with_absolute r true else r in
        (with_was_upgrade r true, true)
    | None => (r, false)
    end
  else (r, false).
(** orig_proto.rs:321-339 *)
Definition downgrade_response (upgrade_response : bool) (rsp : response) : response :=
  if upgrade_response then
    match (match r_version rsp with Http_11 => Some HTTP_11_STR | Http_10 => Some HTTP_10_STR | _ => None end) with
    | Some orig_proto =>
        Response (r_status rsp) Http_2 (hm_remove (hm_insert (r_headers rsp) L5D_ORIG_PROTO orig_proto) TRANSFER_ENCODING)
    | None => rsp
    end
  else rsp.

(** ** h1.rs *)

(** A client of hyper: for which form it is configured, and whether it is kept *)
Record h1_client := H1Client { c_absolute : bool; c_pooled : bool }.
(** h1.rs:30-36: which of the two clients exist *)
Record h1_state := H1State { absolute_form : bool; origin_form : bool }.
(** h1.rs:38-48 *)
Definition h1_new : h1_state := H1State false false.
(** h1.rs:82-141 *)
Definition h1_call (s : h1_state) (r : request) : h1_state * h1_client :=
  let use_absolute_form := q_absolute r in
  let is_missing_host := match hm_get (q_headers r) HOST with Some v => len v =? 0 | None => true end in
  if version_eqb (q_version r) Http_10 || is_missing_host then (s, H1Client use_absolute_form false)
  else if use_absolute_form then (H1State true (origin_form s), H1Client true true)
  else (H1State (absolute_form s) true, H1Client false true).
(** `StatusCode::is_success` *)
Definition is_success (status : N) : bool := (200 <=? status) && (status <? 300).
(** h1.rs:175-201 *)
Definition is_upgrade (rsp : response) (is_http_connect : bool) : bool :=
  match r_version rsp with
  | Http_11 => if r_status rsp =? 101 then true else is_http_connect && is_success (r_status rsp)
  | _ => false
  end.
(** h1.rs:143-171; the boolean: the client's half is inserted *)
Definition h1_response (is_http_connect upgrade : bool) (rsp : response) : response * bool :=
  let rsp :=
    if is_http_connect && is_success (r_status rsp)
    then Response (r_status rsp) (r_version rsp) (hm_remove (hm_remove (r_headers rsp) CONTENT_LENGTH) TRANSFER_ENCODING)
    else rsp in
  if is_upgrade rsp is_http_connect then (rsp, upgrade)
  else (Response (r_status rsp) (r_version rsp) (strip_connection_headers (r_headers rsp)), false).

(** ** The copy of a request that is sent when it is retried *)

(** http/retry/src/lib.rs:352-360 with app/outbound/src/http/logical/policy/route/retry.rs:75-109,
    and app/outbound/src/http/retry.rs:127-150: of the extensions above none is copied. *)
Definition retry_copy (r : request) : request :=
  Request (q_method r) (q_version r) (q_uri r) (q_headers r) false false false.
