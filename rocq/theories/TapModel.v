(** Model of linkerd/proxy/tap/src: the requests that a tap selects (grpc/match_.rs), the events that it reports
    (grpc/server.rs, service.rs), the taps that are known (registry.rs) and the clients that may ask (accept.rs).
    Headers are the [headers] of FilterModel, addresses those of AuthzModel. *)
From Coq Require Import List Arith NArith ZArith Bool.
From Verif Require Import Bytes NameModel AuthzModel FilterModel TraceModel MtlsModel.
Import ListNotations.
Open Scope N_scope.

(** ** grpc/match_.rs *)

(** `http_types::scheme::Type`, of the crate linkerd2-proxy-api *)
Inductive w_scheme := W_scheme_registered (n : Z) | W_scheme_unregistered (s : bytes).
(** `http_types::http_method::Type`, of the crate linkerd2-proxy-api *)
Inductive w_method := W_method_registered (n : Z) | W_method_unregistered (s : bytes).
(** `observe_request::r#match::http::string_match::Match`, of the crate linkerd2-proxy-api *)
Inductive string_match := Exact (s : bytes) | Prefix (s : bytes).
(** `observe_request::r#match::http::Match`, of the crate linkerd2-proxy-api.  Messages whose field is not set are
    [None]. *)
Inductive w_http :=
| W_scheme (s : option w_scheme)
| W_method (m : option w_method)
| W_authority (s : option string_match)
| W_path (s : option string_match).
(** `observe_request::r#match::tcp::Match`, of the crate linkerd2-proxy-api; the numbers are of 32 bits. *)
Inductive w_tcp := W_ports (min max : N) | W_netmask (a : option ip) (mask : N).
(** `observe_request::r#match::Match`, of the crate linkerd2-proxy-api *)
Inductive wire :=
| W_all (l : list (option wire))
| W_any (l : list (option wire))
| W_not (w : option wire)
| W_source (t : option w_tcp)
| W_destination (t : option w_tcp)
| W_dst_label (k v : bytes)
| W_route_label (k v : bytes)
| W_http (h : option w_http).

(** match_.rs:20-32 *)
Inductive invalid := Empty | InvalidPort | InvalidNetwork | InvalidHttpMethod | InvalidScheme.
(** match_.rs:41-51 *)
Inductive tcp_match := PortRange (min max : N) | NetMatch (n : ipnet).
(** `http::uri::Scheme`, of the crate http *)
Inductive scheme := Http | Https | Other (s : bytes).
(** match_.rs:53-59 *)
Inductive http_match := MScheme (s : scheme) | MMethod (m : bytes) | MPath (s : string_match) | MAuthority (s : string_match).
(** match_.rs:8-18, 34-38 *)
Inductive match_ :=
| Any (l : list match_)
| All (l : list match_)
| Not (m : match_)
| Source (t : tcp_match)
| Destination (t : tcp_match)
| DestinationLabel (k v : bytes)
| RouteLabel (k v : bytes)
| MHttp (h : http_match).

(** `Scheme::eq`, of the crate http: a scheme other than these two is compared without regard to case *)
Definition scheme_eqb (a b : scheme) : bool :=
  match a, b with
  | Http, Http | Https, Https => true
  | Other s, Other t => eq_ignore_case s t
  | _, _ => false
  end.

(** What a tap sees of a request: lib.rs:29-59 with app/outbound/src/http/concrete.rs:337-368 and
    app/inbound/src/http/router.rs:421-454.  [v_scheme], [v_uri_authority], [v_path] and [v_path_and_query] are of its
    URI; the TLS of the source and of the destination, which are only reported, are left out. *)
Record view := View {
  v_src : option (ip * N);
  v_dst : option (ip * N);
  v_dst_labels : option (list (bytes * bytes));
  v_route_labels : option (list (bytes * bytes));
  v_method : bytes;
  v_scheme : option scheme;
  v_uri_authority : option bytes;
  v_path : bytes;
  v_path_and_query : option bytes;
  v_h2 : bool;
  v_headers : headers;
}.
(** `http::header::HOST` *)
Definition HOST : bytes := [104; 111; 115; 116].
(** lib.rs:48-58 *)
Definition authority_of (v : view) : option bytes :=
  match v_uri_authority v with
  | Some a => Some a
  | None => match TraceModel.hm_get (v_headers v) HOST with Some h => to_str h | None => None end
  end.
(** `BTreeMap::get`, of a list of labels with different names *)
Definition label_get (l : list (bytes * bytes)) (k : bytes) : option bytes :=
  option_map snd (find (fun p => beq (fst p) k) l).

(** match_.rs:135-139 *)
Definition label_matches (k v : bytes) (l : list (bytes * bytes)) : bool :=
  match label_get l k with Some x => beq x v | None => false end.
(** match_.rs:158-167, 201-214 *)
Definition tcp_matches (t : tcp_match) (a : ip * N) : bool :=
  match t with
  | PortRange min max => (min <=? snd a) && (snd a <=? max)
  | NetMatch n => net_contains n (fst a)
  end.
(** match_.rs:263-273 *)
Definition matches_string (m : string_match) (s : bytes) : bool :=
  match m with Exact e => beq s e | Prefix p => starts_with p s end.
(** match_.rs:247-261 *)
Definition http_matches (h : http_match) (v : view) : bool :=
  match h with
  | MScheme s => scheme_eqb s (match v_scheme v with Some t => t | None => Http end)
  | MMethod m => beq m (v_method v)
  | MAuthority m => match authority_of v with Some a => matches_string m a | None => false end
  | MPath m => matches_string m (v_path v)
  end.
(** match_.rs:73-96 *)
Fixpoint matches (m : match_) (v : view) : bool :=
  match m with
  | Any l => existsb (fun m => matches m v) l
  | All l => forallb (fun m => matches m v) l
  | Not m => negb (matches m v)
  | Source t => match v_src v with Some a => tcp_matches t a | None => false end
  | Destination t => match v_dst v with Some a => tcp_matches t a | None => false end
  | DestinationLabel k x => match v_dst_labels v with Some l => label_matches k x l | None => false end
  | RouteLabel k x => match v_route_labels v with Some l => label_matches k x l | None => false end
  | MHttp h => http_matches h v
  end.

(** match_.rs:141-154 *)
Definition label_of (k v : bytes) : (bytes * bytes) + invalid :=
  match k, v with
  | [], _ | _, [] => inr Empty
  | _, _ => inl (k, v)
  end.
(** match_.rs:216-243, with `Ipv4Net::new` and `Ipv6Net::new` of the crate ipnet *)
Definition net_of_mask (a : option ip) (mask : N) : ipnet + invalid :=
  if mask =? 0 then inr Empty
  else if u8_max <? mask then inr InvalidNetwork
  else match a with
       | None => inr Empty
       | Some (V4 n) => if 32 <? mask then inr InvalidNetwork else inl (Net4 n mask)
       | Some (V6 n) => if 128 <? mask then inr InvalidNetwork else inl (Net6 n mask)
       end.
(** match_.rs:169-197 *)
Definition tcp_of (t : option w_tcp) : tcp_match + invalid :=
  match t with
  | None => inr Empty
  | Some (W_ports rmin rmax) =>
      let min := if rmin =? 0 then rmax else rmin in
      let max := if rmax =? 0 then rmin else rmax in
      if (min =? 0) || (max =? 0) then inr Empty
      else if (u16_max <? min) || (u16_max <? max) then inr InvalidPort
      else if max <? min then inr InvalidPort
      else inl (PortRange min max)
  | Some (W_netmask a mask) => match net_of_mask a mask with inl n => inl (NetMatch n) | inr e => inr e end
  end.

Section Library.
(** Whether a text is a scheme, and the method of a message, according to the crates http and linkerd2-proxy-api *)
Variable scheme_ok : bytes -> bool.
Variable method_of : w_method -> option bytes.

(** `Scheme::from_str`, of the crate http; used at match_.rs:291-293 *)
Definition scheme_from_str (s : bytes) : option scheme :=
  if beq s HTTP then Some Http else if beq s HTTPS then Some Https
  else if scheme_ok s then Some (Other s) else None.
(** match_.rs:276-310 *)
Definition http_of (h : option w_http) : http_match + invalid :=
  match h with
  | None => inr Empty
  | Some (W_scheme None) => inr Empty
  | Some (W_scheme (Some (W_scheme_registered n))) =>
      if (n =? 0)%Z then inl (MScheme Http) else if (n =? 1)%Z then inl (MScheme Https) else inr InvalidScheme
  | Some (W_scheme (Some (W_scheme_unregistered s))) =>
      match scheme_from_str s with Some s => inl (MScheme s) | None => inr InvalidScheme end
  | Some (W_method None) => inr Empty
  | Some (W_method (Some m)) => match method_of m with Some m => inl (MMethod m) | None => inr InvalidHttpMethod end
  | Some (W_authority None) => inr Empty
  | Some (W_authority (Some s)) => inl (MAuthority s)
  | Some (W_path None) => inr Empty
  | Some (W_path (Some s)) => inl (MPath s)
  end.
(** match_.rs:107-131, with `from_seq` of lines 64-71 *)
Fixpoint of_wire (w : wire) : match_ + invalid :=
  let fix from_seq (l : list (option wire)) : list match_ + invalid :=
    match l with
    | [] => inl []
    | None :: l => from_seq l
    | Some w :: l =>
        match of_wire w with
        | inr e => inr e
        | inl m => match from_seq l with inr e => inr e | inl ms => inl (m :: ms) end
        end
    end in
  match w with
  | W_all l => match from_seq l with inl ms => inl (All ms) | inr e => inr e end
  | W_any l => match from_seq l with inl ms => inl (Any ms) | inr e => inr e end
  | W_not None => inr Empty
  | W_not (Some w) => match of_wire w with inl m => inl (Not m) | inr e => inr e end
  | W_source t => match tcp_of t with inl t => inl (Source t) | inr e => inr e end
  | W_destination t => match tcp_of t with inl t => inl (Destination t) | inr e => inr e end
  | W_dst_label k v => match label_of k v with inl (k, v) => inl (DestinationLabel k v) | inr e => inr e end
  | W_route_label k v => match label_of k v with inl (k, v) => inl (RouteLabel k v) | inr e => inr e end
  | W_http h => match http_of h with inl h => inl (MHttp h) | inr e => inr e end
  end.
(** match_.rs:99-105 *)
Definition try_new (w : option wire) : match_ + invalid :=
  match w with None => inr Empty | Some w => of_wire w end.
End Library.

(** ** grpc/server.rs: one tap *)
Open Scope nat_scope.

(** lib.rs:15 *)
Definition CAPACITY : nat := N.to_nat 400.

(** A response, server.rs:334-380; [r_ended]: its body is at its end already (service.rs:125-132). *)
Record response := Response { r_status : N; r_h2 : bool; r_headers : headers; r_ended : bool }.
(** `api::eos::End` *)
Inductive eos := Reset (code : N) | Grpc_status (code : N).
(** `api::tap_event::http::Event`.  Simplification: the metadata that all events of a request share, the sizes, which
    are always 0, and the times are left out. *)
Inductive event :=
| RequestInit (id : nat) (method : bytes) (scheme : option scheme) (authority path : bytes) (hs : option headers)
| ResponseInit (id : nat) (status : N) (hs : option headers)
| ResponseEnd (id : nat) (e : option eos) (trailers : option headers).

(** server.rs:540-557 *)
Definition headers_to_pb (pseudos hs : headers) : headers := pseudos ++ hs.
(** `Scheme::as_str`, of the crate http *)
Definition scheme_str (s : scheme) : bytes := match s with Http => HTTP | Https => HTTPS | Other s => s end.
(** ":method" *)
Definition P_METHOD : bytes := [58; 109; 101; 116; 104; 111; 100]%N.
(** ":scheme" *)
Definition P_SCHEME : bytes := [58; 115; 99; 104; 101; 109; 101]%N.
(** ":authority" *)
Definition P_AUTHORITY : bytes := [58; 97; 117; 116; 104; 111; 114; 105; 116; 121]%N.
(** ":path" *)
Definition P_PATH : bytes := [58; 112; 97; 116; 104]%N.
(** ":status" *)
Definition P_STATUS : bytes := [58; 115; 116; 97; 116; 117; 115]%N.
(** "grpc-status" *)
Definition GRPC_STATUS : bytes := [103; 114; 112; 99; 45; 115; 116; 97; 116; 117; 115]%N.
(** `unwrap_or_default` of a text *)
Definition or_empty (s : option bytes) : bytes := match s with Some s => s | None => [] end.

(** server.rs:256-315 *)
Definition request_init (extract : bool) (id : nat) (v : view) : event :=
  let hs :=
    if extract then
      Some (if v_h2 v then
              headers_to_pb [(P_METHOD, v_method v); (P_SCHEME, or_empty (option_map scheme_str (v_scheme v)));
                             (P_AUTHORITY, or_empty (authority_of v)); (P_PATH, or_empty (v_path_and_query v))]
                (v_headers v)
            else headers_to_pb [] (v_headers v))
    else None in
  RequestInit id (v_method v) (v_scheme v) (or_empty (authority_of v)) (v_path v) hs.
(** server.rs:334-364 *)
Definition response_init (extract : bool) (id : nat) (r : response) : event :=
  let hs :=
    if extract then
      Some (if r_h2 r then headers_to_pb [(P_STATUS, to_dec (r_status r))] (r_headers r)
            else headers_to_pb [] (r_headers r))
    else None in
  ResponseInit id (r_status r) hs.
(** server.rs:374-378, 413-416: `parse::<u32>` *)
Definition grpc_status (hs : headers) : option N :=
  match get_header_str hs GRPC_STATUS with Some s => parse_uint u32_max s | None => None end.
(** server.rs:410-420, 429-456; [st] is what the response's headers said. *)
Definition response_eos (extract : bool) (id : nat) (st : option N) (trls : option headers) : event :=
  let st := match trls with None => st | Some t => grpc_status t end in
  ResponseEnd id (option_map Grpc_status st)
    (if extract then option_map (headers_to_pb []) trls else None).
(** server.rs:382-405, 422-427, 429-456; [reason]: the HTTP/2 reset code of the error, if it has one *)
Definition response_fail (id : nat) (reason : option N) : event := ResponseEnd id (option_map Reset reason) None.

(** Where a tapped request is: it has been counted and holds the tap (server.rs:231-254); it was reported, and a
    `TapResponse` waits for the response; it has a response, whose body holds a `TapResponsePayload` with the gRPC
    status of the headers; or nothing more is to be reported of it. *)
Inductive phase := Counted (v : view) | Waiting | InBody (st : option N) | Done.
(** `Shared` and `ResponseStream`, server.rs:27-43.  [t_held]: the stream has the `Shared`; [t_open]: it has not been
    dropped; [t_reqs]: the requests that have been counted below the limit, by id; [t_buffer]: the channel of events;
    [t_out]: what the stream has yielded; [t_ended]: it has yielded its end. *)
Record tap := Tap {
  t_match : match_;
  t_extract : bool;
  t_limit : nat;
  t_count : nat;
  t_held : bool;
  t_open : bool;
  t_reqs : list phase;
  t_buffer : list event;
  t_out : list event;
  t_ended : bool;
}.

(** Helper: does a request keep the `Shared`, server.rs:231? *)
Definition is_counted (p : phase) : bool := match p with Counted _ => true | _ => false end.
(** Helper: does a request have a sender of events? *)
Definition is_live (p : phase) : bool := match p with Done => false | _ => true end.
(** `Weak::upgrade`, server.rs:220, 231: something holds the `Shared` *)
Definition upgrade (t : tap) : bool := t_held t || existsb is_counted (t_reqs t).
(** server.rs:211-213 *)
Definition under_limit (t : tap) : bool := t_count t <? t_limit t.
(** server.rs:219-224 *)
Definition can_tap_more (t : tap) : bool := upgrade t && under_limit t.

(** Helper: sets an element of a list *)
Fixpoint set_nth {A} (n : nat) (x : A) (l : list A) : list A :=
  match l, n with
  | [], _ => []
  | _ :: l, O => x :: l
  | y :: l, S n => y :: set_nth n x l
  end.
(** Helper: the request [id] is at [p] *)
Definition with_req (t : tap) (id : nat) (p : phase) : tap :=
  Tap (t_match t) (t_extract t) (t_limit t) (t_count t) (t_held t) (t_open t) (set_nth id p (t_reqs t)) (t_buffer t)
    (t_out t) (t_ended t).
(** `mpsc::Sender::try_send`, of the crate tokio, would succeed: the receiver is there and the channel is not full *)
Definition can_send (t : tap) : bool := t_open t && (length (t_buffer t) <? CAPACITY).
(** `let _ = tx.try_send(event)` *)
Definition try_send (t : tap) (e : event) : tap :=
  if can_send t then
    Tap (t_match t) (t_extract t) (t_limit t) (t_count t) (t_held t) (t_open t) (t_reqs t) (t_buffer t ++ [e])
      (t_out t) (t_ended t)
  else t.

(** server.rs:231-254: a request is matched and counted.  It is reported later ([Report]), so that the model has every
    order in which concurrent requests do so. *)
Definition count_request (v : view) (t : tap) : tap :=
  if upgrade t && matches (t_match t) v then
    Tap (t_match t) (t_extract t) (t_limit t) (S (t_count t)) (t_held t) (t_open t)
      (if under_limit t then t_reqs t ++ [Counted v] else t_reqs t) (t_buffer t) (t_out t) (t_ended t)
  else t.
(** server.rs:187-205 *)
Definition poll (t : tap) : tap :=
  let held := t_held t && under_limit t in
  if t_open t then
    match t_buffer t with
    | e :: b =>
        Tap (t_match t) (t_extract t) (t_limit t) (t_count t) held (t_open t) (t_reqs t) b (t_out t ++ [e]) (t_ended t)
    | [] =>
        Tap (t_match t) (t_extract t) (t_limit t) (t_count t) held (t_open t) (t_reqs t) [] (t_out t)
          (t_ended t || negb (held || existsb is_live (t_reqs t)))
    end
  else t.
(** The stream is dropped, for example when its client leaves *)
Definition leave (t : tap) : tap :=
  Tap (t_match t) (t_extract t) (t_limit t) (t_count t) false false (t_reqs t) [] (t_out t) (t_ended t).

(** What a frame of a body is: service.rs:161-194; [last]: the body says that it is at its end now *)
Inductive frame := Data (last : bool) | Trailers (hs : headers) | End_of_body | Body_error (reason : option N).
(** What happens to a tap.  The requests are those that it has counted. *)
Inductive op :=
| Request (v : view)
| Report (id : nat)
| Respond (id : nat) (r : response)
| Fail (id : nat) (reason : option N)
| Cancel (id : nat)
| Frame (id : nat) (f : frame)
| Drop_body (id : nat)
| Poll
| Leave.

(** One step; an operation that is not possible for the request leaves the tap as it is. *)
Definition step (t : tap) (o : op) : tap :=
  match o with
  (* service.rs:88-95, server.rs:231-254 *)
  | Request v => count_request v t
  (* server.rs:256-328: a request whose first event is not sent is not tapped *)
  | Report id =>
      match nth_error (t_reqs t) id with
      | Some (Counted v) =>
          if can_send t then with_req (try_send t (request_init (t_extract t) id v)) id Waiting
          else with_req t id Done
      | _ => t
      end
  (* service.rs:100-106, 125-132, server.rs:334-380 *)
  | Respond id r =>
      match nth_error (t_reqs t) id with
      | Some Waiting =>
          let t := try_send t (response_init (t_extract t) id r) in
          let st := grpc_status (r_headers r) in
          if r_ended r then with_req (try_send t (response_eos (t_extract t) id st None)) id Done
          else with_req t id (InBody st)
      | _ => t
      end
  (* service.rs:107-112, server.rs:382-404 *)
  | Fail id reason =>
      match nth_error (t_reqs t) id with
      | Some Waiting => with_req (try_send t (response_fail id reason)) id Done
      | _ => t
      end
  (* service.rs:97-114: the future that has the taps is dropped before the response *)
  | Cancel id =>
      match nth_error (t_reqs t) id with
      | Some Waiting => with_req t id Done
      | _ => t
      end
  (* service.rs:161-194 *)
  | Frame id f =>
      match nth_error (t_reqs t) id with
      | Some (InBody st) =>
          match f with
          | Body_error reason => with_req (try_send t (response_fail id reason)) id Done
          | End_of_body => with_req (try_send t (response_eos (t_extract t) id st None)) id Done
          | Trailers hs => with_req (try_send t (response_eos (t_extract t) id st (Some hs))) id Done
          | Data true => with_req (try_send t (response_eos (t_extract t) id st None)) id Done
          | Data false => t
          end
      | _ => t
      end
  (* service.rs:202-212 *)
  | Drop_body id =>
      match nth_error (t_reqs t) id with
      | Some (InBody st) => with_req (try_send t (response_eos (t_extract t) id st None)) id Done
      | _ => t
      end
  | Poll => poll t
  | Leave => leave t
  end.
(** A history of a tap *)
Definition run (t : tap) (l : list op) : tap := fold_left step l t.

(** server.rs:157-164 *)
Definition new_tap (m : match_) (extract : bool) (limit : nat) : tap :=
  Tap m extract limit 0 true true [] [] [] false.
(** `observe_request::Extract`: absent, of another kind, or of HTTP with headers or without *)
Inductive w_extract := X_other | X_http (headers : bool).
(** server.rs:133-141, 460-480 *)
Definition extract_of (x : option w_extract) : bool :=
  match x with Some (X_http hs) => hs | _ => false end.
(** server.rs:112-131: what is wrong with a request to tap *)
Inductive refusal := No_limit | Invalid_match (e : invalid).
(** server.rs:106-179, without the registry *)
Definition observe (scheme_ok : bytes -> bool) (method_of : w_method -> option bytes) (limit : nat)
    (w : option wire) (x : option w_extract) : tap + refusal :=
  if limit =? 0 then inr No_limit
  else match try_new scheme_ok method_of w with
       | inr e => inr (Invalid_match e)
       | inl m => inl (new_tap m (extract_of x) limit)
       end.

(** ** registry.rs: all taps *)

(** [g_taps]: every tap that there was, by number; [g_inner]: the taps that the registry holds; [g_seen]: what the
    services see (registry.rs:8-20). *)
Record registry := Registry { g_taps : list tap; g_inner : list nat; g_seen : list nat }.
(** registry.rs:22-34 *)
Definition empty_registry : registry := Registry [] [] [].
(** Something that happens: a tap begins (registry.rs:45-49), the registry is cleaned (registry.rs:51-59), a service
    has a request, which it offers to the taps it sees (service.rs:91-95), or a tap goes on. *)
Inductive event_of := Register (t : tap) | Clean | Serve (v : view) | On (i : nat) (o : op).
(** Helper: a tap goes on *)
Definition on_tap (i : nat) (o : op) (l : list tap) : list tap :=
  match nth_error l i with Some t => set_nth i (step t o) l | None => l end.
(** registry.rs:41-59, service.rs:88-95.  Simplification: a request is counted by all the taps at once; they do not
    depend on each other. *)
Definition gstep (g : registry) (e : event_of) : registry :=
  match e with
  | Register t =>
      let inner := g_inner g ++ [length (g_taps g)] in
      Registry (g_taps g ++ [t]) inner inner
  | Clean =>
      let ok i := match nth_error (g_taps g) i with Some t => can_tap_more t | None => false end in
      Registry (g_taps g) (filter ok (g_inner g)) (g_seen g)
  | Serve v =>
      Registry (fold_left (fun l i => on_tap i (Request v) l) (g_seen g) (g_taps g)) (g_inner g) (g_seen g)
  | On i o => Registry (on_tap i o (g_taps g)) (g_inner g) (g_seen g)
  end.
(** A history of the registry *)
Definition grun (l : list event_of) : registry := fold_left gstep l empty_registry.

(** ** accept.rs *)

(** `tls::ConditionalServerTls`; a connection without TLS says why, tls/src/server.rs:47-62. *)
Inductive no_server_tls := Disabled | Loopback | PortSkipped | NoClientHello.
(** Who answers: the taps, or a service that refuses with this kind of message (accept.rs:110-133) *)
Inductive served := Authenticated | Unauthorized_client | Unauthenticated (reason : no_server_tls).
(** accept.rs:83-107 *)
Definition accept (permitted : EndpointModel.id) (tls : MtlsModel.server_tls + no_server_tls) : served :=
  match tls with
  | inl (Established (Some i) _) => if id_eq permitted i then Authenticated else Unauthorized_client
  | inl _ => Unauthorized_client
  | inr Loopback => Authenticated
  | inr reason => Unauthenticated reason
  end.
(** app/src/tap.rs:59-96: `NewDetectTls` and then [accept]; tls/src/server.rs:177-199 says `NoClientHello` for a
    connection without TLS.  [None]: the connection fails. *)
Definition tap_connection (L : lib) (permitted : EndpointModel.id) (local_name : bytes) (cfg : option credential) (sni : option bytes)
    (scheme : bool) (p : peer) (now : Z) : option served :=
  match server_accept L local_name cfg sni scheme p now with
  | None => None
  | Some (Some t) => Some (accept permitted (inl t))
  | Some None => Some (accept permitted (inr NoClientHello))
  end.
