(** What C56 says: which endpoints a history of discovery messages announces *)
From Coq Require Import String List NArith ZArith Bool Sorted.
From Verif Require Import Bytes NameModel NameSpec EndpointModel.
Import ListNotations.
Open Scope N_scope.

(** The number that octets make, the first being the most significant *)
Definition big_endian (l : list N) : N := fold_left (fun n b => n * 256 + b) l 0.
Definition of_octets (n : nat) (l : list N) (v : N) : Prop :=
  List.length l = n /\ Forall (fun b => b < 256) l /\ big_endian l = v.

(** The address a message means *)
Definition located (t : pb_tcp) (a : sock) : Prop :=
  s_port a = p_port t mod 2 ^ 16 /\
  ((exists n, p_ip t = Some (Some (Ipv4 n)) /\ of_octets 4 (s_ip a) n) \/
   (exists hi lo, p_ip t = Some (Some (Ipv6 hi lo)) /\ of_octets 16 (s_ip a) (hi * 2 ^ 64 + lo))).
(** The integers of a message fit their types. *)
Definition tcp_ok (t : pb_tcp) : Prop :=
  match p_ip t with
  | Some (Some (Ipv4 n)) => n < 2 ^ 32
  | Some (Some (Ipv6 hi lo)) => hi < 2 ^ 64 /\ lo < 2 ^ 64
  | _ => True
  end.

(** The order of the names of labels *)
Definition precedes (a b : bytes) : Prop :=
  exists p, (exists y r, a = p /\ b = p ++ y :: r) \/
            (exists x y r r', a = p ++ x :: r /\ b = p ++ y :: r' /\ x < y).

Section Described.
Variable parse_url : bytes -> option bytes.
Variable parse_authority : bytes -> option bytes.
Variable to_duration : pb_duration -> option N.

(** The identity, and the name to ask for, that a message means *)
Definition identifies (pb : pb_tls) (t : client_tls) : Prop :=
  t_alpn t = None /\
  ((exists s, p_strategy pb = Some (Dns_like s) /\ dns_name s /\ (forall r, s <> r ++ [dot]) /\ t_id t = Dns (lowers s)) \/
   (exists s u, p_strategy pb = Some (Uri_like s) /\ parse_url s = Some u /\ t_id t = Uri u)) /\
  ((exists s, p_server_name pb = Some s /\ dns_name s /\ t_name t = lowers s) \/
   (p_server_name pb = None /\ t_id t = Dns (t_name t))).

(** The parameters of HTTP/2 that a message means *)
Definition h2_described (pb : option pb_http2) (h : h2_params) : Prop :=
  let flow f := exists p, pb = Some p /\ p_flow p = Some f in
  let keep k := exists p, pb = Some p /\ p_keep_alive p = Some k in
  let internal (field : pb_internals -> N) n := 0 < n /\ exists p i, pb = Some p /\ p_internals p = Some i /\ field i = n in
  (h_flow h = Some Adaptive <-> exists f, flow f /\ p_adaptive f = true) /\
  (forall s c, h_flow h = Some (Fixed s c) <->
     exists f, flow f /\ p_adaptive f = false /\ p_stream_window f = s /\ p_connection_window f = c /\ 0 < s /\ 0 < c) /\
  (forall i t w, h_keep_alive h = Some (KeepAlive i t w) <->
     exists k di dt, keep k /\ p_interval k = Some di /\ to_duration di = Some i /\
       p_timeout k = Some dt /\ to_duration dt = Some t /\ p_while_idle k = w) /\
  (forall n, h_reset_streams h = Some n <-> internal p_reset_streams n) /\
  (forall n, h_frame_size h = Some n <-> internal p_frame_size n) /\
  (forall n, h_send_buf_size h = Some n <-> internal p_send_buf_size n).

(** The metadata a message means *)
Record described (set_labels : list (bytes * bytes)) (w : weighted_addr) (m : metadata) : Prop := {
  (* The labels are in order; those of the endpoint take precedence over those of its set. *)
  d_sorted : StronglySorted precedes (map fst (m_labels m));
  d_labels : forall k v, In (k, v) (m_labels m) <->
    In (k, v) (w_labels w) \/ (In (k, v) set_labels /\ ~ In k (map fst (w_labels w)));
  d_weight : m_weight m = w_weight w;
  d_h2 : m_hint m = Http2 <-> exists h, w_hint w = Some h /\ p_protocol h = Some Pb_h2;
  d_opaque : m_hint m = Opaque <-> exists h, w_hint w = Some h /\ p_protocol h = Some Pb_opaque;
  d_port : forall p, m_port m = Some p <->
    (exists h, w_hint w = Some h /\ p_opaque_transport h = Some p) /\ 0 < p < 65535;
  d_tls : forall t, m_tls m = Some t <-> exists pb, w_tls w = Some pb /\ identifies pb t;
  d_authority : forall a, m_authority m = Some a <-> exists s, w_authority w = Some s /\ parse_authority s = Some a;
  d_http2 : h2_described (w_http2 w) (m_http2 m);
  d_local : m_zone_local m = Some true <->
    exists v, In (bs "zone_locality"%string, v) (w_labels w) /\ lowers v = bs "local"%string;
  d_remote : m_zone_local m = Some false <->
    exists v, In (bs "zone_locality"%string, v) (w_labels w) /\ lowers v = bs "remote"%string }.

(** [w] is at [a]. *)
Definition at_ (w : weighted_addr) (a : sock) : Prop := exists t, w_addr w = Some t /\ located t a.

(** A message says something about what is at [a]. *)
Definition mentions (u : option pb_update) (a : sock) : Prop :=
  match u with
  | Some (Pb_add addrs _) => exists w, In w addrs /\ at_ w a
  | Some (Pb_remove addrs) => exists t, In t addrs /\ located t a
  | Some (Pb_no_endpoints _) => True
  | None => False
  end.
(** The last of the messages [h] that says something about [a] says that there is an endpoint
    described by [m]. *)
Definition announced (h : list (option pb_update)) (a : sock) (m : metadata) : Prop :=
  exists before addrs labels after,
    h = before ++ Some (Pb_add addrs labels) :: after /\
    (forall u, In u after -> ~ mentions u a) /\
    exists pre w post, addrs = pre ++ w :: post /\ at_ w a /\ (forall x, In x post -> ~ at_ x a) /\
      described labels w m.

(** The messages are as the types of the API make them: integers fit, and the keys of a map
    are distinct. *)
Definition labels_ok (l : list (bytes * bytes)) : Prop := NoDup (map fst l).
Definition weighted_ok (w : weighted_addr) : Prop :=
  labels_ok (w_labels w) /\ match w_addr w with Some t => tcp_ok t | None => True end.
Definition update_ok (u : option pb_update) : Prop :=
  match u with
  | Some (Pb_add addrs labels) => labels_ok labels /\ Forall weighted_ok addrs
  | Some (Pb_remove addrs) => Forall tcp_ok addrs
  | _ => True
  end.
End Described.

(** What updates mean (proxy/core/src/resolve.rs:30-36): what is known at every address *)
Definition sock_eqb (a b : sock) : bool := beq (s_ip a) (s_ip b) && (s_port a =? s_port b).
Definition view := sock -> option metadata.
Definition put (v : view) (e : sock * metadata) : view := fun a => if sock_eqb a (fst e) then Some (snd e) else v a.
Definition drop (v : view) (x : sock) : view := fun a => if sock_eqb a x then None else v a.
Definition nothing : view := fun _ => None.
Definition apply (v : view) (u : update) : view :=
  match u with
  | Reset eps => fold_left put eps nothing
  | Add eps => fold_left put eps v
  | Remove addrs => fold_left drop addrs v
  | Does_not_exist => nothing
  end.
Definition known (l : list update) : view := fold_left apply l nothing.
