(** Model of linkerd/proxy/api-resolve: how the endpoints that the control plane sends become
    the addresses and the metadata the proxy uses.

    Simplifications: the `HashMap`s of a message are lists of pairs whose keys differ, in the
    order of their iteration; what other crates parse is a parameter: a URI
    (`url::Url::parse`, giving its text), an authority (`http::uri::Authority`, giving its
    text) and a duration (`std::time::Duration::try_from`, giving nanoseconds). *)
From Coq Require Import List NArith ZArith Bool.
From Verif Require Import Bytes NameModel.
Import ListNotations.
Open Scope N_scope.

(** ** The messages (linkerd2-proxy-api; only the fields that are read) *)

(** The structure is given in pb.rs:114-128. *)
Inductive pb_ip := Ipv4 (octets : N) | Ipv6 (first last : N).
(** pb.rs:114-128 *)
Record pb_tcp := PbTcp { p_ip : option (option pb_ip); p_port : N }.
(** pb.rs:74-81 *)
Inductive pb_strategy := Dns_like (name : bytes) | Uri_like (uri : bytes).
(** pb.rs:72-84 *)
Record pb_tls := PbTls { p_strategy : option pb_strategy; p_server_name : option bytes }.
(** pb.rs:40-44 *)
Inductive pb_protocol := Pb_h2 | Pb_opaque.
(** pb.rs:39-51; the number is the `inbound_port` *)
Record pb_hint := PbHint { p_protocol : option pb_protocol; p_opaque_transport : option N }.
(** pb.rs:167-185 *)
Record pb_flow := PbFlow { p_adaptive : bool; p_connection_window : N; p_stream_window : N }.
(** A duration of a message: seconds and nanoseconds *)
Definition pb_duration := (Z * Z)%type.
(** pb.rs:186-194 *)
Record pb_keep_alive := PbKeepAlive {
  p_interval : option pb_duration; p_timeout : option pb_duration; p_while_idle : bool }.
(** pb.rs:195-209 *)
Record pb_internals := PbInternals {
  p_reset_streams : N; p_frame_size : N; p_send_buf_size : N }.
(** pb.rs:163-211 *)
Record pb_http2 := PbHttp2 {
  p_flow : option pb_flow; p_keep_alive : option pb_keep_alive; p_internals : option pb_internals }.
(** pb.rs:410-422 lists the fields. *)
Record weighted_addr := WeightedAddr {
  w_addr : option pb_tcp; w_weight : N; w_labels : list (bytes * bytes);
  w_tls : option pb_tls; w_hint : option pb_hint; w_authority : option bytes;
  w_http2 : option pb_http2 }.
(** resolve.rs:87-121 *)
Inductive pb_update :=
| Pb_add (addrs : list weighted_addr) (labels : list (bytes * bytes))
| Pb_remove (addrs : list pb_tcp)
| Pb_no_endpoints (exists_ : bool).

(** ** What they become *)

(** `std::net::SocketAddr`: the octets of the address, and the port *)
Record sock := Sock { s_ip : list N; s_port : N }.
(** identity/src/lib.rs:24-27 *)
Inductive id := Dns (name : bytes) | Uri (uri : bytes).
(** tls/src/client.rs:22-26 *)
Record client_tls := ClientTls { t_id : id; t_name : bytes; t_alpn : option (list bytes) }.
(** metadata.rs:34-43 *)
Inductive hint := Unknown | Http2 | Opaque.
(** http/h2/src/lib.rs:41-47 *)
Inductive flow_control := Adaptive | Fixed (stream connection : N).
(** http/h2/src/lib.rs:34-38 *)
Record keep_alive := KeepAlive { k_interval : N; k_timeout : N; k_while_idle : bool }.
(** http/h2/src/lib.rs:17-25 *)
Record h2_params := H2Params {
  h_flow : option flow_control; h_keep_alive : option keep_alive; h_reset_streams : option N;
  h_frame_size : option N; h_send_buf_size : option N }.
(** metadata.rs:11-31 *)
Record metadata := Metadata {
  m_labels : list (bytes * bytes); m_weight : N; m_hint : hint; m_port : option N;
  m_tls : option client_tls; m_authority : option bytes; m_http2 : h2_params;
  m_zone_local : option bool }.
(** proxy/core/src/resolve.rs:30-36 *)
Inductive update :=
| Reset (eps : list (sock * metadata)) | Add (eps : list (sock * metadata))
| Remove (addrs : list sock) | Does_not_exist.

(** `Ord for String`: bytewise *)
Fixpoint cmp (a b : bytes) : comparison :=
  match a, b with
  | [], [] => Eq
  | [], _ :: _ => Lt
  | _ :: _, [] => Gt
  | x :: a', y :: b' => match x ?= y with Eq => cmp a' b' | c => c end
  end.
(** `BTreeMap::insert`, the map being the list of its entries in order *)
Fixpoint bt_insert (k v : bytes) (m : list (bytes * bytes)) : list (bytes * bytes) :=
  match m with
  | [] => [(k, v)]
  | (k', v') :: m' =>
      match cmp k k' with
      | Lt => (k, v) :: m
      | Eq => (k, v) :: m'
      | Gt => (k', v') :: bt_insert k v m'
      end
  end.
(** `collect::<BTreeMap<_, _>>()` *)
Definition bt_collect (l : list (bytes * bytes)) : list (bytes * bytes) :=
  fold_left (fun m kv => bt_insert (fst kv) (snd kv) m) l [].
(** `HashMap::get` *)
Fixpoint assoc (k : bytes) (m : list (bytes * bytes)) : option bytes :=
  match m with
  | [] => None
  | (k', v) :: m' => if beq k k' then Some v else assoc k m'
  end.

(** `(n >> bits) as u8` *)
Definition octet (n bits : N) : N := (N.shiftr n bits) mod 256.
(** `Ipv4Addr::from(u32)`: its octets, most significant first *)
Definition octets4 (n : N) : list N := [octet n 24; octet n 16; octet n 8; octet n 0].
(** pb.rs:136-153, for one of the two halves *)
Definition octets8 (n : N) : list N :=
  [octet n 56; octet n 48; octet n 40; octet n 32; octet n 24; octet n 16; octet n 8; octet n 0].

(** pb.rs:111-161; `as u16` keeps the low bits *)
Definition to_sock_addr (pb : pb_tcp) : option sock :=
  match p_ip pb with
  | Some (Some (Ipv4 n)) => Some (Sock (octets4 n) (p_port pb mod 65536))
  | Some (Some (Ipv6 first last)) => Some (Sock (octets8 first ++ octets8 last) (p_port pb mod 65536))
  | Some None => None
  | None => None
  end.

(** `Iterator::filter_map` *)
Fixpoint filter_map {A B} (f : A -> option B) (l : list A) : list B :=
  match l with
  | [] => []
  | x :: l' => match f x with Some y => y :: filter_map f l' | None => filter_map f l' end
  end.

(** `Option::filter(|n| *n > 0)` *)
Definition positive (o : option N) : option N :=
  match o with Some n => if 0 <? n then Some n else None | None => None end.

(** identity/src/lib.rs:46-56 *)
Definition parse_dns_id (s : bytes) : option id :=
  match name_from_str s with
  | Some n => if ends_with [46] n then None else Some (Dns n)
  | None => None
  end.

(** "zone_locality", "local" and "remote", pb.rs:27-30 *)
Definition ZONE_LOCALITY : bytes := [122; 111; 110; 101; 95; 108; 111; 99; 97; 108; 105; 116; 121].
(** pb.rs:28 *)
Definition LOCAL : bytes := [108; 111; 99; 97; 108].
(** pb.rs:30 *)
Definition REMOTE : bytes := [114; 101; 109; 111; 116; 101].

Section Conversions.
Variable parse_url : bytes -> option bytes.
Variable parse_authority : bytes -> option bytes.
Variable to_duration : pb_duration -> option N.

(** identity/src/lib.rs:58-62 *)
Definition parse_uri_id (s : bytes) : option id :=
  match parse_url s with Some u => Some (Uri u) | None => None end.

(** pb.rs:69-96 *)
Definition to_identity (pb : pb_tls) : option client_tls :=
  match (match p_strategy pb with
         | Some (Dns_like name) => parse_dns_id name
         | Some (Uri_like uri) => parse_uri_id uri
         | None => None
         end) with
  | None => None
  | Some server_id =>
      match (match p_server_name pb, server_id with
             | Some name, _ => name_from_str name
             | None, Dns dns => Some dns
             | None, Uri _ => None
             end) with
      | None => None
      | Some server_name => Some (ClientTls server_id server_name None)
      end
  end.

(** pb.rs:163-211.  `Fixed` takes the windows by name. *)
Definition to_http2_client_params (pb : pb_http2) : h2_params :=
  H2Params
    (match p_flow pb with
     | Some f =>
         if p_adaptive f then Some Adaptive
         else if 0 <? p_connection_window f then
           if 0 <? p_stream_window f then Some (Fixed (p_stream_window f) (p_connection_window f)) else None
         else None
     | None => None
     end)
    (match p_keep_alive pb with
     | Some k =>
         match (match p_interval k with Some d => to_duration d | None => None end) with
         | None => None
         | Some interval =>
             match (match p_timeout k with Some d => to_duration d | None => None end) with
             | None => None
             | Some timeout => Some (KeepAlive interval timeout (p_while_idle k))
             end
         end
     | None => None
     end)
    (positive (option_map p_reset_streams (p_internals pb)))
    (positive (option_map p_frame_size (p_internals pb)))
    (positive (option_map p_send_buf_size (p_internals pb))).

(** http/h2/src/lib.rs:16, `Default` *)
Definition h2_default : h2_params := H2Params None None None None None.

(** pb.rs:15-67 and metadata.rs:64-84 *)
Definition to_addr_meta (pb : weighted_addr) (set_labels : list (bytes * bytes)) : option (sock * metadata) :=
  let authority_override := match w_authority pb with Some a => parse_authority a | None => None end in
  match (match w_addr pb with Some a => to_sock_addr a | None => None end) with
  | None => None
  | Some addr =>
      let labels := set_labels ++ w_labels pb in
      let zone_locality :=
        match assoc ZONE_LOCALITY (w_labels pb) with
        | Some locality =>
            if eq_ignore_case locality LOCAL then Some true
            else if eq_ignore_case locality REMOTE then Some false
            else None
        | None => None
        end in
      let proto_hint :=
        match w_hint pb with
        | Some h => match p_protocol h with Some Pb_h2 => Http2 | Some Pb_opaque => Opaque | None => Unknown end
        | None => Unknown
        end in
      let tagged_transport_port :=
        match w_hint pb with
        | Some h =>
            match p_opaque_transport h with
            | Some inbound_port => if (0 <? inbound_port) && (inbound_port <? 65535) then Some inbound_port else None
            | None => None
            end
        | None => None
        end in
      let tls_id := match w_tls pb with Some t => to_identity t | None => None end in
      let http2 := match w_http2 pb with Some h => to_http2_client_params h | None => h2_default end in
      Some (addr, Metadata (bt_collect labels) (w_weight pb) proto_hint tagged_transport_port tls_id
                           authority_override http2 zone_locality)
  end.

(** resolve.rs:86-124.  The argument is the field `update` of the message. *)
Definition mk_update (up : option pb_update) : option update :=
  match up with
  | None => None
  | Some (Pb_add addrs metric_labels) =>
      match filter_map (fun addr => to_addr_meta addr metric_labels) addrs with
      | [] => None
      | addr_metas => Some (Add addr_metas)
      end
  | Some (Pb_remove addrs) =>
      match filter_map to_sock_addr addrs with
      | [] => None
      | sock_addrs => Some (Remove sock_addrs)
      end
  | Some (Pb_no_endpoints exists_) => Some (if exists_ then Reset [] else Does_not_exist)
  end.

(** resolve.rs:78-81, `try_filter_map`: what a stream of messages becomes *)
Definition updates (ups : list (option pb_update)) : list update := filter_map mk_update ups.
End Conversions.

(** http/h2/src/lib.rs:52-62 *)
Definition override_from (self overrides : h2_params) : h2_params :=
  let or {A} (a b : option A) := match a with Some x => Some x | None => b end in
  H2Params (or (h_flow overrides) (h_flow self)) (or (h_keep_alive overrides) (h_keep_alive self))
    (or (h_reset_streams overrides) (h_reset_streams self)) (or (h_frame_size overrides) (h_frame_size self))
    (or (h_send_buf_size overrides) (h_send_buf_size self)).
