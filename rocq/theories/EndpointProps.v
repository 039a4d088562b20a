(** C56: the endpoints in use are those that discovery announced *)
From Coq Require Import String List NArith ZArith Permutation.
From Verif Require Import Bytes NameModel NameSpec EndpointModel EndpointSpec EndpointProofs.
Import ListNotations.
Open Scope N_scope.

(** For every history of messages: an endpoint is known at an address, with some metadata,
    exactly when the last message about that address announced it so. *)
Theorem C56_history :
  forall parse_url parse_authority to_duration h a m, Forall update_ok h ->
    (known (updates parse_url parse_authority to_duration h) a = Some m <->
     announced parse_url parse_authority to_duration h a m).
Proof. exact history. Qed.
Print Assumptions C56_history.

Theorem C56_address :
  forall t a, tcp_ok t -> (to_sock_addr t = Some a <-> located t a).
Proof. exact to_sock_addr_iff. Qed.
Print Assumptions C56_address.

(** Different addresses stay different, so that a removal removes what was added. *)
Theorem C56_distinct :
  forall t t' a, tcp_ok t -> tcp_ok t' -> p_port t < 2 ^ 16 -> p_port t' < 2 ^ 16 ->
    to_sock_addr t = Some a -> to_sock_addr t' = Some a -> t = t'.
Proof. exact address_inj. Qed.
Print Assumptions C56_distinct.

(** A port that is not one is taken modulo 2^16, instead of being refused. *)
Theorem C56_port_refuted :
  exists t a, tcp_ok t /\ p_port t < 2 ^ 32 /\ to_sock_addr t = Some a /\ s_port a <> p_port t.
Proof. exists (PbTcp (Some (Some (Ipv4 167772161))) 65616). eexists. vm_compute. repeat split; discriminate. Qed.
Print Assumptions C56_port_refuted.

(** The metadata is what the message describes, and nothing else is. *)
Theorem C56_metadata :
  forall parse_url parse_authority to_duration w labels a m, weighted_ok w -> labels_ok labels ->
    (to_addr_meta parse_url parse_authority to_duration w labels = Some (a, m) <->
     at_ w a /\ described parse_url parse_authority to_duration labels w m).
Proof. exact to_addr_meta_iff. Qed.
Print Assumptions C56_metadata.

(** It does not depend on the order in which a map is traversed. *)
Theorem C56_order :
  forall parse_url parse_authority to_duration w labels w' labels' a m,
    weighted_ok w -> labels_ok labels ->
    w' = WeightedAddr (w_addr w) (w_weight w) (w_labels w') (w_tls w) (w_hint w) (w_authority w) (w_http2 w) ->
    Permutation (w_labels w) (w_labels w') -> Permutation labels labels' ->
    to_addr_meta parse_url parse_authority to_duration w labels = Some (a, m) ->
    to_addr_meta parse_url parse_authority to_duration w' labels' = Some (a, m).
Proof. exact order. Qed.
Print Assumptions C56_order.

(** An endpoint that the control plane gives an identity may be used without: for example
    when the identity is a URI and no name is given. *)
Theorem C56_identity_refuted :
  exists w pb a m, w_tls w = Some pb /\ p_strategy pb <> None /\ weighted_ok w /\
    to_addr_meta Some Some (fun _ => None) w [] = Some (a, m) /\ m_tls m = None.
Proof.
  exists (WeightedAddr (Some (PbTcp (Some (Some (Ipv4 167772161))) 80)) 1 []
            (Some (PbTls (Some (Uri_like (bs "spiffe://root/x"))) None)) None None None).
  do 3 eexists. split; [reflexivity|]. split; [discriminate|]. split; [|split; [vm_compute; reflexivity|reflexivity]].
  split; [constructor|reflexivity].
Qed.
Print Assumptions C56_identity_refuted.

(** Neither an empty addition nor an empty removal is passed on. *)
Theorem C56_no_empty :
  forall parse_url parse_authority to_duration h,
    Forall (fun u => u <> Add [] /\ u <> Remove []) (updates parse_url parse_authority to_duration h).
Proof. exact no_empty. Qed.
Print Assumptions C56_no_empty.

(** The parameters of HTTP/2: what discovery says, or else what is configured *)
Theorem C56_h2_override :
  forall base over, let h := override_from base over in
    (forall x, h_flow h = Some x <-> h_flow over = Some x \/ (h_flow over = None /\ h_flow base = Some x)) /\
    (forall x, h_keep_alive h = Some x <-> h_keep_alive over = Some x \/ (h_keep_alive over = None /\ h_keep_alive base = Some x)) /\
    (forall x, h_reset_streams h = Some x <-> h_reset_streams over = Some x \/ (h_reset_streams over = None /\ h_reset_streams base = Some x)) /\
    (forall x, h_frame_size h = Some x <-> h_frame_size over = Some x \/ (h_frame_size over = None /\ h_frame_size base = Some x)) /\
    (forall x, h_send_buf_size h = Some x <-> h_send_buf_size over = Some x \/ (h_send_buf_size over = None /\ h_send_buf_size base = Some x)).
Proof. exact override_from_ok. Qed.
Print Assumptions C56_h2_override.

Definition demo_addr (n : N) : pb_tcp := PbTcp (Some (Some (Ipv4 n))) 8080.
Definition demo_ep (n : N) : weighted_addr :=
  WeightedAddr (Some (demo_addr n)) 10 [(bs "pod", bs "x"); (bs "zone_locality", bs "Local")]
    (Some (PbTls (Some (Dns_like (bs "X.ns.serviceaccount"))) None))
    (Some (PbHint (Some Pb_h2) (Some 4143))) None
    (Some (PbHttp2 (Some (PbFlow false 65536 32768)) None (Some (PbInternals 0 16384 0)))).
Definition demo_v6 : weighted_addr :=
  WeightedAddr (Some (PbTcp (Some (Some (Ipv6 2306139568115548160 1))) 443)) 1 [] None None (Some (bs "gw:80")) None.
Definition demo : list (option pb_update) :=
  [Some (Pb_add [demo_ep 167772161; demo_v6] [(bs "ns", bs "n"); (bs "pod", bs "old")]);
   None;
   Some (Pb_add [WeightedAddr (Some (PbTcp None 1)) 0 [] None None None None] []);
   Some (Pb_remove [PbTcp (Some (Some (Ipv6 2306139568115548160 1))) 443]);
   Some (Pb_add [demo_ep 167772162] [])].

Example C56_demo :
  Forall update_ok demo /\
  length (updates Some Some (fun _ => None) demo) = 3%nat /\
  known (updates Some Some (fun _ => None) demo) (Sock [10; 0; 0; 1] 8080) =
    Some (Metadata [(bs "ns", bs "n"); (bs "pod", bs "x"); (bs "zone_locality", bs "Local")] 10 Http2 (Some 4143)
            (Some (ClientTls (Dns (bs "x.ns.serviceaccount")) (bs "x.ns.serviceaccount") None)) None
            (H2Params (Some (Fixed 32768 65536)) None None (Some 16384) None) (Some true)) /\
  known (updates Some Some (fun _ => None) demo) (Sock [32; 1; 13; 184; 0; 0; 0; 0; 0; 0; 0; 0; 0; 0; 0; 1] 443) = None /\
  known (updates Some Some (fun _ => None) (firstn 3 demo)) (Sock [32; 1; 13; 184; 0; 0; 0; 0; 0; 0; 0; 0; 0; 0; 0; 1] 443) <> None /\
  known (updates Some Some (fun _ => None) (demo ++ [Some (Pb_no_endpoints true)])) (Sock [10; 0; 0; 1] 8080) = None.
Proof.
  split; [|vm_compute; repeat split; discriminate].
  assert (forall n, n < 2 ^ 32 -> weighted_ok (demo_ep n)) as W.
  { intros n H. split; [|exact H]. repeat constructor; cbn; intuition discriminate. }
  assert (weighted_ok demo_v6) as W6 by (split; [constructor|split; reflexivity]).
  repeat constructor; cbn; try (intuition discriminate); try reflexivity; try (apply W; reflexivity); try apply W6.
Qed.
