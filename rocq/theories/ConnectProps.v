(** C57: how endpoints are connected to; C58: requests that require an identity; C59: who is
    served on the proxy's own port *)
From Coq Require Import String List NArith.
From Verif Require Import Bytes NameModel NameSpec IoModel IoSpec TransportModel TransportSpec FilterModel
  EndpointModel EndpointSpec ConnectModel ConnectSpec ConnectProofs.
Import ListNotations.
Open Scope N_scope.

(** ** C57 *)

(** A connection goes without TLS exactly to endpoints of this host and to those without an
    identity. *)
Theorem C57_plaintext :
  forall host port_u16 e p r,
    a_tls (tagged_transport host port_u16 e p) = inr r <->
    (e_local e = true /\ r = Loopback) \/ (e_local e = false /\ m_tls (e_meta e) = None /\ r = Not_provided).
Proof. exact plaintext. Qed.
Print Assumptions C57_plaintext.

(** It then goes to the endpoint's own address, and nothing is written before the data. *)
Theorem C57_plaintext_direct :
  forall host port_u16 e p r,
    a_tls (tagged_transport host port_u16 e p) = inr r ->
    a_addr (tagged_transport host port_u16 e p) = e_addr e /\
    forall np, a_header (tagged_transport host port_u16 e p) np = None.
Proof. exact plaintext_direct. Qed.
Print Assumptions C57_plaintext_direct.

(** With TLS, the identity that is required of the peer and the name it is asked for are those
    discovered; the header is negotiated when there is something to say. *)
Theorem C57_tls :
  forall host port_u16 e p t,
    a_tls (tagged_transport host port_u16 e p) = inl t <->
    e_local e = false /\ exists t0, m_tls (e_meta e) = Some t0 /\ t_id t = t_id t0 /\ t_name t = t_name t0 /\
      ((needs_header (e_meta e) /\ t_alpn t = Some [header_protocol]) \/ (~ needs_header (e_meta e) /\ t_alpn t = None)).
Proof. exact with_tls. Qed.
Print Assumptions C57_tls.

(** The host that is connected to is always the endpoint's; the port is another one only with
    TLS. *)
Theorem C57_address :
  forall host port_u16 e p,
    s_ip (a_addr (tagged_transport host port_u16 e p)) = s_ip (e_addr e) /\
    forall n, s_port (a_addr (tagged_transport host port_u16 e p)) = n <->
      (exists t, a_tls (tagged_transport host port_u16 e p) = inl t) /\ m_port (e_meta e) = Some n \/
      ((forall t, a_tls (tagged_transport host port_u16 e p) <> inl t) \/ m_port (e_meta e) = None) /\ s_port (e_addr e) = n.
Proof. exact tagged_addr. Qed.
Print Assumptions C57_address.

(** A header is written exactly when it was negotiated, and says where the connection is to
    go. *)
Theorem C57_header :
  forall host port_u16 e p np h,
    a_header (tagged_transport host port_u16 e p) np = Some h <->
    (exists t, a_tls (tagged_transport host port_u16 e p) = inl t) /\ np = Some header_protocol /\ h_protocol h = p /\
    header_for host port_u16 (e_addr e) (e_meta e) h.
Proof. exact tagged_header. Qed.
Print Assumptions C57_header.

(** An endpoint that is to be reached through a gateway may be named to it as the gateway
    itself: when its authority has no port. *)
Theorem C57_gateway_refuted :
  exists e host h, m_authority (e_meta e) = Some (bs "web.ns.svc.cluster.local") /\
    a_header (tagged_transport host (fun _ => None) e None) (Some header_protocol) = Some h /\
    h_name h = None /\ h_port h = s_port (e_addr e).
Proof.
  exists (Endpoint (Sock [10; 0; 0; 1] 4143) false
    (Metadata [] 1 Unknown None (Some (ClientTls (Dns (bs "gw")) (bs "gw") None)) (Some (bs "web.ns.svc.cluster.local")) (H2Params None None None None None) None)).
  exists (fun a => a). eexists. vm_compute. repeat split; reflexivity.
Qed.
Print Assumptions C57_gateway_refuted.

(** After any history of discovery messages: an endpoint of another host that was last
    announced with an identity is connected to with TLS only, and as that identity only. *)
Theorem C57_discovered :
  forall host port_u16 parse_url parse_authority to_duration h a m labels w pb t ips p,
    Forall update_ok h ->
    known (updates parse_url parse_authority to_duration h) a = Some m ->
    announces h a labels w -> w_tls w = Some pb -> identifies parse_url pb t -> ~ In (s_ip a) ips ->
    exists t', a_tls (tagged_transport host port_u16 (new_endpoint ips a m) p) = inl t' /\ t_id t' = t_id t /\ t_name t' = t_name t.
Proof. exact discovered. Qed.
Print Assumptions C57_discovered.

(** Requests are upgraded to HTTP/2 exactly on hint, and never for endpoints of this host. *)
Theorem C57_client :
  forall v e,
    (client_params v e = Client_h2 <-> v = V2) /\
    (client_params v e = Client_upgrade <-> v = V1 /\ e_local e = false /\ m_hint (e_meta e) = EndpointModel.Http2).
Proof. exact client_spec. Qed.
Print Assumptions C57_client.

Theorem C57_session :
  forall v e,
    (session_protocol v e = None <-> m_hint (e_meta e) = Opaque) /\
    (m_hint (e_meta e) <> Opaque -> (session_protocol v e = Some TransportModel.Http2 <-> v = V2)).
Proof. exact session_spec. Qed.
Print Assumptions C57_session.

(** A connection of an unknown protocol, or of TLS, that is forwarded to one address never goes without TLS when the
    address has an identity, although it be one of this host's own; among the endpoints of a balancer it would. *)
Theorem C57_forward :
  forall host port_u16 (ips : list (list N)) addr meta p t0, m_tls meta = Some t0 ->
    (exists t, a_tls (tagged_transport host port_u16 (new_forward addr meta) p) = inl t /\ t_id t = t_id t0 /\ t_name t = t_name t0) /\
    (In (s_ip addr) ips <-> a_tls (tagged_transport host port_u16 (new_endpoint ips addr meta) p) = inr Loopback).
Proof. exact forward_tls. Qed.
Print Assumptions C57_forward.

Definition demo_meta : metadata :=
  Metadata [] 1 EndpointModel.Http2 (Some 4143) (Some (ClientTls (Dns (bs "web.sa")) (bs "web.sa") None)) None (H2Params None None None None None) None.
Definition demo_attempt := tagged_transport (fun a => a) (fun _ => None)
  (new_endpoint [[10; 0; 0; 9]] (Sock [10; 0; 0; 1] 80) demo_meta) (Some TransportModel.Http2).
Example C57_demo :
  a_tls demo_attempt = inl (ClientTls (Dns (bs "web.sa")) (bs "web.sa") (Some [header_protocol])) /\
  a_addr demo_attempt = Sock [10; 0; 0; 1] 4143 /\
  a_header demo_attempt (Some header_protocol) = Some (Header 80 None (Some TransportModel.Http2)) /\
  a_header demo_attempt None = None /\
  a_tls (tagged_transport (fun a => a) (fun _ => None) (new_endpoint [[10; 0; 0; 1]] (Sock [10; 0; 0; 1] 80) demo_meta) None) = inr Loopback.
Proof. vm_compute. repeat split. Qed.

Definition demo_w : weighted_addr :=
  WeightedAddr (Some (PbTcp (Some (Some (Ipv4 167772161))) 80)) 1 [] (Some (PbTls (Some (Dns_like (bs "Web.sa"))) None)) None None None.
Example C57_demo_discovered :
  Forall update_ok [Some (Pb_add [demo_w] [])] /\
  announces [Some (Pb_add [demo_w] [])] (Sock [10; 0; 0; 1] 80) [] demo_w /\
  identifies Some (PbTls (Some (Dns_like (bs "Web.sa"))) None) (ClientTls (Dns (bs "web.sa")) (bs "web.sa") None) /\
  exists m, known (updates Some Some (fun _ => None) [Some (Pb_add [demo_w] [])]) (Sock [10; 0; 0; 1] 80) = Some m.
Proof.
  split; [repeat constructor|]. split; [|split; [|eexists; vm_compute; reflexivity]].
  - exists [], [demo_w], []. split; [reflexivity|]. split; [intros u []|]. exists [], []. split; [reflexivity|]. split; [|intros x []].
    eexists. split; [reflexivity|]. split; [reflexivity|]. left. eexists. split; [reflexivity|]. split; [reflexivity|]. split; [|reflexivity].
    repeat constructor.
  - assert (EndpointModel.parse_dns_id (bs "Web.sa") = Some (Dns (bs "web.sa"))) as E by (vm_compute; reflexivity).
    apply EndpointProofs.parse_dns_id_iff in E as (V & Nd & _).
    split; [reflexivity|]. split; [|right; split; reflexivity]. left. eexists. split; [reflexivity|]. split; [exact V|split; [exact Nd|reflexivity]].
Qed.

(** ** C58 *)

(** A request that requires an identity is forwarded exactly to an endpoint that is
    connected to as that identity. *)
Theorem C58_enforced :
  forall parse_url tls hs v i, first_value hs v -> text v -> means parse_url v i ->
    ((exists hs', require_identity parse_url tls hs = Forwarded hs') <-> exists t, tls = inl t /\ t_id t = i).
Proof. exact require_enforced. Qed.
Print Assumptions C58_enforced.

(** A request is refused only if it requires an identity that the endpoint does not have; the
    error tells both. *)
Theorem C58_refused :
  forall parse_url tls hs i found,
    require_identity parse_url tls hs = Identity_required i found ->
    (exists v, first_value hs v /\ text v /\ means parse_url v i) /\
    match found with
    | Some f => f <> i /\ exists t, tls = inl t /\ t_id t = f
    | None => exists r, tls = inr r
    end.
Proof. exact require_refused. Qed.
Print Assumptions C58_refused.

(** The header is never forwarded; the others are, as they are. *)
Theorem C58_stripped :
  forall parse_url tls hs hs', require_identity parse_url tls hs = Forwarded hs' ->
    hs' = filter (fun h => negb (beq (fst h) require_id)) hs.
Proof. exact require_stripped. Qed.
Print Assumptions C58_stripped.

Theorem C58_absent :
  forall parse_url tls hs, ~ In require_id (map fst hs) -> require_identity parse_url tls hs = Forwarded hs.
Proof. exact require_absent. Qed.
Print Assumptions C58_absent.

(** A request whose requirement cannot be read is forwarded to anyone, in plaintext even. *)
Theorem C58_invalid_refuted :
  forall parse_url, parse_url (bs "web.sa.") = None ->
    require_identity parse_url (inr Not_provided) [(require_id, bs "web.sa.")] = Forwarded [].
Proof. intros f H. unfold require_identity, extract_id, id_from_str, parse_uri_id. change (TraceModel.hm_get [(require_id, bs "web.sa.")] HEADER_NAME) with (Some (bs "web.sa.")). cbv beta iota. change (TraceModel.to_str (bs "web.sa.")) with (Some (bs "web.sa.")). cbv beta iota. change (parse_dns_id (bs "web.sa.")) with (@None id). cbv beta iota. rewrite H. reflexivity. Qed.
Print Assumptions C58_invalid_refuted.

(** Of several requirements only the first counts. *)
Theorem C58_second_refuted :
  exists t, t_id t <> Dns (bs "b.sa") /\
    require_identity Some (inl t) [(require_id, bs "a.sa"); (require_id, bs "b.sa")] = Forwarded [].
Proof. exists (ClientTls (Dns (bs "a.sa")) (bs "a.sa") None). split; [discriminate|reflexivity]. Qed.
Print Assumptions C58_second_refuted.

Example C58_demo :
  require_identity Some (inl (ClientTls (Dns (bs "a.sa")) (bs "a.sa") None)) [(bs "x", bs "y"); (require_id, bs "A.sa")] = Forwarded [(bs "x", bs "y")] /\
  require_identity Some (inl (ClientTls (Dns (bs "b.sa")) (bs "b.sa") None)) [(require_id, bs "a.sa")] = Identity_required (Dns (bs "a.sa")) (Some (Dns (bs "b.sa"))) /\
  require_identity Some (inr Not_provided) [(require_id, bs "spiffe://a/b")] = Identity_required (Uri (bs "spiffe://a/b")) None /\
  first_value [(bs "x", bs "y"); (require_id, bs "A.sa")] (bs "A.sa") /\ text (bs "A.sa") /\ means Some (bs "A.sa") (Dns (bs "a.sa")).
Proof.
  split; [reflexivity|]. split; [reflexivity|]. split; [reflexivity|]. split; [exists [(bs "x", bs "y")], []; split; [reflexivity|cbn; intuition discriminate]|].
  split; [apply (proj1 (to_str_text (fun _ => None) (bs "A.sa") (bs "A.sa"))); reflexivity|].
  apply id_from_str_iff. reflexivity.
Qed.

(** ** C59 *)

(** A connection to the proxy's own port is served exactly when the client proved an identity
    and the header was negotiated. *)
Theorem C59_served :
  forall tls remote local h,
    is_served (direct tls remote local h) <->
    exists c, tls = Some (Established (Some c) (Some header_protocol)).
Proof. exact direct_served. Qed.
Print Assumptions C59_served.

(** It is served as that client. Without a name it goes to the port the header says, on this
    host, under that port's own policy; with a name it goes through the gateway, under the policy of
    the port it came to. *)
Theorem C59_policy :
  forall tls remote local h, is_served (direct tls remote local h) ->
    (exists c, tls = Some (Established (Some c) (Some header_protocol)) /\ served_as (direct tls remote local h) c) /\
    match h_name h with
    | None => let a := Sock (s_ip local) (h_port h) in goes_to (direct tls remote local h) a /\ checked (direct tls remote local h) a
    | Some n => (exists c, direct tls remote local h = Gateway n (h_port h) c (h_protocol h) local) /\ checked (direct tls remote local h) local
    end.
Proof. exact direct_policy. Qed.
Print Assumptions C59_policy.

(** From one proxy to the other, however the stream is cut: what the outbound proxy writes
    when it connects to an endpoint makes the inbound proxy there take the connection to that
    endpoint's port and check its policy, and leaves the data as they are. *)
Theorem C59_end_to_end :
  forall host port_u16 utf8 e p hdr payload i sizes c remote,
    utf8_accepts_ascii utf8 ->
    a_header (tagged_transport host port_u16 e p) (Some header_protocol) = Some hdr ->
    1 <= h_port hdr <= 65535 ->
    contents i = (encode_prefaced hdr ++ payload)%list -> (List.length (contents i) < List.length sizes)%nat ->
    let local := a_addr (tagged_transport host port_u16 e p) in
    exists h i', serve utf8 i sizes = Next h i' /\ contents i' = payload /\
      let s := direct (Some (Established (Some c) (Some header_protocol))) remote local h in
      served_as s c /\
      match m_authority (e_meta e) with
      | None => goes_to s (e_addr e) /\ checked s (e_addr e)
      | Some au =>
          forall q, port_u16 au = Some q -> dns_name (host au) ->
          (exists c', s = Gateway (lowers (host au)) q c' p local) /\ checked s local
      end.
Proof. exact end_to_end. Qed.
Print Assumptions C59_end_to_end.

Example C59_demo :
  direct (Some (Established (Some (Dns (bs "a.sa"))) (Some header_protocol))) (Sock [10; 0; 0; 2] 1234) (a_addr demo_attempt)
    (Header 80 None (Some TransportModel.Http2)) =
  Local_http (Sock [10; 0; 0; 1] 80) (Dns (bs "a.sa")) TransportModel.Http2 (Sock [10; 0; 0; 1] 80) /\
  direct (Some (Established (Some (Dns (bs "a.sa"))) (Some (bs "h2")))) (Sock [10; 0; 0; 2] 1234) (a_addr demo_attempt)
    (Header 80 None None) = Transport_header_required /\
  direct (Some (Established None (Some header_protocol))) (Sock [10; 0; 0; 2] 1234) (a_addr demo_attempt)
    (Header 80 None None) = Refused_no_identity.
Proof. vm_compute. repeat split. Qed.
