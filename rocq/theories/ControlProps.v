(** C147: the clients of the control plane *)
From Coq Require Import String List NArith ZArith Bool.
From Verif Require Import Bytes NameModel NameSpec EndpointModel FilterModel Http1Model Http1Spec DnsModel MtlsModel MtlsSpec ControlModel ControlSpec ControlProofs.
From Verif Require EnvModel GatewaySpec.
Import ListNotations.
Open Scope N_scope.

(** Whatever the environment and DNS say, what is sent to the control plane without TLS stays on this host. *)
Theorem C147_plaintext : forall s6 L e base c answers t p now a, EnvModel.parse_control_addr s6 e base = inl (Some c) ->
  In t (targets c answers) -> connect L t p now = Some (a, Plaintext) -> a = g_addr t /\ loopback (s_ip a).
Proof. exact plaintext_local. Qed.
Print Assumptions C147_plaintext.

(** With TLS, the server has proved that it has the name that the environment gives it. *)
Theorem C147_authenticated : forall s6 L e base c answers t p now a alpn, EnvModel.parse_control_addr s6 e base = inl (Some c) ->
  In t (targets c answers) -> connect L t p now = Some (a, Encrypted alpn) ->
  a = g_addr t /\ exists n, names e base n /\ is_server L p now n.
Proof. exact encrypted_authenticated. Qed.
Print Assumptions C147_authenticated.

(** A control plane that is elsewhere is connected to exactly if it is the server that was named, under whichever of its
    addresses, those of this host too; never without TLS; and it is asked for by that name. *)
Theorem C147_connects : forall s6 L e base c answers t p now, EnvModel.parse_control_addr s6 e base = inl (Some c) ->
  EnvModel.is_loopback (EnvModel.ca_addr c) = false -> In t (targets c answers) ->
  forall n, names e base n ->
  ((exists x, connect L t p now = Some x) <-> is_server L p now n) /\ (forall a, connect L t p now <> Some (a, Plaintext)) /\
  exists x, g_tls t = Some x /\ t_name x = n.
Proof. exact connects_iff. Qed.
Print Assumptions C147_connects.

(** Only the address that was given is connected to, or those that DNS has for the name that was given; [localhost.] is
    never asked of DNS. *)
Theorem C147_addresses : forall c answers t, In t (targets c answers) ->
  match EnvModel.ca_addr c with
  | Socket s => g_addr t = s
  | Name na => In (g_addr t) (concat answers) \/ is_localhost (na_name na) = true /\ g_addr t = Sock [127; 0; 0; 1] (na_port na)
  end.
Proof. exact only_where_told. Qed.
Print Assumptions C147_addresses.

(** Requests keep their path and query, and have the control plane's authority; only a request without a path, which the
    generated clients do not make, would panic. *)
Theorem C147_origin : forall a u, uri_ok u ->
  (~ authority_uri u -> exists u', add_origin a u = Some u' /\ sent_to u a u') /\ (authority_uri u -> add_origin a u = None).
Proof. exact origin_iff. Qed.
Print Assumptions C147_origin.
(** It is the address that was given, without a final dot, and without a port if that is 80. *)
Theorem C147_authority : forall show_ip show_sock a, (forall na, a = Name na -> dns_name (na_name na)) ->
  written show_ip show_sock a (to_http_authority show_ip show_sock a).
Proof. exact authority_said. Qed.
Print Assumptions C147_authority.

(** The full claim: a configuration that is accepted can connect.  A name with a final dot is accepted, and then no
    server can prove to have it. *)
Theorem C147_dotted : forall L p now n, (exists m, n = m ++ [dot]) -> ~ is_server L p now n.
Proof. exact dotted_never. Qed.
Print Assumptions C147_dotted.
Theorem C147_reachable_refuted : ~ forall s6 e base c, EnvModel.parse_control_addr s6 e base = inl (Some c) ->
  exists L answers t p now x, In t (targets c answers) /\ connect L t p now = Some x.
Proof. exact reachable_refuted. Qed.
Print Assumptions C147_reachable_refuted.

(** The full claim: requests to the control plane wait in a queue as it is configured.  It never is that one: the
    configuration is not read. *)
Theorem C147_queue_refuted : ~ exists a i o, queue_of (EnvModel.control_for a i o) = EnvModel.ct_queue (EnvModel.control_for a i o).
Proof. exact queue_refuted. Qed.
Print Assumptions C147_queue_refuted.

(** *** A case *)
Definition an_env : EnvModel.strings := fun k =>
  if beq k (bs "DST_ADDR"%string) then Some (Some (bs "dst.linkerd:8086"%string)) else
  if beq k (bs "DST_NAME"%string) then Some (Some (bs "Dst.Id"%string)) else Some None.
Definition a_control : EnvModel.control_addr := EnvModel.ControlAddr (Name (NameAddr (bs "dst.linkerd"%string) 8086)) (Some (bs "dst.id"%string)).
Definition a_lib : lib :=
  Lib (fun _ => true) (fun d => Some (Some [San_dns d])) (fun _ => 4000000000%Z) (fun u => Some u) (fun _ _ _ => true) (fun _ _ _ => true) (fun _ => true).
Example C147_case : EnvModel.parse_control_addr (fun _ => None) an_env (bs "DST"%string) = inl (Some a_control) /\
  EnvModel.is_loopback (EnvModel.ca_addr a_control) = false /\
  exists t, In t (targets a_control [[Sock [10; 0; 0; 1] 8086]; [Sock [127; 0; 0; 1] 8086]]) /\
    g_addr t = Sock [127; 0; 0; 1] 8086 /\
    connect a_lib t (Peer [bs "dst.id"%string] true None) 0 = Some (Sock [127; 0; 0; 1] 8086, Encrypted None) /\
    connect a_lib t (Peer [bs "other.id"%string] true None) 0 = None.
Proof.
  split; [vm_compute; reflexivity|]. split; [vm_compute; reflexivity|]. eexists. split; [right; left; reflexivity|].
  split; [reflexivity|]. split; vm_compute; reflexivity.
Qed.
Example C147_case_local : EnvModel.parse_control_addr (fun _ => None) (fun k => if beq k (bs "DST_ADDR"%string) then Some (Some (bs "localhost.:8086"%string)) else Some None) (bs "DST"%string)
    = inl (Some (EnvModel.ControlAddr (Name (NameAddr (bs "localhost."%string) 8086)) None)) /\
  targets (EnvModel.ControlAddr (Name (NameAddr (bs "localhost."%string) 8086)) None) [[Sock [10; 0; 0; 1] 8086]] = [Target (Sock [127; 0; 0; 1] 8086) None].
Proof. split; vm_compute; reflexivity. Qed.
Example C147_case_origin : uri_ok (Uri None None (bs "/io.linkerd/Get"%string) None) /\ ~ authority_uri (Uri None None (bs "/io.linkerd/Get"%string) None).
Proof. split; [right; right; split; reflexivity|]. intros (_ & H & _). now destruct H. Qed.
