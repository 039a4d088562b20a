(** C84 to C89: the configuration of the proxy *)
From Coq Require Import String List NArith QArith Bool.
From Verif Require Import Bytes NameModel NameSpec EndpointModel DnsModel DnsSpec EnvModel EnvSpec EnvProofs.
From Verif Require AuthzModel PolicyStoreModel WatchModel RetrySpec.
Import ListNotations.
Open Scope N_scope.

(** An environment, for the examples; the functions that are not in /repo accept nothing but URIs *)
Definition env_of (l : list (bytes * bytes)) : strings :=
  fun k => Some (option_map snd (List.find (fun kv => beq (fst kv) k) l)).
Definition base_env : list (bytes * bytes) := [
  (bs "LINKERD2_PROXY_DESTINATION_SVC_ADDR", bs "127.0.0.1:8086");
  (bs "LINKERD2_PROXY_POLICY_SVC_ADDR", bs "policy.linkerd.svc:8090");
  (bs "LINKERD2_PROXY_POLICY_SVC_NAME", bs "Policy.linkerd.id");
  (bs "LINKERD2_PROXY_POLICY_WORKLOAD", bs "ns:pod");
  (bs "LINKERD2_PROXY_IDENTITY_TRUST_ANCHORS", bs "pem")]%string.
Definition linkerd_env : list (bytes * bytes) := [
  (bs "LINKERD2_PROXY_IDENTITY_LOCAL_NAME", bs "foo.ns.id");
  (bs "LINKERD2_PROXY_IDENTITY_DIR", bs "/d"); (bs "LINKERD2_PROXY_IDENTITY_TOKEN_FILE", bs "/t");
  (bs "LINKERD2_PROXY_IDENTITY_SVC_ADDR", bs "identity.linkerd.svc:8080");
  (bs "LINKERD2_PROXY_IDENTITY_SVC_NAME", bs "identity.linkerd.id")]%string ++ base_env.
Definition spire_env : list (bytes * bytes) := [
  (bs "LINKERD2_PROXY_IDENTITY_SERVER_ID", bs "SPIFFE://root/foo"); (bs "LINKERD2_PROXY_IDENTITY_SERVER_NAME", bs "foo.id");
  (bs "LINKERD2_PROXY_IDENTITY_SPIRE_SOCKET", bs "/spire")]%string ++ base_env.
Definition try_env (l : list (bytes * bytes)) : result config :=
  parse_config (fun _ => None) (fun _ => None) (fun _ => None) Some (fun _ => None) (fun _ => Some (bs "k=file"%string))
    (fun _ => true) (fun _ => true) (env_of l).

(** ** C84 *)

(** A duration is a number with a unit. *)
Theorem C84_duration : forall s d, parse_duration s = Some d <-> lasts s d.
Proof. exact duration_iff. Qed.
Print Assumptions C84_duration.

(** It is exactly that number of units as long as 64 bits can count its seconds. *)
Theorem C84_duration_exact : forall s n k, written s n k -> n <= u64_max -> n * k < all_seconds -> parse_duration s = Some (n * k).
Proof. exact duration_exact. Qed.
Print Assumptions C84_duration_exact.
Example C84_hour : written (bs " 36h ") 36 (60 * 60 * 1000000000) /\ parse_duration (bs " 36h ") = Some (36 * 60 * 60 * 1000000000).
Proof.
  split; [|vm_compute; reflexivity]. exists (bs " "), (bs "36"), (bs "h"), (bs " ").
  repeat split; try (vm_compute; reflexivity); repeat constructor; vm_compute; congruence.
Qed.

(** Not otherwise: too many minutes become few. *)
Theorem C84_duration_refuted : ~ forall s n k, written s n k -> n <= u64_max -> parse_duration s = Some (n * k).
Proof.
  intros H. specialize (H (bs "307445734561825861m") 307445734561825861 (60 * 1000000000)).
  assert (parse_duration (bs "307445734561825861m") = Some 44000000000) as E by (vm_compute; reflexivity).
  rewrite E in H. assert (Some 44000000000 = Some (307445734561825861 * (60 * 1000000000))) as Q; [|vm_compute in Q; discriminate].
  apply H; [|vm_compute; congruence]. exists [], (bs "307445734561825861"), (bs "m"), [].
  repeat split; try (vm_compute; reflexivity); repeat constructor; vm_compute; congruence.
Qed.
Print Assumptions C84_duration_refuted.

(** Everything else is refused, and so are numbers beyond 64 bits. *)
Theorem C84_duration_refused : forall s, (exists d, parse_duration s = Some d) <-> exists n k, written s n k /\ n <= u64_max.
Proof. exact duration_some. Qed.
Print Assumptions C84_duration_refused.
Example C84_unitless : parse_duration (bs "10") = None /\ parse_duration (bs "0") = Some 0 /\ parse_duration (bs "1.5s") = None.
Proof. vm_compute. auto. Qed.

(** Limits may be empty, which is no limit. *)
Theorem C84_duration_opt : forall s d, parse_duration_opt s = Some d <-> lasts_opt s d.
Proof. exact duration_opt_iff. Qed.
Print Assumptions C84_duration_opt.

Theorem C84_bool : forall s b, parse_bool s = Some b <-> truth s b.
Proof. exact bool_iff. Qed.
Print Assumptions C84_bool.

Theorem C84_number : forall max s n, parse_number max s = Some n <-> counts max s n.
Proof. exact counts_iff. Qed.
Print Assumptions C84_number.

(** Lists of ports: every element must be a port or a range that is not empty. *)
Theorem C84_ports : forall s l, parse_port_range_set s = Some l <-> list_of port_range s l.
Proof. exact ports_iff. Qed.
Print Assumptions C84_ports.
Example C84_ports_example : parse_port_range_set (bs " 80, 4000 - 4010 ,,") = Some [(80, 80); (4000, 4010)] /\
  parse_port_range_set (bs "4010-4000") = None /\ parse_port_range_set (bs "65536") = None.
Proof. vm_compute. auto. Qed.

Theorem C84_suffixes : forall s l, parse_dns_suffixes s = Some l <-> list_of suffix_text s l.
Proof. exact suffixes_iff. Qed.
Print Assumptions C84_suffixes.

Theorem C84_networks : forall parse_net s l, parse_networks parse_net s = Some l <-> list_of (net_text parse_net) s l.
Proof. exact networks_iff. Qed.
Print Assumptions C84_networks.

(** Lists of IP addresses must have nothing but addresses and commas. *)
Theorem C84_ips : forall parse_v6 s l, parse_ip_set parse_v6 s = Some l <-> ips_text parse_v6 s l.
Proof. exact ips_iff. Qed.
Print Assumptions C84_ips.
Example C84_ips_example : parse_ip_set (fun _ => None) (bs "10.0.0.1,10.0.0.2") = Some [[10; 0; 0; 1]; [10; 0; 0; 2]] /\
  parse_ip_set (fun _ => None) (bs "10.0.0.1, 10.0.0.2") = None /\ parse_ip_set (fun _ => None) [] = None.
Proof. vm_compute. auto. Qed.

Theorem C84_address : forall parse_sock6 s a, parse_addr parse_sock6 s = Some a <-> addr_text parse_sock6 s a.
Proof. exact addr_iff. Qed.
Print Assumptions C84_address.

Theorem C84_socket : forall parse_sock6 s a, parse_socket_addr parse_sock6 s = Some a <-> sock_text parse_sock6 s a.
Proof. exact socket_iff. Qed.
Print Assumptions C84_socket.

Theorem C84_sockets : forall parse_sock6 s l, parse_socket_addrs parse_sock6 s = Some l <-> socks_text parse_sock6 s l.
Proof. exact sockets_iff. Qed.
Print Assumptions C84_sockets.

Theorem C84_identity : forall url_parse s i, parse_identity url_parse s = Some i <-> id_text url_parse s i.
Proof. exact identity_iff. Qed.
Print Assumptions C84_identity.

Section Config.
Variable parse_v6 : bytes -> option (list N).
Variable parse_sock6 : bytes -> option sock.
Variable parse_net : bytes -> option AuthzModel.ipnet.
Variable url_parse : bytes -> option bytes.
Variable parse_f64 : bytes -> option f64.
Variable read_to_string : bytes -> option bytes.
Variable token_ok : bytes -> bool.
Variable documents_ok : bytes -> bool.
Notation config_of := (parse_config parse_v6 parse_sock6 parse_net url_parse parse_f64 read_to_string token_ok documents_ok).

(** ** C85 *)

(** Every setting is what the environment says, or else its default. *)
Theorem C85_durations : forall e c, config_of e = inl c ->
  Forall (fun x => configured e lasts (fst (fst x)) (snd (fst x)) (snd x c)) duration_settings /\
  Forall (fun x => optional e lasts (fst x) (snd x c)) duration_options.
Proof. intros e c K. pose proof (config_facts _ _ _ _ _ _ _ _ e c K) as F. exact (conj (f_durations _ _ _ _ _ _ _ _ _ _ F) (f_duration_options _ _ _ _ _ _ _ _ _ _ F)). Qed.

Theorem C85_numbers : forall e c, config_of e = inl c ->
  Forall (fun x => configured e (counts (snd (fst (fst x)))) (fst (fst (fst x))) (snd (fst x)) (snd x c)) number_settings /\
  Forall (fun x => optional e (counts (snd (fst x))) (fst (fst x)) (snd x c)) number_options.
Proof. intros e c K. pose proof (config_facts _ _ _ _ _ _ _ _ e c K) as F. exact (conj (f_numbers _ _ _ _ _ _ _ _ _ _ F) (f_number_options _ _ _ _ _ _ _ _ _ _ F)). Qed.

Theorem C85_bools : forall e c, config_of e = inl c ->
  Forall (fun x => configured e truth (fst (fst x)) (snd (fst x)) (snd x c)) bool_settings.
Proof. intros e c K. exact (f_bools _ _ _ _ _ _ _ _ _ _ (config_facts _ _ _ _ _ _ _ _ e c K)). Qed.

Theorem C85_others : forall e c, config_of e = inl c -> other_settings parse_v6 parse_sock6 parse_net url_parse e c.
Proof. intros e c K. exact (f_others _ _ _ _ _ _ _ _ _ _ (config_facts _ _ _ _ _ _ _ _ e c K)). Qed.

Theorem C85_http2 : forall e c, config_of e = inl c ->
  Forall (fun x => flow_control_of e (fst x) (hs_flow_control (sv_http2 (snd x))) /\ keep_alive_of e (fst x) (hs_keep_alive (sv_http2 (snd x))))
    [(bs "LINKERD2_PROXY_OUTBOUND_SERVER_HTTP2"%string, outbound_server c); (bs "LINKERD2_PROXY_INBOUND_SERVER_HTTP2"%string, inbound_server c)].
Proof.
  intros e c K. pose proof (config_facts _ _ _ _ _ _ _ _ e c K) as F. destruct (f_flow _ _ _ _ _ _ _ _ _ _ F) as [A B], (f_keep _ _ _ _ _ _ _ _ _ _ F) as [C D].
  repeat (apply Forall_cons; [split; assumption|]). apply Forall_nil.
Qed.

(** The ports whose policies are discovered are those listed, the admin server's and, for a gateway, the
    proxy's own. *)
Theorem C85_ports : forall e c, config_of e = inl c -> port_policy parse_net e c (ib_policy (c_inbound c)).
Proof. intros e c K. exact (f_ports _ _ _ _ _ _ _ _ _ _ (config_facts _ _ _ _ _ _ _ _ e c K)). Qed.

(** A configuration is accepted if and only if all its parts are: whatever is malformed is refused. *)
Theorem C85_accepted : forall e, (exists c, config_of e = inl c) <->
  acceptable parse_v6 parse_sock6 parse_net url_parse parse_f64 token_ok documents_ok e.
Proof. exact (acceptance parse_v6 parse_sock6 parse_net url_parse parse_f64 read_to_string token_ok documents_ok). Qed.

(** ** C86 *)

(** Every client of the control plane authenticates its server by the name that is configured, unless the
    server is on the same host. *)
Theorem C86_clients : forall e c, config_of e = inl c -> Forall (client_of parse_sock6 e c) (clients c).
Proof. intros e c K. exact (f_clients _ _ _ _ _ _ _ _ _ _ (config_facts _ _ _ _ _ _ _ _ e c K)). Qed.

Theorem C86_plaintext : forall e c base control, config_of e = inl c -> In (base, control) (clients c) ->
  ca_identity (ct_addr control) = None -> loopback (ca_addr (ct_addr control)).
Proof.
  intros e c base control K I0 N0. pose proof (proj1 (Forall_forall _ _) (C86_clients e c K) _ I0) as Q.
  destruct (cl_reached _ _ _ _ Q) as (s & n & _ & _ & _ & [[L _]|(_ & NE & E)]); [exact L|]. cbn [snd] in E. rewrite N0 in E. congruence.
Qed.

(** There is a client of the trace collector if its address is given; a name alone is refused. *)
Theorem C86_trace : forall e c, config_of e = inl c ->
  (c_trace c = None <-> e (bs "LINKERD2_PROXY_TRACE_COLLECTOR_SVC"%string ++ bs "_ADDR"%string) = Some None /\
     e (bs "LINKERD2_PROXY_TRACE_COLLECTOR_SVC"%string ++ bs "_NAME"%string) = Some None).
Proof. intros e c K. exact (f_trace _ _ _ _ _ _ _ _ _ _ (config_facts _ _ _ _ _ _ _ _ e c K)). Qed.

(** ** C87 *)
Theorem C87_identity : forall e c, config_of e = inl c -> identity_of url_parse parse_f64 token_ok documents_ok e (c_identity c).
Proof. intros e c K. exact (f_identity _ _ _ _ _ _ _ _ _ _ (config_facts _ _ _ _ _ _ _ _ e c K)). Qed.

(** ** C88 *)
Theorem C88_limits : forall e c, config_of e = inl c ->
  limited e (ct_addr (ds_control (c_dst c))) (ds_limits (c_dst c)) /\ ordered (ds_limits (c_dst c)) /\
  limited e (ct_addr (po_control (c_policy c))) (po_limits (c_policy c)) /\ ordered (po_limits (c_policy c)).
Proof. intros e c K. destruct (f_limits _ _ _ _ _ _ _ _ _ _ (config_facts _ _ _ _ _ _ _ _ e c K)) as (A & B & C & D & _). auto. Qed.

(** Backoffs are what is configured, or else the default ones. *)
Theorem C88_backoffs : forall e c, config_of e = inl c ->
  backoff_of parse_f64 e (bs "LINKERD2_PROXY_OUTBOUND_CONNECT"%string) (Backoff (100 * ms) (60 * secs) (Fin (1 # 10))) (cc_backoff (outbound_connect c)) /\
  backoff_of parse_f64 e (bs "LINKERD2_PROXY_INBOUND_CONNECT"%string) (Backoff (100 * ms) (10 * secs) (Fin (1 # 10))) (cc_backoff (inbound_connect c)).
Proof. intros e c K. exact (f_backoffs _ _ _ _ _ _ _ _ _ _ (config_facts _ _ _ _ _ _ _ _ e c K)). Qed.

(** Every backoff of the proxy is one that can be used: C05 says how. *)
Theorem C88_sane : forall e c, config_of e = inl c -> Forall sane (backoffs c).
Proof. exact (backoffs_sane parse_v6 parse_sock6 parse_net url_parse parse_f64 read_to_string token_ok documents_ok). Qed.

(** ** C89 *)
Theorem C89_attributes : forall e c t, config_of e = inl c -> c_trace c = Some t ->
  forall k v, attribute (tr_attributes t) k = Some v <-> from (attribute_sources read_to_string e) k v.
Proof. intros e c t K. exact (f_attributes _ _ _ _ _ _ _ _ _ _ (config_facts _ _ _ _ _ _ _ _ e c K) t). Qed.
End Config.
Print Assumptions C85_durations.
Print Assumptions C85_numbers.
Print Assumptions C85_bools.
Print Assumptions C85_others.
Print Assumptions C85_http2.
Print Assumptions C85_ports.
Print Assumptions C85_accepted.
Print Assumptions C86_clients.
Print Assumptions C86_plaintext.
Print Assumptions C86_trace.
Print Assumptions C87_identity.
Print Assumptions C88_limits.
Print Assumptions C88_backoffs.
Print Assumptions C88_sane.
Print Assumptions C89_attributes.

(** A configuration that is accepted, with its settings and defaults *)
Example C85_example : exists c,
  try_env ((bs "LINKERD2_PROXY_OUTBOUND_CONNECT_TIMEOUT", bs "2s") :: (bs "LINKERD2_PROXY_INBOUND_PORTS", bs "80,8080") ::
           (bs "LINKERD2_PROXY_INGRESS_MODE", bs "true") :: linkerd_env)%string = inl c /\
  cc_timeout (outbound_connect c) = 2 * secs /\ cc_timeout (inbound_connect c) = 300 * ms /\
  ob_emit_headers (c_outbound c) = false /\
  (exists d, ib_policy (c_inbound c) = PolicyStoreModel.Discover d [80; 8080; 4191] []) /\
  map (fun x => ca_identity (ct_addr (snd x))) (clients c) = [None; Some (bs "policy.linkerd.id"); Some (bs "identity.linkerd.id")].
Proof. eexists. split; [vm_compute; reflexivity|]. split; [reflexivity|]. split; [reflexivity|]. split; [reflexivity|]. split; [eexists; reflexivity|vm_compute; reflexivity]. Qed.
(** Ones that are refused: a malformed number, a name alone, a remote server without a name, an identity that
    is not the server's name *)
Example C85_refused :
  try_env ((bs "LINKERD2_PROXY_OUTBOUND_MAX_IN_FLIGHT", bs "many") :: linkerd_env)%string = inr Invalid_env_var /\
  try_env ((bs "LINKERD2_PROXY_TRACE_COLLECTOR_SVC_NAME", bs "a.b") :: linkerd_env)%string = inr Invalid_env_var /\
  try_env ((bs "LINKERD2_PROXY_TRACE_COLLECTOR_SVC_ADDR", bs "a.b:80") :: linkerd_env)%string = inr Invalid_env_var /\
  try_env ((bs "LINKERD2_PROXY_CONTROL_STREAM_IDLE_TIMEOUT", bs "5s") :: (bs "LINKERD2_PROXY_CONTROL_STREAM_LIFETIME", bs "4s") :: linkerd_env)%string = inr Invalid_env_var /\
  try_env base_env = inr Invalid_env_var.
Proof. vm_compute. auto. Qed.
Example C87_example : exists c b, try_env spire_env = inl c /\
  c_identity c = Spire (AuthzModel.Uri (bs "SPIFFE://root/foo")) (bs "foo.id") (bs "pem") (bs "/spire") b.
Proof. do 2 eexists. split; [vm_compute; reflexivity|vm_compute; reflexivity]. Qed.
Example C89_example : exists c t,
  try_env ((bs "LINKERD2_PROXY_TRACE_COLLECTOR_SVC_ADDR", bs "127.0.0.1:4317") :: (bs "LINKERD2_PROXY_TRACE_ATTRIBUTES_PATH", bs "/a") ::
           (bs "LINKERD2_PROXY_TRACE_EXTRA_ATTRIBUTES", bs "a=""1""") :: (bs "OTEL_RESOURCE_ATTRIBUTES", bs "a=2") :: linkerd_env)%string = inl c /\
  c_trace c = Some t /\ attribute (tr_attributes t) (bs "a") = Some (bs "2") /\ attribute (tr_attributes t) (bs "k") = Some (bs "file").
Proof. do 2 eexists. split; [vm_compute; reflexivity|]. split; [vm_compute; reflexivity|]. vm_compute. auto. Qed.

(** *** What a user might expect of settings, but is not so *)

(** A malformed LISTEN_ADDR goes unnoticed if there is LISTEN_ADDRS. *)
Theorem C85_listen_addr_refuted : ~ forall e c,
  parse_config (fun _ => None) (fun _ => None) (fun _ => None) Some (fun _ => None) (fun _ => None) (fun _ => true) (fun _ => true) e = inl c ->
  ok e (sock_text (fun _ => None)) (bs "LINKERD2_PROXY_OUTBOUND_LISTEN_ADDR"%string).
Proof.
  intros H. set (l := ((bs "LINKERD2_PROXY_OUTBOUND_LISTEN_ADDR", bs "nowhere") :: (bs "LINKERD2_PROXY_OUTBOUND_LISTEN_ADDRS", bs "127.0.0.1:4140") :: linkerd_env)%string).
  assert (exists c, parse_config (fun _ => None) (fun _ => None) (fun _ => None) Some (fun _ => None) (fun _ => None) (fun _ => true) (fun _ => true) (env_of l) = inl c) as (c & E)
    by (eexists; vm_compute; reflexivity).
  apply H in E. apply (ok_iff _ _ _ (socket_iff (fun _ => None))) in E as (o & E). vm_compute in E. discriminate.
Qed.
Print Assumptions C85_listen_addr_refuted.

(** The size of the windows of streams has no effect unless that of connections is given, too. *)
Theorem C85_window_refuted : ~ forall e base s f, e (base ++ bs "_INITIAL_STREAM_WINDOW_SIZE"%string) = Some (Some s) ->
  (forall x, x <> base ++ bs "_INITIAL_STREAM_WINDOW_SIZE"%string -> e x = Some None) ->
  parse_flow_control e base = inl f -> exists n c, counts u32_max s n /\ f = Fixed_windows n c.
Proof.
  intros H. specialize (H (env_of [(bs "B_INITIAL_STREAM_WINDOW_SIZE", bs "100000")]%string) (bs "B"%string) (bs "100000"%string) (Fixed_windows 65535 1048576)).
  destruct H as (n & c & C & E).
  - reflexivity.
  - intros x N0. unfold env_of. cbn [List.find fst option_map]. destruct (beq _ x) eqn:B; [|reflexivity]. apply BytesProofs.beq_eq in B. subst x. contradiction.
  - reflexivity.
  - apply counts_iff in C. vm_compute in C. injection E as <- _. discriminate.
Qed.
Print Assumptions C85_window_refuted.

(** The number of idle connections of the inbound proxy has a name unlike all its other settings. *)
Theorem C85_max_idle_refuted : ~ forall e c,
  parse_config (fun _ => None) (fun _ => None) (fun _ => None) Some (fun _ => None) (fun _ => None) (fun _ => true) (fun _ => true) e = inl c ->
  configured e (counts u64_max) (bs "LINKERD2_PROXY_INBOUND_MAX_IDLE_CONNS_PER_ENDPOINT"%string) 10000 (cc_max_idle (inbound_connect c)).
Proof.
  intros H. set (l := ((bs "LINKERD2_PROXY_INBOUND_MAX_IDLE_CONNS_PER_ENDPOINT", bs "7") :: linkerd_env)%string).
  assert (exists c, parse_config (fun _ => None) (fun _ => None) (fun _ => None) Some (fun _ => None) (fun _ => None) (fun _ => true) (fun _ => true) (env_of l) = inl c /\
    cc_max_idle (inbound_connect c) = 10000) as (c & E & M) by (eexists; split; vm_compute; reflexivity).
  apply H in E. rewrite M in E. apply (set_iff _ _ _ (counts_iff _)) in E as (o & E & O). vm_compute in E. injection E as <-. discriminate.
Qed.
Print Assumptions C85_max_idle_refuted.

(** The backoff of SPIRE has a name with its prefix twice; by the name one would expect it is not set. *)
Theorem C87_spire_backoff_refuted : ~ forall e c i n ta api b,
  parse_config (fun _ => None) (fun _ => None) (fun _ => None) Some (fun _ => None) (fun _ => None) (fun _ => true) (fun _ => true) e = inl c ->
  c_identity c = Spire i n ta api b ->
  backoff_of (fun _ => None) e (bs "LINKERD2_PROXY_IDENTITY_SPIRE"%string) DEFAULT_SPIRE_BACKOFF b.
Proof.
  intros H. set (l := ((bs "LINKERD2_PROXY_IDENTITY_SPIRE_EXP_BACKOFF_MIN", bs "1s") :: (bs "LINKERD2_PROXY_IDENTITY_SPIRE_EXP_BACKOFF_MAX", bs "5s") :: spire_env)%string).
  assert (exists c i n ta api, parse_config (fun _ => None) (fun _ => None) (fun _ => None) Some (fun _ => None) (fun _ => None) (fun _ => true) (fun _ => true) (env_of l) = inl c /\
    c_identity c = Spire i n ta api DEFAULT_SPIRE_BACKOFF) as (c & i & n & ta & api & E & Q) by (do 5 eexists; split; vm_compute; reflexivity).
  destruct (H _ _ _ _ _ _ _ E Q) as (mn & mx & j & E1 & _ & _ & [(-> & _)|(-> & _)]);
    apply (opt_iff _ _ _ duration_iff) in E1; vm_compute in E1; discriminate.
Qed.
Print Assumptions C87_spire_backoff_refuted.
