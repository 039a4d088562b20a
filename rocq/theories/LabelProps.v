(** C123: the text of the metrics can be read back: it has the series that were counted, with their labels.
    C124: no series is on the page twice. *)
From Coq Require Import String List NArith Bool Lia.
From Verif Require Import Bytes BytesProofs NameModel GatewayModel DnsModel EndpointModel PolicyStoreModel HistogramModel
  LabelModel LabelSpec LabelReadProofs LabelProofs LabelOnceProofs LabelPageProofs.
Import ListNotations.
Open Scope N_scope.

(* ---- a case ---- *)

(** A way of writing addresses that meets what is asked of it *)
Definition dotted (ip : list N) : bytes := flat_map (fun x => to_dec x ++ [46]) ip.
Definition with_port (a : sock) : bytes := dotted (s_ip a) ++ [58] ++ to_dec (s_port a).
Lemma dec_without c v : is_digit c = false -> ~ In c (to_dec v).
Proof. intros D H. pose proof (to_dec_digits v) as F. rewrite forallb_forall in F. apply F in H. congruence. Qed.
Lemma dotted_without c ip : is_digit c = false -> c <> 46 -> ~ In c (dotted ip).
Proof.
  intros D N H. apply in_flat_map in H as (x & _ & H). apply in_app_iff in H as [H|[H|[]]]; [|congruence].
  now apply dec_without in H.
Qed.
Lemma dotted_clean ip : clean (dotted ip).
Proof.
  apply Forall_forall. intros c H. apply in_flat_map in H as (x & _ & H). apply in_app_iff in H as [H|[<-|[]]]; [|easy].
  pose proof (clean_dec x) as C. unfold clean in C. rewrite Forall_forall in C. now apply C.
Qed.
Lemma with_port_clean a : clean (with_port a).
Proof. apply clean_app; [apply dotted_clean|]. apply clean_app; [now apply clean_const|apply clean_dec]. Qed.
Lemma dotted_inj a : forall b, dotted a = dotted b -> a = b.
Proof.
  assert (E : forall x rest, split_once 46 ((to_dec x ++ [46]) ++ rest) = Some (to_dec x, rest)).
  { intros x rest. apply split_once_some. split; [now rewrite <- app_assoc|now apply dec_without]. }
  induction a as [|x a IH]; intros [|y b] H; cbn [dotted flat_map] in H.
  - easy.
  - symmetry in H. destruct (to_dec y); discriminate H.
  - destruct (to_dec x); discriminate H.
  - apply (f_equal (split_once 46)) in H. rewrite !E in H. injection H as H1 H2. apply to_dec_inj in H1. apply IH in H2. congruence.
Qed.
Lemma with_port_inj a b : with_port a = with_port b -> a = b.
Proof.
  destruct a as [ip p], b as [ip' p']. unfold with_port. cbn [s_ip s_port]. intros H.
  assert (E : forall ip p, split_once 58 (dotted ip ++ [58] ++ to_dec p) = Some (dotted ip, to_dec p)).
  { intros i q. apply split_once_some. split; [reflexivity|now apply dotted_without]. }
  apply (f_equal (split_once 58)) in H. rewrite !E in H. injection H as H1 H2. apply to_dec_inj in H2. apply dotted_inj in H1. congruence.
Qed.

Definition web : name_addr := NameAddr (bs "web.shop.svc"%string) 80.
Definition latencies : list N := [4; 3] ++ repeat 0 24.
Definition by_status : list (option N * status_metrics) :=
  [(Some 200, StatusMetrics (latencies, 11) [(C_http true 200, 6); (C_grpc false 13, 1)]);
   (None, StatusMetrics (repeat 0 26, 0) [(C_error (bs "h2(CANCEL)"%string), 2)])].
Definition peer : out_endpoint :=
  OutEndpoint (T_server (Dns (bs "web.shop.serviceaccount"%string))) (Some (bs "web.shop"%string))
    [(bs "namespace"%string, bs "shop"%string); (bs "pod"%string, bs "web-1"%string)] Z_local (Sock [10; 0; 0; 9] 8080).
Definition served : in_endpoint :=
  InEndpoint (S_established (Some (Dns (bs "cart.shop.serviceaccount"%string)))) None (Sock [10; 0; 0; 1] 80)
    (PolicyLabels (M_default (bs "all-unauthenticated"%string)) 80 (M_default (bs "probe"%string))
       (M_resource (bs "policy"%string) (bs "authorizationpolicy"%string) (bs "shop"%string))).
Definition counts : counted := Counted
  [(E_in served, HttpMetrics 3 []); (E_out peer, HttpMetrics 9 by_status)]
  [(RouteLabels D_out web [(bs "route"%string, bs "GET /books"%string)], HttpMetrics 7 by_status)]
  [(RouteLabels D_out web [], (5, 1))]
  [(RouteLabels D_out web [], HttpMetrics 8 by_status); (RouteLabels D_in web [], HttpMetrics 1 [])]
  [(ControlLabels (DnsModel.Socket (Sock [10; 0; 0; 2] 8086)) T_not_provided, HttpMetrics 2 by_status)]
  [(K_in_server S_no_client_hello (Sock [10; 0; 0; 1] 80) (M_default (bs "deny"%string)) 80, TcpMetrics 4 2 100 200 [(None, 1); (Some (bs "ECONNRESET"%string), 1)]);
   (K_out_server (Sock [10; 0; 0; 9] 8080), TcpMetrics 1 0 7 8 [(None, 1)]);
   (K_out_client peer, TcpMetrics 1 1 20 30 []); (K_in_client, TcpMetrics 4 4 200 100 [])]
  (ExportMetrics 1 2 3)
  [(StackLabels D_out (bs "http"%string) (bs "logical"%string), StackMetrics 2 1 9 4 120 0)].

Ltac clean_now := repeat first [apply clean_const; vm_compute; reflexivity | split | constructor].
Example C123_case : clean_counted counts.
Proof. clean_now. Qed.
Example C124_case : apart with_port counts.
Proof.
  repeat match goal with
  | |- _ /\ _ => split
  | |- NoDup _ => constructor
  | |- Forall _ _ => constructor
  | |- ~ In _ _ => vm_compute; intuition discriminate
  | |- _ => progress unfold apart, apart_http
  | |- _ => vm_compute; congruence
  end; vm_compute; try congruence; try exact Logic.I.
Qed.

(** The page of a small case, in full *)
Example C123_text :
  report with_port dotted (Counted [] [] [(RouteLabels D_in web [(bs "route", bs "GET /")], (5, 1))] [] []
    [(K_out_server (Sock [10; 0] 443), TcpMetrics 2 1 30 40 [(Some (bs "EPIPE"), 1)])] (ExportMetrics 0 0 0) []) =
  bs "# HELP route_retryable_total Total count of retryable HTTP responses.
# TYPE route_retryable_total counter
route_retryable_total{direction=""inbound"",dst=""web.shop.svc:80"",rt_route=""GET /""} 5
route_retryable_total{direction=""inbound"",dst=""web.shop.svc:80"",rt_route=""GET /"",skipped=""no_budget""} 1
# HELP tcp_open_total Total count of opened connections
# TYPE tcp_open_total counter
tcp_open_total{direction=""outbound"",peer=""src"",target_addr=""10.0.:443"",target_ip=""10.0."",target_port=""443"",tls=""no_identity"",no_tls_reason=""loopback""} 2
# HELP tcp_open_connections Number of currently-open connections
# TYPE tcp_open_connections gauge
tcp_open_connections{direction=""outbound"",peer=""src"",target_addr=""10.0.:443"",target_ip=""10.0."",target_port=""443"",tls=""no_identity"",no_tls_reason=""loopback""} 1
# HELP tcp_read_bytes_total Total count of bytes read from peers
# TYPE tcp_read_bytes_total counter
tcp_read_bytes_total{direction=""outbound"",peer=""src"",target_addr=""10.0.:443"",target_ip=""10.0."",target_port=""443"",tls=""no_identity"",no_tls_reason=""loopback""} 30
# HELP tcp_write_bytes_total Total count of bytes written to peers
# TYPE tcp_write_bytes_total counter
tcp_write_bytes_total{direction=""outbound"",peer=""src"",target_addr=""10.0.:443"",target_ip=""10.0."",target_port=""443"",tls=""no_identity"",no_tls_reason=""loopback""} 40
# HELP tcp_close_total Total count of closed connections
# TYPE tcp_close_total counter
tcp_close_total{direction=""outbound"",peer=""src"",target_addr=""10.0.:443"",target_ip=""10.0."",target_port=""443"",tls=""no_identity"",no_tls_reason=""loopback"",errno=""EPIPE""} 1
# HELP opentelemetry_span_export_streams Total count of opened span export streams
# TYPE opentelemetry_span_export_streams counter
opentelemetry_span_export_streams 0
# HELP opentelemetry_span_export_requests Total count of span export request messages
# TYPE opentelemetry_span_export_requests counter
opentelemetry_span_export_requests 0
# HELP opentelemetry_span_exports Total count of spans exported
# TYPE opentelemetry_span_exports counter
opentelemetry_span_exports 0
".
Proof. vm_compute. reflexivity. Qed.

(* ---- C123 ---- *)

(** When no value has a quote, a backslash or a newline in it, the page can be read, and its series are exactly
    those that were counted, each with its labels and its value. *)
Theorem C123_read_partial : forall show_sock show_ip,
  (forall a, clean (show_sock a)) -> (forall a, clean (show_ip a)) ->
  forall c, clean_counted c ->
  exists ls, read (report show_sock show_ip c) = Some ls /\
    forall s, In s (samples ls) <-> shown show_sock show_ip c (m_name s) (m_labels s) (m_value s).
Proof.
  exact (fun show_sock show_ip H1 H2 c C =>
    ex_intro _ _ (conj (page_read show_sock show_ip H1 H2 c C)
      (fun s => iff_trans (eq_ind_r (fun xs => In s xs <-> _) (iff_refl _) (samples_lines _)) (page_iff show_sock show_ip c s C)))).
Qed.
Print Assumptions C123_read_partial.

(** And the page is made of families, no two of one name: the help and the kind come first, once, and then the
    series of the family. *)
Theorem C123_grouped : forall show_sock show_ip,
  (forall a, clean (show_sock a)) -> (forall a, clean (show_ip a)) ->
  forall c, clean_counted c ->
  exists fs, read (report show_sock show_ip c) = Some (flat_map family_lines fs) /\
    NoDup (map f_name fs) /\ Forall (fun f => Forall (named_for f) (f_samples f)) fs.
Proof.
  exact (fun show_sock show_ip H1 H2 c C =>
    ex_intro _ _ (conj (page_read show_sock show_ip H1 H2 c C)
      (conj (page_names show_sock show_ip c) (page_named show_sock show_ip c)))).
Qed.
Print Assumptions C123_grouped.

(** Nothing is escaped: one route of a service profile whose name has a quote in it makes the whole page unreadable. *)
Theorem C123_unescaped_refuted : forall show_sock show_ip, exists c,
  map (fun e => r_labels (fst e)) (g_route c) = [[(bs "route", bs "GET ""books""")]] /\
  read (report show_sock show_ip c) = None.
Proof.
  exact (fun _ _ => ex_intro _
    (Counted [] [(RouteLabels D_out web [(bs "route", bs "GET ""books""")], HttpMetrics 1 [])] [] [] [] [] (ExportMetrics 0 0 0) [])
    (conj eq_refl eq_refl)).
Qed.
Print Assumptions C123_unescaped_refuted.

(** And a name that is written for it adds labels to the series. *)
Theorem C123_forged_refuted : forall show_sock show_ip, exists c ls s,
  map (fun e => map fst (r_labels (fst e))) (g_route c) = [[bs "route"]] /\
  read (report show_sock show_ip c) = Some ls /\ In s (samples ls) /\ In (bs "rt_tier", bs "gold") (m_labels s).
Proof.
  exact (fun _ _ => ex_intro _
    (Counted [] [(RouteLabels D_out web [(bs "route", bs "a"",rt_tier=""gold")], HttpMetrics 1 [])] [] [] [] [] (ExportMetrics 0 0 0) [])
    (ex_intro _ _ (ex_intro _
      (Sample (bs "route_request_total")
        [(bs "direction", bs "outbound"); (bs "dst", bs "web.shop.svc:80"); (bs "rt_route", bs "a"); (bs "rt_tier", bs "gold")] 1)
      (conj eq_refl (conj eq_refl (conj (or_introl eq_refl) (or_intror (or_intror (or_intror (or_introl eq_refl)))))))))).
Qed.
Print Assumptions C123_forged_refuted.

(* ---- C124 ---- *)

(** No series is on the page twice, if the keys differ in what of them is in the text. *)
Theorem C124_once_partial : forall show_sock show_ip,
  (forall a, clean (show_sock a)) -> (forall a, clean (show_ip a)) ->
  (forall a b, show_sock a = show_sock b -> a = b) ->
  forall c, clean_counted c -> apart show_sock c ->
  exists ls, read (report show_sock show_ip c) = Some ls /\ NoDup (map series (samples ls)).
Proof.
  exact (fun show_sock show_ip H1 H2 H3 c C A =>
    ex_intro _ _ (conj (page_read show_sock show_ip H1 H2 c C)
      (eq_ind_r (fun xs => NoDup (map series xs)) (page_once show_sock show_ip H3 c C A) (samples_lines _)))).
Qed.
Print Assumptions C124_once_partial.

(** Two endpoints that differ only in their zone have separate counts, and one series in the text: the page has
    it twice, with two values. *)
Theorem C124_zone_refuted : exists a b,
  a <> b /\ forall n m, exists ls, 
  read (report with_port dotted (Counted [] [] [] [] []
    [(K_out_client a, TcpMetrics n 0 0 0 []); (K_out_client b, TcpMetrics m 0 0 0 [])] (ExportMetrics 0 0 0) [])) = Some ls /\
  ~ NoDup (map series (samples ls)).
Proof.
  refine (ex_intro _ peer (ex_intro _ (OutEndpoint (o_tls peer) (o_authority peer) (o_labels peer) Z_remote (o_addr peer)) (conj _ _))).
  - discriminate.
  - intros n m. eexists. split; [apply page_read; [exact with_port_clean|exact dotted_clean|clean_now]|].
    rewrite samples_lines. intros H. apply NoDup_cons_iff in H as [H _]. apply H. left. reflexivity.
Qed.
Print Assumptions C124_zone_refuted.

(** So have two routes whose destinations differ in the dot that ends a name. *)
Theorem C124_dot_refuted : forall show_sock show_ip n m, exists a b ls,
  na_name a = na_name b ++ bs "." /\ na_port a = na_port b /\
  read (report show_sock show_ip (Counted [] [] [(RouteLabels D_out a [], (n, 0)); (RouteLabels D_out b [], (m, 0))] [] [] []
    (ExportMetrics 0 0 0) [])) = Some ls /\ ~ NoDup (map series (samples ls)).
Proof.
  intros show_sock show_ip n m. exists (NameAddr (bs "web.shop.svc.") 80), web. eexists.
  split; [reflexivity|]. split; [reflexivity|]. split.
  - assert (E : forall s i, report s i (Counted [] [] [(RouteLabels D_out (NameAddr (bs "web.shop.svc.") 80) [], (n, 0));
      (RouteLabels D_out web [], (m, 0))] [] [] [] (ExportMetrics 0 0 0) []) =
      report with_port dotted (Counted [] [] [(RouteLabels D_out (NameAddr (bs "web.shop.svc.") 80) [], (n, 0));
      (RouteLabels D_out web [], (m, 0))] [] [] [] (ExportMetrics 0 0 0) [])) by reflexivity.
    rewrite E. apply page_read; [exact with_port_clean|exact dotted_clean|clean_now].
  - rewrite samples_lines. intros H. apply NoDup_cons_iff in H as [H _]. apply H. right. left. reflexivity.
Qed.
Print Assumptions C124_dot_refuted.
