(** The path of outbound connections that are not HTTP (C120), their counters (C121) and the kinds of errors (C122) *)
From Coq Require Import String List NArith.
From Verif Require Import Bytes NameModel EndpointModel ClientPolicyModel.
From Verif Require Import ForwardModel ForwardSpec ForwardProofs.
From Verif Require DnsModel DistributeModel DistributeSpec OutboundModel OutboundSpec TlsRouteModel TlsRouteSpec PromModel PromSpec.
Import ListNotations.
Open Scope N_scope.

(** ** C120 *)
(** The first filter of its route turns a connection away, whatever backends there are. *)
Theorem C120_filtered : forall rs h l f x fs d ready draws, takes rs h l f (x :: fs) d ->
  turned_away l (says f x) (select rs h ready draws).
Proof. exact refused_by_route. Qed.
Print Assumptions C120_filtered.

(** Without one, it is shed if and only if no backend with a weight is ready; *)
Theorem C120_shed : forall rs h ready draws l f d, all_valid rs -> takes rs h l f [] d ->
  (turned_away l Load_shed (select rs h ready draws) <-> forall i, ~ OutboundSpec.available d (among ready draws) i).
Proof. exact shed. Qed.
Print Assumptions C120_shed.

(** else one that is ready is chosen, as the policy says, and its first filter, or its dispatcher, turns the connection
    away, or the connection is begun. *)
Theorem C120_backend : forall rs h ready draws l f d, all_valid rs -> takes rs h l f [] d ->
  (exists i, OutboundSpec.available d (among ready draws) i) ->
  exists i fs c, OutboundSpec.picks d (among ready draws) (Some i) /\ OutboundSpec.available d (among ready draws) i /\
    OutboundSpec.backend_at d i (fs, c) /\
    match fs, c_target c with
    | x :: _, _ => turned_away l (says f x) (select rs h ready draws)
    | [], Fail_with m => turned_away l (Dispatcher_failed m) (select rs h ready draws)
    | [], _ => select rs h ready draws = Selected l (Begun c)
    end.
Proof. exact some_backend. Qed.
Print Assumptions C120_backend.

(** So a connection that is begun has a route without filters and goes to one of its backends that is ready, has a weight
    and has no filters. *)
Theorem C120_reaches : forall rs h ready draws l c, all_valid rs -> select rs h ready draws = Selected l (Begun c) ->
  exists f d i, takes rs h l f [] d /\ OutboundSpec.picks d (among ready draws) (Some i) /\
    OutboundSpec.available d (among ready draws) i /\ OutboundSpec.backend_at d i ([], c) /\ (forall m, c_target c <> Fail_with m).
Proof. exact reaches. Qed.
Print Assumptions C120_reaches.

(** A connection has one route at most, and is refused as such if and only if it has none. *)
Theorem C120_one : forall rs h l f fs d l' f' fs' d', takes rs h l f fs d -> takes rs h l' f' fs' d' ->
  l = l' /\ f = f' /\ fs = fs' /\ d = d'.
Proof. exact takes_unique. Qed.
Print Assumptions C120_one.
Theorem C120_none : forall rs h ready draws,
  (exists e, select rs h ready draws = No_selection e) <-> forall l f fs d, ~ takes rs h l f fs d.
Proof. exact no_route. Qed.
Print Assumptions C120_none.

(** The error then says whether the name did not come, in time or at all, or whether no route is for it. *)
Theorem C120_why : forall rs h ready draws e, select rs h ready draws = No_selection e ->
  match rs, h with
  | Opaq_routes a _ _, _ => e = [Logical_error a; No_route Opaq_stack]
  | Tls_routes _ _ _, Timed_out => e = [Sni_timeout]
  | Tls_routes _ _ _, Read_failed => e = [Io_error]
  | Tls_routes _ _ _, Found None => e = [Sni_missing]
  | Tls_routes a _ rts, Found (Some sni) =>
      e = [Logical_error a; No_route Tls_stack] /\ forall rt r, In rt rts -> ~ TlsRouteSpec.tls_applies rt sni r
  end.
Proof. exact why_none. Qed.
Print Assumptions C120_why.

(** With TLS routes, only a connection that names its server has a route. *)
Theorem C120_named : forall a p rts h ready draws l r,
  select (Tls_routes a p rts) h ready draws = Selected l r -> exists sni, h = Found (Some sni).
Proof. exact hears. Qed.
Print Assumptions C120_named.

(** The routes that are built of a policy meet the conditions. *)
Theorem C120_built_opaque : forall o backends r a p, mk_opaq_router o backends = Some r -> all_valid (Opaq_routes a p (ro_routes r)).
Proof. exact opaq_built. Qed.
Print Assumptions C120_built_opaque.
Theorem C120_built_tls : forall rts backends r a p, mk_tls_router rts backends = Some r -> all_valid (Tls_routes a p (ro_routes r)).
Proof. exact tls_built. Qed.
Print Assumptions C120_built_tls.

(** Whatever policies and connections come, and however they end: the server is told of a connection's end exactly what the
    routes that were in force when it came make of it; later ones make no difference. *)
Theorem C120_ends : forall rs es id r, once es ->
  (In (id, r) (st_done (run rs es)) <-> exists dst l, comes_to rs es id dst l r).
Proof. exact done_iff. Qed.
Print Assumptions C120_ends.
Theorem C120_goes_on : forall rs es id l c, once es ->
  ((exists cn, In (id, cn) (st_live (run rs es)) /\ cn_labels cn = l /\ cn_to cn = c) <-> goes_on rs es id l c).
Proof. exact live_iff. Qed.
Print Assumptions C120_goes_on.

(** ** C121 *)
(** The counter of opened connections of a series has as many as came with its labels. *)
Theorem C121_opened : forall rs es l, once es ->
  PromSpec.how_many (fun id => exists l', opens rs es id l' /\ same_series l' l) (PromSpec.value labels_eqb l (st_open (run rs es))).
Proof. exact open_many. Qed.
Print Assumptions C121_opened.

(** That of closed ones has, for each kind of error and for none, as many as ended so. *)
Theorem C121_closed : forall rs es l k, once es ->
  PromSpec.how_many (fun id => exists l', closes rs es id l' k /\ same_series l' l) (PromSpec.value closed_eqb (l, k) (st_closed (run rs es))).
Proof. exact closed_many. Qed.
Print Assumptions C121_closed.

(** Each that was opened was closed, for one reason, or goes on, or was dropped; *)
Theorem C121_each : forall rs es id l, once es -> opens rs es id l ->
  (exists k, closes rs es id l k /\ forall k', closes rs es id l k' -> k' = k) \/
  (exists c, goes_on rs es id l c) \/ dropped rs es id l.
Proof. exact each. Qed.
Print Assumptions C121_each.

Definition ex_sock : sock := Sock [10; 0; 0; 1] 4143.
Definition ex_dst : sock := Sock [10; 0; 0; 2] 9000.
Definition ex_addr : DnsModel.addr := DnsModel.Socket ex_dst.
Definition ex_svc (ns : bytes) : meta := Resource [] (bs "Service"%string) (bs "db"%string) ns None (Some 9000).
Definition ex_conc : concrete := Concrete (Balance (NameAddr (bs "db.ns"%string) 9000) (Peak_ewma 1 1)) None (ex_svc (bs "ns"%string)).
Definition ex_target {P} (p : P) (fs : list tcp_filter) : target tcp_filter P :=
  Target (Default (bs "r"%string)) fs (DistributeModel.First_available [([Forbidden], ex_conc); ([], ex_conc)]) p.
Definition ex_routes (fs : list tcp_filter) : routes := Opaq_routes ex_addr (ex_svc (bs "ns"%string)) (Some (ex_target tt fs)).
Definition ex_tls (ns : bytes) : routes :=
  Tls_routes ex_addr (ex_svc ns) [TlsRouteModel.TlsRoute [] (ex_target true [])].
Definition ex_second (i : nat) : bool := Nat.eqb i 1.
Definition ex_labels : labels := Labels (ex_svc (bs "ns"%string)) (Default (bs "r"%string)) (To_addr ex_addr).

(** and one that was dropped never counts as closed. *)
Theorem C121_dropped_refuted :
  ~ forall rs es l, once es -> st_live (run rs es) = [] -> (exists id, opens rs es id l) ->
      exists k, PromSpec.value closed_eqb (l, k) (st_closed (run rs es)) <> 0.
Proof.
  intros H. destruct (H (ex_routes []) [Accept 1 ex_dst Timed_out ex_second (fun _ => 0); Gone 1] ex_labels) as [k K].
  - repeat constructor. intros [].
  - reflexivity.
  - exists 1, ex_dst, (ex_routes []), (Begun ex_conc), [Gone 1], [], Timed_out, ex_second, (fun _ => 0). split; [reflexivity|].
    split; [left; split; [reflexivity|intros r []]|reflexivity].
  - apply K. reflexivity.
Qed.
Print Assumptions C121_dropped_refuted.

(** If their text tells where connections were to go, different series have different text. *)
Theorem C121_text_partial : forall a b, telling a -> telling b -> text_of a = text_of b -> same_series a b.
Proof. exact text_same. Qed.
Print Assumptions C121_text_partial.

(** But those of two names that have the same port have the same. *)
Theorem C121_text_refuted : ~ forall a b, text_of a = text_of b -> same_series a b.
Proof.
  intros H. destruct (H (Labels (Default []) (Default []) (To_addr (DnsModel.Name (NameAddr [97] 80))))
                        (Labels (Default []) (Default []) (To_addr (DnsModel.Name (NameAddr [98] 80)))) eq_refl) as (_ & _ & E).
  discriminate.
Qed.
Print Assumptions C121_text_refuted.

(** And parents of the same name in two namespaces share a series, whose text names the first only. *)
Theorem C121_namespace_refuted : ~ forall a b, same_series a b -> text_of a = text_of b.
Proof.
  intros H. assert (E := H (Labels (ex_svc [97]) (Default []) (To_host None)) (Labels (ex_svc [98]) (Default []) (To_host None))).
  assert (F : text_of (Labels (ex_svc [97]) (Default []) (To_host None)) = text_of (Labels (ex_svc [98]) (Default []) (To_host None)))
    by (apply E; repeat split; reflexivity).
  vm_compute in F. discriminate.
Qed.
Print Assumptions C121_namespace_refuted.
(** So it is with connections: the counter shows two of the one and none of the other. *)
Theorem C121_shared_refuted :
  ~ forall rs es l, once es -> PromSpec.how_many (fun id => opens rs es id l) (PromSpec.value labels_eqb l (st_open (run rs es))).
Proof.
  intros H. set (es := [Accept 1 ex_dst (Found (Some [97])) ex_second (fun _ => 0); Update (ex_tls [98]);
                        Accept 2 ex_dst (Found (Some [97])) ex_second (fun _ => 0)]).
  destruct (H (ex_tls [97]) es (Labels (ex_svc [97]) (Default (bs "r"%string)) (To_host (Some [97])))) as (l & ND & I & E).
  - unfold once, es. cbn. repeat constructor; [intros [C|[]]; discriminate|intros []].
  - assert (L : forall a, In a l -> a = 1).
    { intros a A. apply I in A. apply opens_iff in A as (e & Ie & <- & Q).
      assert (G : snd (grun (ex_tls [97]) es) =
        [Entry 2 ex_dst (ex_tls [98]) (Selected (Labels (ex_svc [98]) (Default (bs "r"%string)) (To_host (Some [97]))) (Begun ex_conc)) Going;
         Entry 1 ex_dst (ex_tls [97]) (Selected (Labels (ex_svc [97]) (Default (bs "r"%string)) (To_host (Some [97]))) (Begun ex_conc)) Going])
        by reflexivity.
      rewrite G in Ie. destruct Ie as [<-|[<-|[]]]; [|reflexivity]. vm_compute in Q. discriminate. }
    destruct l as [|a [|b l]].
    + vm_compute in E. discriminate.
    + vm_compute in E. discriminate.
    + pose proof (L a (or_introl eq_refl)). pose proof (L b (or_intror (or_introl eq_refl))). subst. inversion ND as [|? ? N _]. apply N. now left.
Qed.
Print Assumptions C121_shared_refuted.

(** ** C122 *)
(** The counters of errors have, for each destination and kind, as many connections as failed so. *)
Theorem C122_failed : forall rs es d k, once es ->
  PromSpec.how_many (fun id => fails rs es id d k) (PromSpec.value error_eqb (d, k) (st_errors (run rs es))).
Proof. exact errors_many. Qed.
Print Assumptions C122_failed.

(** The kind of an error is that of the outermost of its causes that is known, wherever it is. *)
Theorem C122_closed : forall e k, closed_mk e = k <-> of_kind known_closed K_unexpected e k.
Proof. exact closed_iff. Qed.
Print Assumptions C122_closed.
Theorem C122_outbound : forall e k, outbound_mk e = k <-> of_kind known_outbound E_unexpected e k.
Proof. exact outbound_iff. Qed.
Print Assumptions C122_outbound.
(** On the inbound side a refusal by policy is counted elsewhere. *)
Theorem C122_inbound : forall e k, inbound_mk e = k <-> of_kind known_inbound (Some E_unexpected) e k.
Proof. exact inbound_iff. Qed.
Print Assumptions C122_inbound.

(** Different kinds have different text. *)
Theorem C122_error_text : forall a b, error_text a = error_text b -> a = b.
Proof. exact error_text_inj. Qed.
Print Assumptions C122_error_text.
Theorem C122_closed_text : forall a b, closed_text a = closed_text b -> a = b.
Proof. exact closed_text_inj. Qed.
Print Assumptions C122_closed_text.

(** The timeouts that policies set are not counted as timeouts. *)
Theorem C122_timeout_refuted :
  ~ forall e, e <> [] -> (forall c, In c e -> c = Response_timeout \/ c = Stream_timeout) -> outbound_mk e = E_response_timeout.
Proof.
  intros H. assert (E := H [Stream_timeout]). discriminate E.
  - discriminate.
  - intros c [<-|[]]. now right.
Qed.
Print Assumptions C122_timeout_refuted.

(** ** Cases *)
Example C120_case : takes (ex_routes []) Timed_out ex_labels Opaq_stack [] (ta_distribution (ex_target tt [])) /\ all_valid (ex_routes []) /\
  select (ex_routes []) Timed_out ex_second (fun _ => 0) = Selected ex_labels (Begun ex_conc) /\
  turned_away ex_labels (Forbidden_route Opaq_stack) (select (ex_routes []) Timed_out (fun _ => true) (fun _ => 0)) /\
  turned_away ex_labels Load_shed (select (ex_routes []) Timed_out (fun _ => false) (fun _ => 0)).
Proof. split; [apply (takes_opaq ex_addr (ex_svc (bs "ns")) (ex_target tt []))|]. repeat split; reflexivity. Qed.
Example C120_tls_case :
  takes (ex_tls [97]) (Found (Some (bs "a.b")))
        (Labels (ex_svc [97]) (Default (bs "r")) (To_host (Some (bs "a.b")))) Tls_stack [] (ta_distribution (ex_target true [])).
Proof.
  apply (takes_tls ex_addr (ex_svc [97]) [TlsRouteModel.TlsRoute [] (ex_target true [])] (bs "a.b") (ex_target true [])).
  exists [], (TlsRouteModel.TlsRoute [] (ex_target true [])), [], [0; 0]. split; [reflexivity|]. split; [reflexivity|].
  split; [left; split; reflexivity|]. split; intros rt r [].
Qed.
Definition ex_history : list event :=
  [Accept 1 ex_dst Timed_out ex_second (fun _ => 0); Accept 2 ex_dst Timed_out ex_second (fun _ => 0);
   Update (ex_routes [Forbidden]); Accept 3 ex_dst Timed_out ex_second (fun _ => 0); End 1 (Not_connected [Io_error])].
Example C121_case : once ex_history /\
  st_done (run (ex_routes []) ex_history) =
    [(1, Some [Logical_error ex_addr; Route_error (Default (bs "r")); Concrete_error (NameAddr (bs "db.ns") 9000); Io_error]);
     (3, Some [Logical_error ex_addr; Route_error (Default (bs "r")); Forbidden_route Opaq_stack])] /\
  map fst (st_live (run (ex_routes []) ex_history)) = [2] /\
  st_open (run (ex_routes []) ex_history) = [(ex_labels, 3)] /\
  st_closed (run (ex_routes []) ex_history) = [((ex_labels, Some K_forbidden), 1); ((ex_labels, Some K_unexpected), 1)] /\
  st_errors (run (ex_routes []) ex_history) = [((ex_dst, E_unexpected), 1); ((ex_dst, E_io), 1)].
Proof.
  split; [unfold once; cbn; repeat constructor; cbn; intuition discriminate|]. repeat split; reflexivity.
Qed.
Example C121_text_case : telling ex_labels /\ text_of ex_labels <> text_of (Labels (ex_svc (bs "ns")) (Default (bs "s")) (To_addr ex_addr)).
Proof. split; [exact I|]. vm_compute. discriminate. Qed.
Example C122_case : outbound_mk [Logical_error ex_addr; Io_error; Load_shed] = E_io /\ inbound_mk [Other_cause 1; Route_unauthorized] = None.
Proof. split; reflexivity. Qed.
