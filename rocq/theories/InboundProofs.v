(** Proofs of C114 and C115 *)
From Coq Require Import String List NArith Bool Lia ZifyBool ZifyN.
From Verif Require Import Bytes BytesProofs NameModel NameSpec NameProofs FilterModel FilterSpec FilterProofs TraceModel TraceProofs
  EndpointModel MtlsModel HintSpec Http1Model Http1Spec Http1Proofs.
From Verif Require RouteModel AuthzModel AuthzSpec PolicyModel PolicySpec PolicyProofs GatewayModel MtlsSpec MtlsProofs.
From Verif Require Import InboundModel InboundSpec.
Import Http1Model.
Import ListNotations.
Open Scope N_scope.

Notation get_all := RouteModel.get_all.

(** ** What the parts do *)
Lemma get_hd hs n : hm_get hs n = hd_error (get_all n hs).
Proof.
  unfold hm_get, RouteModel.get_all. induction hs as [|[k x] hs IH]; [reflexivity|]. cbn [find fst filter].
  destruct (beq k n); [reflexivity|exact IH].
Qed.
Lemma get_ext hs hs' n : get_all n hs' = get_all n hs -> hm_get hs' n = hm_get hs n.
Proof. intros H. rewrite !get_hd, H. reflexivity. Qed.
Lemma get_all_in hs n v : In v (get_all n hs) <-> In (n, v) hs.
Proof.
  unfold RouteModel.get_all. rewrite in_map_iff. split.
  - intros ([k x] & E & H). cbn in E. subst x. apply filter_In in H as [H B]. apply beq_eq in B. cbn in B. subst k. exact H.
  - intros H. exists (n, v). split; [reflexivity|]. apply filter_In. split; [exact H|]. apply beq_refl.
Qed.
Lemma get_all_filter (f : bytes * bytes -> bool) hs n b : (forall v, f (n, v) = b) ->
  get_all n (filter f hs) = if b then get_all n hs else [].
Proof.
  intros H. unfold RouteModel.get_all. induction hs as [|[k x] hs IH]; cbn [filter]; [destruct b; reflexivity|].
  destruct (beq k n) eqn:B; cbn [fst].
  - apply beq_eq in B. subst k. rewrite H. destruct b; cbn [filter fst map]; [rewrite beq_refl; cbn [map]; rewrite IH; reflexivity|exact IH].
  - destruct (f (k, x)); cbn [filter fst]; rewrite ?B; exact IH.
Qed.

Lemma trace_other tracing hs span hs' e n : trace_call tracing hs span = Forward hs' e ->
  n <> bs "traceparent" -> n <> bs "grpc-trace-bin" -> n <> bs "x-b3-spanid" -> get_all n hs' = get_all n hs.
Proof.
  intros H H1 H2 H3. pose proof (forward_other_headers tracing hs span hs' e n (get_all n hs) H H1 H2 H3) as F.
  rewrite !values_get_all in F. symmetry. apply F. reflexivity.
Qed.

Lemma downgrade_same r : let r' := fst (downgrade r) in
  q_method r' = q_method r /\ q_uri r' = q_uri r /\ q_upgrade r' = q_upgrade r /\
  (forall n, n <> bs "l5d-orig-proto" -> get_all n (q_headers r') = get_all n (q_headers r)).
Proof.
  cbv zeta. unfold downgrade. destruct (version_eqb (q_version r) Http_2); [|repeat split].
  destruct (hm_get (q_headers r) L5D_ORIG_PROTO) as [v|]; [|repeat split].
  destruct (starts_with HTTP_11_STR v); [|destruct (starts_with HTTP_10_STR v)]; destruct (was_absolute_form v); cbn;
    (do 3 (split; [reflexivity|])); intros n N0; apply get_all_remove_other; intros E; apply N0; rewrite <- E; reflexivity.
Qed.

Lemma identity_same value r : let r' := set_identity value r in
  q_method r' = q_method r /\ q_uri r' = q_uri r /\ q_version r' = q_version r /\ q_absolute r' = q_absolute r /\
  q_upgrade r' = q_upgrade r /\
  (forall n, n <> bs "l5d-client-id" -> get_all n (q_headers r') = get_all n (q_headers r)) /\
  get_all (bs "l5d-client-id") (q_headers r') = match value with Some v => [v] | None => [] end.
Proof.
  cbv zeta. unfold set_identity. cbn. do 5 (split; [reflexivity|]). change (bs "l5d-client-id") with L5D_CLIENT_ID. split.
  - intros n N0. destruct value; [apply get_all_insert_other|apply get_all_remove_other]; intros E; apply N0; auto.
  - destruct value; [apply get_all_insert_same|apply get_all_remove_same].
Qed.

(** ** Identities that can be told *)
Lemma value_ok_iff v : GatewayModel.header_value_ok v = true <-> sendable v.
Proof.
  unfold GatewayModel.header_value_ok, sendable. rewrite forallb_forall. split; intros H b I; specialize (H b I); lia.
Qed.
Lemma identity_iff t v : identity_value t = Some v <-> tells t v.
Proof.
  unfold identity_value, tells, authenticated_as. destruct t as [[[i|] a|sni]|].
  - pose proof (value_ok_iff (GatewayModel.id_to_str i)) as V. destruct (GatewayModel.header_value_ok (GatewayModel.id_to_str i)).
    + split.
      * intros [= <-]. exists i. split; [reflexivity|]. split; [destruct i; reflexivity|]. apply V. reflexivity.
      * intros (j & [= <-] & S & _). f_equal. destruct i; cbn in *; congruence.
    + split; [discriminate|]. intros (j & [= <-] & S & W). destruct i; cbn in S; subst v; apply V in W; discriminate.
  - split; [discriminate|]. intros (j & [=] & _).
  - split; [discriminate|]. intros (j & [=] & _).
  - split; [discriminate|]. intros (j & [=] & _).
Qed.

Lemma label_sendable l : label l -> forall b, In b l -> letter b \/ digit b \/ b = 45 \/ b = 95.
Proof. intros (_ & _ & H & _) b I. destruct (H b I) as [?|[?|[?|?]]]; unfold hyphen, underscore in *; auto. Qed.
Lemma join_chars (P : N -> Prop) ls : (forall l, In l ls -> forall b, In b l -> P b) -> P 46 -> forall b, In b (join 46 ls) -> P b.
Proof.
  intros H D. induction ls as [|l ls IH]; cbn [join]; [intros b []|]. destruct ls as [|l' ls].
  - intros b I. apply (H l (or_introl eq_refl) b I).
  - intros b I. apply in_app_or in I as [I|[<-|I]]; [apply (H l (or_introl eq_refl) b I)|exact D|].
    apply IH; [|exact I]. intros l0 I0. apply H. right. exact I0.
Qed.
Lemma dns_chars s : dns_name s -> forall b, In b s -> letter b \/ digit b \/ b = 45 \/ b = 95 \/ b = 46.
Proof.
  intros (_ & ls & l & F & L & _ & E).
  assert (forall b, In b (dotted (ls ++ [l])) -> letter b \/ digit b \/ b = 45 \/ b = 95 \/ b = 46) as K.
  { apply (join_chars (fun b => letter b \/ digit b \/ b = 45 \/ b = 95 \/ b = 46)); [|tauto]. intros l0 I0 b I.
    assert (label l0) as L0 by (apply in_app_or in I0 as [I0|[<-|[]]]; [rewrite Forall_forall in F; exact (F l0 I0)|exact L]).
    pose proof (label_sendable l0 L0 b I). tauto. }
  intros b I. destruct E as [->| ->]; [exact (K b I)|]. apply in_app_or in I as [I|[<-|[]]]; [exact (K b I)|unfold dot; tauto].
Qed.
Theorem dns_told L n x tls a : MtlsSpec.says L n (Dns x) -> tls = Some (Established (Some (Dns x)) a) -> tells tls x.
Proof.
  intros S ->. exists (Dns x). split; [reflexivity|]. split; [reflexivity|]. inversion S as [s m D _ E|]; subst.
  intros b I. unfold lowers in I. apply in_map_iff in I as (b0 & <- & I). apply dns_chars in I; [|exact D].
  unfold letter, digit, lower in *. destruct ((65 <=? b0) && (b0 <=? 90)) eqn:Q; lia.
Qed.

Section P.
Variable parse_authority : bytes -> option authority.
Variable is_ip : bytes -> bool.
Variable form_parse : bytes -> list (bytes * bytes).
Variable pq_valid : bytes -> bool.
Variable draw : nat -> bool.
Notation inbound := (inbound parse_authority is_ip form_parse pq_valid draw).
Notation normalize_uri := (normalize_uri parse_authority).

Lemma set_authority_same u a u' : set_authority u a = Some u' -> u_auth u' = Some a /\
  (path_uri u -> u_path u' = u_path u /\ u_query u' = u_query u).
Proof.
  unfold set_authority, into_parts, from_parts, has_path_and_query, path_uri. destruct u as [[s|] [b|] p q]; cbn;
    intros H; injection H as <-; cbn; (split; [reflexivity|]); intros [H1 H2]; try discriminate; split; reflexivity.
Qed.

Lemma normalize_same default r r' : normalize_uri default r = Normalized r' ->
  q_method r' = q_method r /\ q_version r' = q_version r /\ q_headers r' = q_headers r /\ q_absolute r' = q_absolute r /\
  q_upgrade r' = q_upgrade r /\
  (uri_ok (q_uri r) -> u_path (q_uri r') = u_path (q_uri r) /\ u_query (q_uri r') = u_query (q_uri r)) /\
  (u_auth (q_uri r) <> None -> q_uri r' = q_uri r) /\
  (http1 (q_version r) -> q_absolute r = false -> u_auth (q_uri r) = None ->
    exists a, u_auth (q_uri r') = Some a /\
      (host_authority parse_authority (q_headers r) a \/
       (~ (exists b, host_authority parse_authority (q_headers r) b) /\ default = Some a))).
Proof.
  assert (forall b, b = Normalized r' -> b = Normalized r -> ~ (http1 (q_version r) /\ q_absolute r = false /\ u_auth (q_uri r) = None) ->
    q_method r' = q_method r /\ q_version r' = q_version r /\ q_headers r' = q_headers r /\ q_absolute r' = q_absolute r /\
    q_upgrade r' = q_upgrade r /\
    (uri_ok (q_uri r) -> u_path (q_uri r') = u_path (q_uri r) /\ u_query (q_uri r') = u_query (q_uri r)) /\
    (u_auth (q_uri r) <> None -> q_uri r' = q_uri r) /\
    (http1 (q_version r) -> q_absolute r = false -> u_auth (q_uri r) = None ->
      exists a, u_auth (q_uri r') = Some a /\
        (host_authority parse_authority (q_headers r) a \/
         (~ (exists b, host_authority parse_authority (q_headers r) b) /\ default = Some a)))) as K.
  { intros b -> [= <-] N0. repeat split; auto. intros. destruct N0. auto. }
  intros H. destruct (q_absolute r) eqn:QA.
  - apply (K _ H); [|intros (_ & D & _); discriminate]. apply normalize_keeps. auto.
  - destruct (u_auth (q_uri r)) as [a0|] eqn:UA.
    + apply (K _ H); [|intros (_ & _ & D); discriminate]. apply normalize_keeps. right. right. congruence.
    + clear K. unfold normalize_uri in H. rewrite QA, UA in H. cbn [negb andb] in H.
      assert (uri_ok (q_uri r) -> path_uri (q_uri r)) as PU.
      { intros [[_ O]|[(_ & O & _)|O]]; [contradiction|contradiction|exact O]. }
      destruct (q_version r) eqn:QV; try (injection H as <-; rewrite QA, QV; repeat split; auto; intros [D|D]; discriminate);
      (destruct (authority_from_header parse_authority (q_headers r) HOST) as [a|] eqn:F; [|destruct default as [a|]; [|discriminate]];
       destruct (set_authority (q_uri r) a) as [u|] eqn:S; [|discriminate| |discriminate]; injection H as <-; cbn;
       rewrite QA, QV; do 5 (split; [reflexivity|]); apply set_authority_same in S as [S1 S2]; (split; [intros O; apply S2, PU, O|]);
       (split; [intros D; contradiction|]); intros _ _ _; exists a; (split; [exact S1|]);
       [left; apply from_header_iff; exact F
       |right; split; [|reflexivity]; intros [b B]; apply from_header_iff in B; congruence]).
Qed.

(** ** Filters *)
Lemma untouched m hs n : ~ touches m n -> get_all n (modify_apply m hs) = get_all n hs.
Proof.
  intros T. symmetry. apply (proj1 (values_get_all n (modify_apply m hs) (get_all n hs))). apply modify_header_values.
  right. right. split; [intros H; apply T; right; right; exact H|]. split; [intros v H; apply T; right; left; exists v; exact H|].
  exists (get_all n hs), []. split; [apply values_get_all; reflexivity|]. split; [|symmetry; apply app_nil_r].
  apply values_get_all. destruct (get_all n (mh_add m)) as [|v l] eqn:G; [reflexivity|]. exfalso. apply T. left. exists v.
  apply get_all_in. rewrite G. left. reflexivity.
Qed.
Lemma http_untouched u rm k fs hs hs' n : PolicySpec.http_filtered pq_valid draw u rm k fs hs (inl hs') ->
  (forall m, In (PolicyModel.F_headers m) fs -> ~ touches m n) -> get_all n hs' = get_all n hs.
Proof.
  intros H. remember (inl hs') as r eqn:R. induction H; intros T; try discriminate.
  - injection R as <-. reflexivity.
  - apply IHhttp_filtered; [exact R|]. intros m' I. apply T. right. exact I.
  - apply IHhttp_filtered; [exact R|]. intros m' I. apply T. right. exact I.
  - rewrite IHhttp_filtered; [|exact R|intros m' I; apply T; right; exact I]. apply untouched. apply T. left. reflexivity.
Qed.
Lemma grpc_untouched k fs hs hs' n : PolicySpec.grpc_filtered draw k fs hs (inl hs') ->
  (forall m, In (PolicyModel.G_headers m) fs -> ~ touches m n) -> get_all n hs' = get_all n hs.
Proof.
  intros H. remember (inl hs') as r eqn:R. induction H; intros T; try discriminate.
  - injection R as <-. reflexivity.
  - apply IHgrpc_filtered; [exact R|]. intros m' I. apply T. right. exact I.
  - rewrite IHgrpc_filtered; [|exact R|intros m' I; apply T; right; exact I]. apply untouched. apply T. left. reflexivity.
Qed.
Lemma call_forward p client t rq u limit hs' :
  fst (PolicyModel.call pq_valid draw p client t rq u limit) = PolicyModel.R_forward hs' ->
  exists l, PolicySpec.chosen pq_valid draw rq u p l (inl hs') /\ AuthzModel.find_authz l client t <> None /\ limit = true.
Proof.
  assert (forall routes, (p = PolicyModel.Http1 routes \/ p = PolicyModel.Http2 routes \/ exists timeout l, p = PolicyModel.Detect routes timeout l) ->
    fst (match PolicyModel.authorize (RouteModel.http_find routes rq) client t with
         | inr e => (e, false)
         | inl (m, rp) =>
             match PolicyModel.apply_http_filters pq_valid draw 0 (PolicyModel.rp_filters rp) u m (RouteModel.rq_headers rq) with
             | inl hs => if limit then (PolicyModel.R_forward hs, true) else (PolicyModel.R_limited, true)
             | inr e => (e, false)
             end
         end) = PolicyModel.R_forward hs' ->
    exists l, PolicySpec.chosen pq_valid draw rq u p l (inl hs') /\ AuthzModel.find_authz l client t <> None /\ limit = true) as K.
  { intros routes P H. unfold PolicyModel.authorize in H. destruct (RouteModel.http_find routes rq) as [[[h m] rp]|] eqn:F; [|discriminate].
    destruct (AuthzModel.find_authz (PolicyModel.rp_authorizations rp) client t) as [a|] eqn:A; [|discriminate].
    destruct (PolicyModel.apply_http_filters pq_valid draw 0 (PolicyModel.rp_filters rp) u m (RouteModel.rq_headers rq)) as [hs|e] eqn:E.
    - destruct limit; [|discriminate]. injection H as ->. exists (PolicyModel.rp_authorizations rp). split; [|split; [congruence|reflexivity]].
      apply (PolicySpec.ch_http pq_valid draw rq u p routes h m rp (inl hs') P F). apply PolicyProofs.http_filters_iff. exact E.
    - exfalso. apply PolicyProofs.http_filters_iff in E. cbn in H. subst e. clear -E.
      remember (inr (PolicyModel.R_forward hs')) as r eqn:R. induction E; subst; auto; discriminate. }
  destruct p as [routes timeout tcp|routes|routes|routes|tcp|tcp]; cbn [PolicyModel.call]; try (intros H; apply (K routes); eauto; fail); try discriminate.
  clear K. intros H. unfold PolicyModel.authorize in H. destruct (RouteModel.grpc_find routes rq) as [[[h m] rp]|] eqn:F; [|discriminate].
  destruct (AuthzModel.find_authz (PolicyModel.rp_authorizations rp) client t) as [a|] eqn:A; [|discriminate].
  destruct (PolicyModel.apply_grpc_filters draw 0 (PolicyModel.rp_filters rp) (RouteModel.rq_headers rq)) as [hs|e] eqn:E.
  - destruct limit; [|discriminate]. injection H as ->. exists (PolicyModel.rp_authorizations rp). split; [|split; [congruence|reflexivity]].
    apply (PolicySpec.ch_grpc pq_valid draw rq u routes h m rp (inl hs') F). apply PolicyProofs.grpc_filters_iff. exact E.
  - exfalso. apply PolicyProofs.grpc_filters_iff in E. cbn in H. subst e. clear -E.
    remember (inr (PolicyModel.R_forward hs')) as r eqn:R. induction E; subst; auto; discriminate.
Qed.
Lemma chosen_untouched rq u p l hs' n : PolicySpec.chosen pq_valid draw rq u p l (inl hs') -> keeps p n ->
  get_all n hs' = get_all n (RouteModel.rq_headers rq).
Proof.
  intros C K. inversion C as [p' routes h m rp r Ep F E|routes h m rp r F E]; subst.
  - destruct (PolicyProofs.find_policy _ _ _ _ _ _ _ _ _ _ F) as (rt & ru & H1 & H2 & <-). apply (http_untouched _ _ _ _ _ _ n E).
    intros m' I. destruct Ep as [->|[->|(? & ? & ->)]]; exact (K rt ru m' H1 H2 I).
  - destruct (PolicyProofs.find_policy _ _ _ _ _ _ _ _ _ _ F) as (rt & ru & H1 & H2 & <-). apply (grpc_untouched _ _ _ _ n E).
    intros m' I. exact (K rt ru m' H1 H2 I).
Qed.

(** ** A request that is sent *)
Lemma mark_headers r : q_headers (mark_absolute_form r) = q_headers r.
Proof. apply mark_same. Qed.

Lemma sent_path tracing span1 span2 allow p limit c r to v asked r' :
  inbound tracing span1 span2 allow p limit c r = Sent to v asked r' ->
  exists r1 hs0 r3 hs1 hs2 e0 e1,
    serve (c_variant c) r = Passed r1 /\
    trace_call tracing (q_headers r1) span1 = Forward hs0 e0 /\
    normalize_uri (c_default c)
      (set_identity (identity_value (c_tls c)) (fst (downgrade (with_headers (mark_absolute_form r1) hs0)))) = Normalized r3 /\
    fst (PolicyModel.call pq_valid draw p (c_client c) (authz_tls (c_tls c)) (as_matched form_parse r3) (q_uri r3) limit)
      = PolicyModel.R_forward hs1 /\
    trace_call tracing hs1 span2 = Forward hs2 e1 /\
    variant_of (q_version r3) = Some v /\ to = c_server c /\
    asked = looked_up allow (logical_name parse_authority is_ip (with_headers r3 hs1)) /\
    r' = with_headers r3 hs2.
Proof.
  unfold InboundModel.inbound. destruct (serve (c_variant c) r) as [rsp|r1] eqn:S; [discriminate|].
  unfold before_router. rewrite mark_headers. destruct (trace_call tracing (q_headers r1) span1) as [hs0 e0|] eqn:T0; [|discriminate].
  destruct (normalize_uri (c_default c) (set_identity (identity_value (c_tls c)) (fst (downgrade (with_headers (mark_absolute_form r1) hs0))))) as [r3| |] eqn:N; try discriminate.
  destruct (fst (PolicyModel.call pq_valid draw p (c_client c) (authz_tls (c_tls c)) (as_matched form_parse r3) (q_uri r3) limit)) as [hs1| | | | | | | | |] eqn:C; try discriminate.
  unfold after_policy. destruct (variant_of (q_version (with_headers r3 hs1))) as [v0|] eqn:V; [|discriminate].
  destruct (trace_call tracing (q_headers (with_headers r3 hs1)) span2) as [hs2 e1|] eqn:T1; [|discriminate]. intros [= <- <- <- <-].
  exists r1, hs0, r3, hs1, hs2, e0, e1. repeat split; assumption.
Qed.

(** ** Identities *)
Lemma sent_identity tracing span1 span2 allow p limit c r to v asked r' :
  inbound tracing span1 span2 allow p limit c r = Sent to v asked r' -> keeps p (bs "l5d-client-id") ->
  get_all (bs "l5d-client-id") (q_headers r') = match identity_value (c_tls c) with Some v => [v] | None => [] end.
Proof.
  intros H K. apply sent_path in H as (r1 & hs0 & r3 & hs1 & hs2 & e0 & e1 & S & T0 & N & C & T1 & V & -> & A & ->).
  cbn [q_headers with_headers]. rewrite (trace_other _ _ _ _ _ _ T1) by (intros E; vm_compute in E; discriminate E).
  apply call_forward in C as (l & C & _). rewrite (chosen_untouched _ _ _ _ _ _ C K).
  apply normalize_same in N as (_ & _ & N & _). change (RouteModel.rq_headers (as_matched form_parse r3)) with (q_headers r3). rewrite N.
  apply identity_same.
Qed.
Theorem told_identity tracing span1 span2 allow p limit c r to v asked r' :
  inbound tracing span1 span2 allow p limit c r = Sent to v asked r' -> keeps p (bs "l5d-client-id") ->
  (forall x, In (bs "l5d-client-id", x) (q_headers r') <-> tells (c_tls c) x) /\
  (forall vs, values (bs "l5d-client-id") (q_headers r') vs -> (length vs <= 1)%nat).
Proof.
  intros H K. pose proof (sent_identity _ _ _ _ _ _ _ _ _ _ _ _ H K) as G. split.
  - intros x. rewrite <- get_all_in, G, <- identity_iff. destruct (identity_value (c_tls c)) as [y|]; cbn [In].
    + split; [intros [->|[]]; reflexivity|intros [= ->]; left; reflexivity].
    + split; [intros []|discriminate].
  - intros vs W. apply values_get_all in W. subst vs. rewrite G. destruct (identity_value (c_tls c)); cbn; lia.
Qed.

Theorem told_proved L name cfg sni scheme peer now t tracing span1 span2 allow p limit c r to v asked r' x :
  server_accept L name cfg sni scheme peer now = Some t -> c_tls c = t ->
  inbound tracing span1 span2 allow p limit c r = Sent to v asked r' -> keeps p (bs "l5d-client-id") ->
  In (bs "l5d-client-id", x) (q_headers r') ->
  sni = Some name /\ exists leaf i, MtlsSpec.proved (x_trusted_client L) peer now leaf /\ MtlsSpec.certifies_first L leaf i /\ spelled i x.
Proof.
  intros S T H K I. apply (told_identity _ _ _ _ _ _ _ _ _ _ _ _ H K) in I as (i & A & Sp & _). rewrite T in A.
  destruct (proj1 (MtlsProofs.server_iff L name cfg sni scheme peer now i)) as (-> & _ & _ & leaf & P & F); [exists t; split; assumption|].
  split; [reflexivity|]. exists leaf, i. auto.
Qed.

(** ** The other headers *)
Lemma serve_headers c r r1 n : serve (c_variant c) r = Passed r1 -> uri_ok (q_uri r) -> fresh r ->
  q_method r1 = q_method r /\ q_version r1 = q_version r /\ q_uri r1 = q_uri r /\ q_absolute r1 = false /\
  (of_connection c r n -> get_all n (q_headers r1) = []) /\
  (~ of_connection c r n -> get_all n (q_headers r1) = get_all n (q_headers r)).
Proof.
  intros S O (FA & FU & FW). unfold serve in S. unfold of_connection. destruct (c_variant c).
  - destruct (upgrade_call_spec r O FU) as (_ & _ & U). destruct (U r1 S) as (U1 & U2 & U3 & U4 & _ & _ & U5 & U6).
    split; [exact U1|]. split; [exact U2|]. split; [exact U3|]. split; [congruence|].
    pose proof (wants_iff r) as W. destruct (wants_upgrade r).
    + assert (asks_upgrade r) as Q by (apply W; reflexivity). rewrite (U5 Q). split; [tauto|reflexivity].
    + assert (~ asks_upgrade r) as Q by (intros Q; apply W in Q; discriminate). destruct (U6 Q) as (f & -> & F). split.
      * intros (_ & _ & Hop). rewrite (get_all_filter f _ n false); [reflexivity|]. intros x. pose proof (F (n, x)) as Fx. cbn [fst] in Fx.
        destruct (f (n, x)); [|reflexivity]. destruct (proj1 Fx eq_refl). exact Hop.
      * intros Hop. rewrite (get_all_filter f _ n true); [reflexivity|]. intros x. apply F. cbn [fst]. intros D. apply Hop. auto.
  - injection S as <-. repeat (split; [first [reflexivity|exact FA]|]). split; [|reflexivity]. intros ([=] & _).
Qed.
Theorem other_headers tracing span1 span2 allow p limit c r to v asked r' n vs :
  fresh r -> uri_ok (q_uri r) ->
  inbound tracing span1 span2 allow p limit c r = Sent to v asked r' -> keeps p n -> ~ In n own_headers ->
  (of_connection c r n -> values n (q_headers r') [] ) /\
  (~ of_connection c r n -> (values n (q_headers r') vs <-> values n (q_headers r) vs)).
Proof.
  intros Fr O H K Own. apply sent_path in H as (r1 & hs0 & r3 & hs1 & hs2 & e0 & e1 & S & T0 & N & C & T1 & V & -> & A & ->).
  assert (n <> bs "l5d-client-id" /\ n <> bs "traceparent" /\ n <> bs "grpc-trace-bin" /\ n <> bs "x-b3-spanid" /\ n <> bs "l5d-orig-proto") as (N1 & N2 & N3 & N4 & N5)
    by (repeat split; intros ->; apply Own; unfold own_headers; cbn [In]; tauto).
  assert (get_all n hs2 = get_all n (q_headers r1)) as G.
  { rewrite (trace_other _ _ _ _ _ n T1) by assumption. apply call_forward in C as (l & C & _). rewrite (chosen_untouched _ _ _ _ _ _ C K).
    apply normalize_same in N as (_ & _ & N & _). change (RouteModel.rq_headers (as_matched form_parse r3)) with (q_headers r3). rewrite N.
    destruct (identity_same (identity_value (c_tls c)) (fst (downgrade (with_headers (mark_absolute_form r1) hs0)))) as (_ & _ & _ & _ & _ & I & _).
    rewrite I by assumption. destruct (downgrade_same (with_headers (mark_absolute_form r1) hs0)) as (_ & _ & _ & D). rewrite D by assumption.
    cbn [q_headers with_headers]. apply (trace_other _ _ _ _ _ n T0); assumption. }
  destruct (serve_headers c r r1 n S O Fr) as (_ & _ & _ & _ & S1 & S2). cbn [q_headers with_headers]. rewrite !values_get_all. split.
  - intros Q. rewrite G, (S1 Q). reflexivity.
  - intros Q. rewrite G, (S2 Q). reflexivity.
Qed.

(** ** Policy *)
Lemma before_same c r r1 hs0 r3 : serve (c_variant c) r = Passed r1 -> uri_ok (q_uri r) -> fresh r ->
  normalize_uri (c_default c)
    (set_identity (identity_value (c_tls c)) (fst (downgrade (with_headers (mark_absolute_form r1) hs0)))) = Normalized r3 ->
  q_method r3 = q_method r /\ u_path (q_uri r3) = u_path (q_uri r) /\ u_query (q_uri r3) = u_query (q_uri r) /\
  (u_auth (q_uri r) <> None -> q_uri r3 = q_uri r).
Proof.
  intros S O Fr N. destruct (serve_headers c r r1 [] S O Fr) as (S1 & S2 & S3 & _).
  apply normalize_same in N as (N1 & _ & _ & _ & _ & N4 & N5 & _).
  destruct (identity_same (identity_value (c_tls c)) (fst (downgrade (with_headers (mark_absolute_form r1) hs0)))) as (I1 & I2 & _).
  destruct (downgrade_same (with_headers (mark_absolute_form r1) hs0)) as (D1 & D2 & _).
  destruct (mark_same r1) as (M1 & _ & M3 & _).
  assert (q_uri (set_identity (identity_value (c_tls c)) (fst (downgrade (with_headers (mark_absolute_form r1) hs0)))) = q_uri r) as U.
  { rewrite I2, D2. cbn. congruence. }
  rewrite U in N4, N5. split; [rewrite N1, I1, D1; cbn; congruence|]. destruct (N4 O) as [-> ->]. auto.
Qed.
Theorem sent_authorized tracing span1 span2 allow p limit c r to v asked r' :
  fresh r -> uri_ok (q_uri r) -> PolicySpec.routes_wf p -> AuthzSpec.ip_wf (c_client c) ->
  inbound tracing span1 span2 allow p limit c r = Sent to v asked r' ->
  to = c_server c /\ limit = true /\
  q_method r' = q_method r /\ u_path (q_uri r') = u_path (q_uri r) /\ u_query (q_uri r') = u_query (q_uri r) /\
  exists rq l hs,
    RouteModel.rq_method rq = q_method r /\ RouteModel.rq_path rq = u_path (q_uri r) /\
    RouteModel.rq_query rq = option_map form_parse (u_query (q_uri r)) /\
    RouteModel.rq_host rq = option_map a_host (u_auth (q_uri r')) /\
    PolicySpec.chosen pq_valid draw rq (q_uri r') p l (inl hs) /\
    AuthzSpec.authorized l (c_client c) (authz_tls (c_tls c)).
Proof.
  intros Fr O W I H. apply sent_path in H as (r1 & hs0 & r3 & hs1 & hs2 & e0 & e1 & S & T0 & N & C & T1 & V & -> & A & ->).
  destruct (before_same _ _ _ _ _ S O Fr N) as (B1 & B2 & B3 & _). cbn [q_method q_uri with_headers].
  apply PolicyProofs.forwarded_iff in C as (l & C & Au & ->); [|assumption|assumption].
  do 2 (split; [reflexivity|]). split; [exact B1|]. split; [exact B2|]. split; [exact B3|].
  exists (as_matched form_parse r3), l, hs1. unfold as_matched at 1 2 3 4. cbn. rewrite B1, B2, B3. auto 10.
Qed.

(** ** Names *)
Lemma authority_name_iff a n : authority_name is_ip a = Some n <-> named is_ip a n.
Proof.
  unfold authority_name, named, DEFAULT_PORT. destruct (is_ip (a_host a)); [split; [discriminate|intros ([=] & _)]|].
  set (port := match a_port a with Some p => p | None => 80 end).
  assert ((match a_port a with Some p => na_port n = p | None => na_port n = 80 end) <-> na_port n = port) as -> by (unfold port; destruct (a_port a); reflexivity).
  unfold from_str_and_port. destruct (a_host a) as [|b h] eqn:E.
  - split; [discriminate|]. intros (_ & D & _). exfalso. assert (name_from_str [] = Some (lowers [])) as X by (apply name_from_str_spec; auto). discriminate X.
  - destruct (name_from_str (b :: h)) as [m|] eqn:F.
    + apply name_from_str_spec in F as [D ->]. split.
      * intros [= <-]. auto.
      * intros (_ & _ & Q1 & Q2). destruct n as [x y]. cbn in *. congruence.
    + split; [discriminate|]. intros (_ & D & _). assert (name_from_str (b :: h) = Some (lowers (b :: h))) as X by (apply name_from_str_spec; auto). congruence.
Qed.
Lemma canonical_iff hs n :
  (match get_header_str hs CANONICAL_DST_HEADER with
   | Some dst => match name_addr_from_str dst with inl n => Some n | inr _ => None end
   | None => None
   end) = Some n <-> canonical hs n.
Proof.
  unfold canonical, get_header_str. change (bs "l5d-dst-canonical") with CANONICAL_DST_HEADER.
  destruct (hm_get hs CANONICAL_DST_HEADER) as [v|] eqn:G.
  - pose proof (proj1 (hm_get_iff _ _ _) G) as Fo. destruct (to_str v) as [s|] eqn:T.
    + apply to_str_printable in T as [-> P]. destruct (name_addr_from_str v) as [m|] eqn:E.
      * split; [intros [= <-]; exists v; auto|]. intros (v' & F' & _ & Q). apply hm_get_iff in F'. congruence.
      * split; [discriminate|]. intros (v' & F' & _ & Q). apply hm_get_iff in F'. congruence.
    + split; [discriminate|]. intros (v' & F' & P & _). apply hm_get_iff in F'. rewrite G in F'. injection F' as <-.
      assert (to_str v = Some v) by (apply to_str_printable; auto). congruence.
  - split; [discriminate|]. intros (v & F & _). apply hm_get_iff in F. congruence.
Qed.
Lemma logical_iff r n : logical_name parse_authority is_ip r = Some n <-> for_name parse_authority is_ip r n.
Proof.
  unfold logical_name. pose proof (canonical_iff (q_headers r)) as K.
  destruct (match get_header_str (q_headers r) CANONICAL_DST_HEADER with
            | Some dst => match name_addr_from_str dst with inl n => Some n | inr _ => None end | None => None end) as [m|].
  - assert (canonical (q_headers r) m) as Cm by (apply K; reflexivity). split.
    + intros [= <-]. apply By_header. exact Cm.
    + intros [Q|a Q _ _|a Q _ _ _]; [apply K in Q; congruence|destruct (Q m Cm)|destruct (Q m Cm)].
  - assert (forall m, ~ canonical (q_headers r) m) as NC by (intros m Q; apply K in Q; discriminate).
    assert (forall m, (match u_auth (q_uri r) with Some a => authority_name is_ip a | None => None end) = Some m <->
      exists a, u_auth (q_uri r) = Some a /\ named is_ip a m) as KA.
    { intros m. destruct (u_auth (q_uri r)) as [a|].
      - rewrite authority_name_iff. split; [intros Q; exists a; auto|intros (b & [= <-] & Q); exact Q].
      - split; [discriminate|intros (b & [=] & _)]. }
    destruct (match u_auth (q_uri r) with Some a => authority_name is_ip a | None => None end) as [m|].
    + destruct (proj1 (KA m) eq_refl) as (a & E & Q). split.
      * intros [= <-]. apply By_authority with a; auto.
      * intros [Q'|b _ E' Q'|b _ Q' _ _]; [destruct (NC n Q')| |destruct (Q' a m E Q)].
        apply KA. exists b. auto.
    + assert (forall b m, u_auth (q_uri r) = Some b -> ~ named is_ip b m) as NA.
      { intros b m E Q. assert (None = Some m) as D by (apply KA; exists b; auto). discriminate D. }
      destruct (authority_from_header parse_authority (q_headers r) HOST) as [a|] eqn:F.
      * apply from_header_iff in F. rewrite authority_name_iff. split.
        -- intros Q. apply By_host with a; auto.
        -- intros [Q'|b _ E' Q'|b _ _ F' Q']; [destruct (NC n Q')|destruct (NA b n E' Q')|].
           apply from_header_iff in F, F'. congruence.
      * split; [discriminate|]. intros [Q'|b _ E' Q'|b _ _ F' Q']; [destruct (NC n Q')|destruct (NA b n E' Q')|].
        apply from_header_iff in F'. congruence.
Qed.
Lemma logical_ext r hs : get_all CANONICAL_DST_HEADER hs = get_all CANONICAL_DST_HEADER (q_headers r) ->
  get_all HOST hs = get_all HOST (q_headers r) ->
  logical_name parse_authority is_ip (with_headers r hs) = logical_name parse_authority is_ip r.
Proof.
  intros H1 H2. unfold logical_name, get_header_str, authority_from_header. cbn [q_headers q_uri with_headers].
  rewrite (get_ext _ _ _ H1), (get_ext _ _ _ H2). reflexivity.
Qed.
Lemma for_name_dns r n : for_name parse_authority is_ip r n -> dns_name (na_name n).
Proof.
  assert (forall s, dns_name s -> dns_name (lowers s)) as D by (exact dns_name_lower).
  intros [(v & _ & _ & Q)|a _ _ (_ & Q & -> & _)|a _ _ _ (_ & Q & -> & _)]; [|auto|auto].
  apply name_addr_from_str_iff in Q as (h & p & _ & _ & _ & Q & ->). auto.
Qed.
Theorem sent_lookup tracing span1 span2 allow p limit c r to v asked r' n :
  suffixes_ok allow ->
  inbound tracing span1 span2 allow p limit c r = Sent to v asked r' ->
  (asked = Some n <-> for_name parse_authority is_ip r' n /\ allowed allow n).
Proof.
  intros Su H. apply sent_path in H as (r1 & hs0 & r3 & hs1 & hs2 & e0 & e1 & S & T0 & N & C & T1 & V & -> & -> & ->).
  assert (logical_name parse_authority is_ip (with_headers r3 hs1) = logical_name parse_authority is_ip (with_headers r3 hs2)) as ->.
  { change (with_headers r3 hs2) with (with_headers (with_headers r3 hs1) hs2). symmetry. apply logical_ext; cbn [q_headers with_headers];
      apply (trace_other _ _ _ _ _ _ T1); intros E; vm_compute in E; discriminate E. }
  set (q := with_headers r3 hs2). unfold looked_up. pose proof (logical_iff q) as L. pose proof (for_name_dns q) as D.
  destruct (logical_name parse_authority is_ip q) as [m|].
  - pose proof (D m (proj1 (L m) eq_refl)) as Dm. pose proof (name_match_iff allow (na_name m) Dm Su) as M.
    destruct (name_match allow (na_name m)).
    + rewrite <- L. split; [intros [= <-]; split; [reflexivity|apply M; reflexivity]|intros [[= <-] _]; reflexivity].
    + split; [discriminate|]. intros [Q A]. apply L in Q as [= <-]. apply M in A. discriminate.
  - split; [discriminate|]. intros [Q _]. apply L in Q. discriminate.
Qed.

(** ** Versions and hosts *)
Notation starts_iff := starts_with_iff.
Lemma downgrade_version r :
  (http1 (q_version r) -> fst (downgrade r) = r) /\
  (q_version r = Http_2 -> (forall v, notes r v -> q_version (fst (downgrade r)) = v) /\
    ((forall v, ~ notes r v) -> q_version (fst (downgrade r)) = Http_2)).
Proof.
  split.
  - unfold downgrade. intros [->| ->]; reflexivity.
  - intros V. unfold downgrade, notes. rewrite V. cbn [version_eqb]. change (bs "l5d-orig-proto") with L5D_ORIG_PROTO.
    change (bs "HTTP/1.1") with HTTP_11_STR. change (bs "HTTP/1.0") with HTTP_10_STR.
    destruct (hm_get (q_headers r) L5D_ORIG_PROTO) as [y|] eqn:G.
    + split.
      * intros v (x & rest & F & Q). apply hm_get_iff in F. assert (x = y) by congruence. subst y.
        destruct Q as [[-> ->]|[-> ->]].
        -- replace (starts_with HTTP_11_STR (HTTP_11_STR ++ rest)) with true by (symmetry; apply starts_iff; eauto).
           destruct (was_absolute_form (HTTP_11_STR ++ rest)); reflexivity.
        -- replace (starts_with HTTP_10_STR (HTTP_10_STR ++ rest)) with true by (symmetry; apply starts_iff; eauto).
           replace (starts_with HTTP_11_STR (HTTP_10_STR ++ rest)) with false by reflexivity.
           destruct (was_absolute_form (HTTP_10_STR ++ rest)); reflexivity.
      * intros NX. apply hm_get_iff in G. destruct (starts_with HTTP_11_STR y) eqn:P.
        { apply starts_iff in P as [rest ->]. destruct (NX Http_11). exists (HTTP_11_STR ++ rest), rest. auto. }
        destruct (starts_with HTTP_10_STR y) eqn:Q.
        { apply starts_iff in Q as [rest ->]. destruct (NX Http_10). exists (HTTP_10_STR ++ rest), rest. auto. }
        destruct (was_absolute_form y); exact V.
    + split; [|intros _; exact V]. intros v (x & rest & F & _). apply hm_get_iff in F. congruence.
Qed.
Lemma notes_ext r r' : get_all (bs "l5d-orig-proto") (q_headers r') = get_all (bs "l5d-orig-proto") (q_headers r) ->
  forall v, notes r' v <-> notes r v.
Proof.
  intros H. pose proof (get_ext _ _ _ H) as G. intros v. unfold notes.
  split; intros (x & rest & F & Q); exists x, rest; (split; [|exact Q]); apply hm_get_iff; apply hm_get_iff in F; congruence.
Qed.
Lemma notes_dec r : (exists v, notes r v) \/ (forall v, ~ notes r v).
Proof.
  unfold notes. change (bs "l5d-orig-proto") with L5D_ORIG_PROTO.
  destruct (hm_get (q_headers r) L5D_ORIG_PROTO) as [y|] eqn:G; [|right; intros v (x & rest & F & _); apply hm_get_iff in F; congruence].
  pose proof (proj1 (hm_get_iff _ _ _) G) as Fo.
  destruct (starts_with HTTP_11_STR y) eqn:P; [apply starts_iff in P as [rest ->]; left; eexists; eexists; eexists; split; [exact Fo|left; split; reflexivity]|].
  destruct (starts_with HTTP_10_STR y) eqn:Q; [apply starts_iff in Q as [rest ->]; left; eexists; eexists; eexists; split; [exact Fo|right; split; reflexivity]|].
  right. intros v (x & rest & F & [[_ ->]|[_ ->]]); apply hm_get_iff in F; rewrite G in F.
  - assert (y = HTTP_11_STR ++ rest) as Y by (unfold HTTP_11_STR; congruence). rewrite Y in P.
    assert (starts_with HTTP_11_STR (HTTP_11_STR ++ rest) = true) by (apply starts_iff; eauto). congruence.
  - assert (y = HTTP_10_STR ++ rest) as Y by (unfold HTTP_10_STR; congruence). rewrite Y in Q.
    assert (starts_with HTTP_10_STR (HTTP_10_STR ++ rest) = true) by (apply starts_iff; eauto). congruence.
Qed.

(** The request that is normalized, and how it came about *)
Lemma pre_normalize tracing span1 c r r1 hs0 e0 : fits c r -> fresh r -> uri_ok (q_uri r) ->
  serve (c_variant c) r = Passed r1 -> trace_call tracing (q_headers r1) span1 = Forward hs0 e0 ->
  let r2 := set_identity (identity_value (c_tls c)) (fst (downgrade (with_headers (mark_absolute_form r1) hs0))) in
  q_uri r2 = q_uri r /\ spoken r (q_version r2) /\
  (http1 (q_version r) -> (q_absolute r2 = true <-> u_scheme (q_uri r) <> None)).
Proof.
  intros Fi Fr O S T. cbv zeta. destruct (serve_headers c r r1 [] S O Fr) as (S1 & S2 & S3 & S4 & _).
  destruct (identity_same (identity_value (c_tls c)) (fst (downgrade (with_headers (mark_absolute_form r1) hs0)))) as (I1 & I2 & I3 & I4 & _).
  set (d := with_headers (mark_absolute_form r1) hs0) in *. destruct (mark_same r1) as (M1 & M2 & M3 & M4 & _).
  assert (q_version d = q_version r) as Vd by (cbn; congruence).
  destruct (downgrade_same d) as (D1 & D2 & _). destruct (downgrade_version d) as [E1 E2].
  split; [rewrite I2, D2; cbn; congruence|]. rewrite I3, I4. split.
  - unfold fits in Fi. destruct (c_variant c).
    + rewrite E1; rewrite Vd; [|exact Fi]. apply Spoken_http1. exact Fi.
    + injection S as <-. assert (forall v, notes d v <-> notes r v) as Nd.
      { apply notes_ext. cbn [q_headers with_headers d]. apply (trace_other _ _ _ _ _ _ T); intros E; vm_compute in E; discriminate E. }
      rewrite Vd in E2. destruct (E2 Fi) as [E3 E4]. destruct (notes_dec r) as [[v Q]|Q].
      * rewrite (E3 v); [|apply Nd; exact Q]. apply Spoken_noted; assumption.
      * rewrite E4; [apply Spoken_h2; assumption|]. intros v X. apply Nd in X. exact (Q v X).
  - intros V. rewrite E1 by (rewrite Vd; exact V). cbn [q_absolute with_headers d]. unfold mark_absolute_form, is_absolute_form. rewrite S2, S3.
    destruct V as [->| ->]; (destruct (u_scheme (q_uri r)); cbn; [split; [discriminate|reflexivity]|rewrite S4; split; [discriminate|intros D; destruct D; reflexivity]]).
Qed.

Theorem sent_version tracing span1 span2 allow p limit c r to v asked r' :
  fits c r -> fresh r -> uri_ok (q_uri r) ->
  inbound tracing span1 span2 allow p limit c r = Sent to v asked r' ->
  spoken r (q_version r') /\ (v = PolicyModel.V_h2 <-> q_version r' = Http_2).
Proof.
  intros Fi Fr O H. apply sent_path in H as (r1 & hs0 & r3 & hs1 & hs2 & e0 & e1 & S & T0 & N & C & T1 & V & -> & A & ->).
  destruct (pre_normalize tracing span1 c r r1 hs0 e0 Fi Fr O S T0) as (_ & Sp & _).
  apply normalize_same in N as (_ & N2 & _). cbn [q_version with_headers]. rewrite N2 in V |- *. split; [exact Sp|].
  match type of V with variant_of ?w = _ => destruct w end; cbn in V; try discriminate V; injection V as <-; split; congruence.
Qed.

Lemma spoken_http1 r v : spoken r v -> http1 v -> (forall v, q_version r = Http_2 -> ~ notes r v) -> http1 (q_version r).
Proof. intros [Q|w Q1 Q2|Q Q1] H NN; [exact Q|destruct (NN _ Q1 Q2)|destruct H; discriminate]. Qed.
Lemma spoken_variant r v : spoken r v -> exists w, variant_of v = Some w.
Proof. intros [[Q|Q]|w _ (x & rest & _ & [[-> _]|[-> _]])|Q Q1]; rewrite ?Q; eexists; reflexivity. Qed.
Lemma authority_dec u : authority_uri u \/ ~ authority_uri u.
Proof.
  unfold authority_uri. destruct u as [[s|] [a|] [|b p] [q|]]; cbn; try (right; intros (X1 & X2 & X3 & X4); congruence).
  left. repeat split; congruence.
Qed.
Lemma host_ext hs hs' a : get_all HOST hs' = get_all HOST hs -> host_authority parse_authority hs' a -> host_authority parse_authority hs a.
Proof.
  intros H Q. apply from_header_iff. apply from_header_iff in Q. unfold authority_from_header in *. rewrite <- (get_ext _ _ _ H). exact Q.
Qed.
Theorem sent_host tracing span1 span2 allow p limit c r to v asked r' h :
  fits c r -> fresh r -> uri_ok (q_uri r) -> keeps p (bs "host") ->
  (forall v, q_version r = Http_2 -> ~ notes r v) ->
  inbound tracing span1 span2 allow p limit c r = Sent to v asked r' ->
  told_host parse_authority r' h -> exists a, u_auth (q_uri r') = Some a /\ a_host a = h.
Proof.
  intros Fi Fr O K NN H (a & Ea & T). apply sent_path in H as (r1 & hs0 & r3 & hs1 & hs2 & e0 & e1 & S & T0 & N & C & T1 & V & -> & A & ->).
  destruct (pre_normalize tracing span1 c r r1 hs0 e0 Fi Fr O S T0) as (U & Sp & Ab).
  destruct T as [[(V1 & QA & NA) T]|[_ T]]; [|exists a; auto]. cbn [q_version q_absolute q_uri q_headers with_headers] in *.
  pose proof N as N'. apply normalize_same in N' as (_ & N2 & N3 & N4 & _ & _ & N5 & N6). rewrite N2 in V1. rewrite N4 in QA. rewrite U in N5, N6.
  assert (http1 (q_version r)) as V0.
  { exact (spoken_http1 _ _ Sp V1 NN). }
  assert (u_scheme (q_uri r) = None) as Sc.
  { destruct (u_scheme (q_uri r)) eqn:E; [|reflexivity]. exfalso. assert (Some b <> None) as D by discriminate. apply (Ab V0) in D. congruence. }
  assert (u_auth (q_uri r) = None) as Ua.
  { destruct (u_auth (q_uri r)) as [b|] eqn:E; [|reflexivity]. exfalso. apply NA. rewrite N5 by discriminate.
    destruct O as [[X _]|[X|[_ X]]]; [contradiction|exact X|congruence]. }
  destruct (N6 V1 QA Ua) as (b & Eb & Q). exists b. split; [exact Eb|].
  apply call_forward in C as (l & C & _).
  assert (get_all HOST hs2 = get_all HOST (q_headers (set_identity (identity_value (c_tls c)) (fst (downgrade (with_headers (mark_absolute_form r1) hs0)))))) as G.
  { rewrite (trace_other _ _ _ _ _ _ T1) by (intros E; vm_compute in E; discriminate E). change HOST with (bs "host").
    rewrite (chosen_untouched _ _ _ _ _ _ C K). cbn [RouteModel.rq_headers as_matched]. rewrite N3. reflexivity. }
  apply (host_ext _ _ _ G) in T. destruct Q as [Q|[Q _]]; [|destruct Q; exists a; exact T].
  apply from_header_iff in Q, T. congruence.
Qed.

(** ** Answers *)
Lemma http_no_panic u rm k fs hs : has_path_and_query u = true ->
  ~ PolicySpec.http_filtered pq_valid draw u rm k fs hs (inr PolicyModel.R_panic).
Proof.
  intros HP H. remember (inr PolicyModel.R_panic) as r eqn:R. induction H; try discriminate; auto.
  apply redirect_panic_iff in H as (_ & E1 & a & E2). unfold has_path_and_query in HP. rewrite E1, E2 in HP. discriminate.
Qed.
Lemma grpc_no_panic k fs hs : ~ PolicySpec.grpc_filtered draw k fs hs (inr PolicyModel.R_panic).
Proof. intros H. remember (inr PolicyModel.R_panic) as r eqn:R. induction H; try discriminate; auto. Qed.
Theorem not_panics span1 span2 allow p limit c r :
  fits c r -> fresh r -> uri_ok (q_uri r) -> ~ authority_uri (q_uri r) -> PolicySpec.routes_wf p -> AuthzSpec.ip_wf (c_client c) ->
  inbound false span1 span2 allow p limit c r <> Panics.
Proof.
  intros Fi Fr O NA W I. unfold InboundModel.inbound. destruct (serve (c_variant c) r) as [rsp|r1] eqn:S; [discriminate|].
  unfold before_router. rewrite mark_headers. cbn [trace_call].
  destruct (pre_normalize false span1 c r r1 (q_headers r1) None Fi Fr O S eq_refl) as (U & Sp & _).
  set (r2 := set_identity (identity_value (c_tls c)) (fst (downgrade (with_headers (mark_absolute_form r1) (q_headers r1))))) in *.
  destruct (normalize_uri (c_default c) r2) as [r3| |] eqn:N; [|discriminate|].
  - pose proof N as N'. apply normalize_same in N' as (_ & N2 & _ & _ & _ & _ & N5 & _).
    assert (has_path_and_query (q_uri r3) = true) as HP.
    { destruct (u_auth (q_uri r2)) as [a|] eqn:Ua.
      - rewrite N5 by discriminate. rewrite U in *. unfold has_path_and_query. rewrite Ua.
        destruct (u_scheme (q_uri r)) eqn:E; [reflexivity|]. exfalso. destruct O as [[X _]|[X|[_ X]]]; [contradiction|exact (NA X)|congruence].
      - clear N5. unfold Http1Model.normalize_uri in N. rewrite Ua in N. rewrite andb_true_r in N.
        assert (has_path_and_query (q_uri r2) = true) as HP2 by (unfold has_path_and_query; rewrite Ua; destruct (u_scheme (q_uri r2)); reflexivity).
        assert (forall a u, set_authority (q_uri r2) a = Some u -> has_path_and_query u = true) as SA.
        { intros a u E. unfold set_authority, into_parts in E. rewrite HP2 in E. cbn in E. injection E as <-. reflexivity. }
        destruct (q_version r2); try (injection N as <-; exact HP2); (destruct (q_absolute r2); cbn [negb] in N; [injection N as <-; exact HP2|];
          destruct (match authority_from_header parse_authority (q_headers r2) HOST with Some a => Some a | None => c_default c end) as [a|]; [|discriminate];
          destruct (set_authority (q_uri r2) a) as [u|] eqn:E; [|discriminate]; injection N as <-; exact (SA a u E)). }
    pose proof (PolicyProofs.verdict_call pq_valid draw p (c_client c) (authz_tls (c_tls c)) (as_matched form_parse r3) (q_uri r3) limit W I) as Vd.
    destruct (fst (PolicyModel.call pq_valid draw p (c_client c) (authz_tls (c_tls c)) (as_matched form_parse r3) (q_uri r3) limit)) as [hs1| | | | | | | | |] eqn:C;
      try discriminate.
    + unfold after_policy. cbn [trace_call q_version with_headers]. rewrite N2.
      destruct (spoken_variant _ _ Sp) as [v ->]. discriminate.
    + exfalso. inversion Vd as [Q Q1|l e Q Q' Q1|l e Q Q' Q1|l hs Q Q' Q'' Q1|l hs Q Q' Q'' Q1]; rewrite <- Q1 in C; cbn in C; try discriminate. subst e.
      inversion Q as [p' routes h m rp e Ep F E|routes h m rp e F E]; subst.
      * exact (http_no_panic _ _ _ _ _ HP E).
      * exact (grpc_no_panic _ _ _ E).
  - exfalso. rewrite <- U in O. unfold Http1Model.normalize_uri in N.
    assert (forall a, set_authority (q_uri r2) a <> None) as SA by (intros a E; destruct (set_authority_spec (q_uri r2) a O) as (u & Eu & _); congruence).
    destruct (q_version r2); try discriminate; (destruct (negb (q_absolute r2) && _); [|discriminate];
      destruct (match authority_from_header parse_authority (q_headers r2) HOST with Some a => Some a | None => c_default c end) as [a|]; [|discriminate];
      pose proof (SA a) as X; destruct (set_authority (q_uri r2) a); [discriminate|destruct X; reflexivity]).
Qed.
Theorem refused_verdict tracing span1 span2 allow p limit c r e :
  fresh r -> uri_ok (q_uri r) -> PolicySpec.routes_wf p -> AuthzSpec.ip_wf (c_client c) ->
  inbound tracing span1 span2 allow p limit c r = By_policy e ->
  exists rq u b, RouteModel.rq_method rq = q_method r /\ RouteModel.rq_path rq = u_path (q_uri r) /\
    RouteModel.rq_query rq = option_map form_parse (u_query (q_uri r)) /\ RouteModel.rq_host rq = option_map a_host (u_auth u) /\
    u_path u = u_path (q_uri r) /\ u_query u = u_query (q_uri r) /\ (u_auth (q_uri r) <> None -> u = q_uri r) /\
    PolicySpec.verdict pq_valid draw p (c_client c) (authz_tls (c_tls c)) rq u limit (e, b).
Proof.
  intros Fr O W I. unfold InboundModel.inbound. destruct (serve (c_variant c) r) as [rsp|r1] eqn:S; [discriminate|].
  unfold before_router. rewrite mark_headers. destruct (trace_call tracing (q_headers r1) span1) as [hs0 e0|] eqn:T0; [|discriminate].
  destruct (normalize_uri (c_default c) (set_identity (identity_value (c_tls c)) (fst (downgrade (with_headers (mark_absolute_form r1) hs0))))) as [r3| |] eqn:N; try discriminate.
  destruct (before_same _ _ _ _ _ S O Fr N) as (B1 & B2 & B3 & B4).
  pose proof (PolicyProofs.verdict_call pq_valid draw p (c_client c) (authz_tls (c_tls c)) (as_matched form_parse r3) (q_uri r3) limit W I) as Vd.
  destruct (PolicyModel.call pq_valid draw p (c_client c) (authz_tls (c_tls c)) (as_matched form_parse r3) (q_uri r3) limit) as [e1 b]. cbn [fst].
  intros H. assert (e1 = e) as ->.
  { destruct e1; try (injection H as <-; reflexivity); [|discriminate]. unfold after_policy in H.
    destruct (variant_of (q_version (with_headers r3 hs))); [|discriminate]. destruct (trace_call tracing (q_headers (with_headers r3 hs)) span2); discriminate. }
  exists (as_matched form_parse r3), (q_uri r3), b. unfold as_matched at 1 2 3 4. cbn. rewrite B1, B2, B3. auto 10.
Qed.
End P.

Lemma shown a t : AuthzSpec.meets a (authz_tls t) <-> shows a t.
Proof.
  destruct a as [| |ids sfx]; cbn [AuthzSpec.meets shows]; [reflexivity| |]; destruct t as [[i p|s]|]; cbn [authz_tls].
  - split; eauto.
  - split; [intros [c H]; discriminate|intros (i & q & H); discriminate].
  - split; [intros [c H]; discriminate|intros (i & q & H); discriminate].
  - split.
    + intros (j & E & H). injection E as E. destruct i as [i|]; [|discriminate]. injection E as <-. exists i, p. split; [reflexivity|].
      destruct i; exact H.
    + intros (j & q & E & H). injection E as -> ->. eexists. split; [reflexivity|]. destruct j; exact H.
  - split; [intros (c & H & _); discriminate|intros (i & q & H & _); discriminate].
  - split; [intros (c & H & _); discriminate|intros (i & q & H & _); discriminate].
Qed.
