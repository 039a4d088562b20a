(** Proofs of C149 *)
From Coq Require Import String List NArith Bool Lia ZifyBool ZifyN.
From Verif Require Import Bytes BytesProofs NameModel NameSpec NameProofs FilterModel FilterSpec FilterProofs TraceModel EndpointModel HintSpec
  Http1Model Http1Spec Http1Proofs.
From Verif Require RouteModel PolicyModel GatewayModel GatewaySpec GatewayProofs DiscoverModel.
From Verif Require Import InboundModel InboundSpec InboundProofs CanonModel CanonSpec.
Import Http1Model.
Import ListNotations.
Open Scope N_scope.

Notation get_all := RouteModel.get_all.

(** ** The text of an address *)
Lemma text_readable a : dns_name (na_name a) -> GatewaySpec.readable (name_addr_to_string a).
Proof.
  intros D. unfold name_addr_to_string. apply GatewayProofs.readable_dns in D. apply GatewayProofs.readable_undot in D.
  apply GatewayProofs.readable_app. split; [exact D|]. apply GatewayProofs.readable_app.
  split; [constructor; [lia|constructor]|apply GatewayProofs.readable_dec].
Qed.
Lemma canonical_dst_some a : service a -> canonical_dst a = Some (CANONICAL_DST_HEADER, name_addr_to_string a).
Proof.
  intros (D & _). unfold canonical_dst. rewrite (GatewayProofs.readable_ok _ (text_readable a D)). reflexivity.
Qed.
Lemma canonical_dst_is a h : canonical_dst a = Some h -> h = (CANONICAL_DST_HEADER, name_addr_to_string a).
Proof. unfold canonical_dst. destruct (GatewayModel.header_value_ok _); [intros [= <-]; reflexivity|discriminate]. Qed.
Lemma text_read a : service a ->
  to_str (name_addr_to_string a) = Some (name_addr_to_string a) /\
  name_addr_from_str (name_addr_to_string a) = inl (NameAddr (without_trailing_dot (na_name a)) (na_port a)).
Proof.
  intros (D & L & P). split.
  - apply to_str_printable. split; [reflexivity|]. pose proof (text_readable a D) as R. unfold GatewaySpec.readable in R.
    unfold printable. eapply Forall_impl; [|exact R]. cbn. intros b. lia.
  - destruct a as [n p]. cbn [na_name na_port] in *. apply (name_addr_round_trip n).
    + apply name_from_str_spec. split; [exact D|congruence].
    + unfold u16_max. exact P.
Qed.
Lemma undotted_iff a n : service a -> undotted_service a n <-> n = NameAddr (without_trailing_dot (na_name a)) (na_port a).
Proof.
  intros (D & _). unfold undotted_service. destruct n as [m p]. cbn [na_name na_port]. split.
  - intros [U ->]. apply undotted_unique in U. congruence.
  - intros [= -> ->]. split; [apply dns_name_undotted; exact D|reflexivity].
Qed.
Lemma text_undotted a : service a -> exists n, undotted_service a n /\ name_addr_to_string a = na_name n ++ [58] ++ to_dec (na_port n).
Proof.
  intros S. exists (NameAddr (without_trailing_dot (na_name a)) (na_port a)). split; [apply undotted_iff; auto|reflexivity].
Qed.

(** ** One layer *)
Lemma stripped_others name r : only_headers r (strip_request name r) /\ q_headers (strip_request name r) = without [name] (q_headers r).
Proof. split; [reflexivity|]. apply remove_without. Qed.

Lemma ingress_spec parse orig r t r' : ingress_call parse orig r = Some (t, r') ->
  DiscoverModel.select_target parse orig (q_headers r) = Some t /\
  only_headers r r' /\ q_headers r' = without [bs "l5d-dst-override"] (q_headers r) /\ values (bs "l5d-dst-override") (q_headers r') [].
Proof.
  unfold ingress_call. destruct (DiscoverModel.select_target parse orig (q_headers r)) as [t0|]; [|discriminate].
  intros [= <- <-]. split; [reflexivity|]. split; [reflexivity|]. split; [apply remove_without|].
  apply values_get_all. symmetry. apply get_all_remove_same.
Qed.

Lemma without_insert n v hs : without [n] (hm_insert hs n v) = without [n] hs.
Proof.
  unfold hm_insert, without, hm_remove. rewrite filter_app. cbn [filter fst existsb]. rewrite beq_refl. cbn [orb negb]. rewrite app_nil_r, filter_filter.
  apply filter_ext. intros [k x]. cbn [fst existsb]. rewrite orb_false_r. destruct (beq k n); reflexivity.
Qed.

Lemma profile_spec a r : service a -> exists r' n,
  profile_route a r = Some r' /\ only_headers r r' /\ undotted_service a n /\
  values (bs "l5d-dst-canonical") (q_headers r') [na_name n ++ [58] ++ to_dec (na_port n)] /\
  without [bs "l5d-dst-canonical"] (q_headers r') = without [bs "l5d-dst-canonical"] (q_headers r).
Proof.
  intros S. destruct (text_undotted a S) as (n & U & E). unfold profile_route. rewrite (canonical_dst_some a S). cbn [option_map].
  eexists. exists n. split; [reflexivity|]. split; [reflexivity|]. split; [exact U|]. unfold header_from_target. cbn [fst snd q_headers with_headers].
  split.
  - apply values_get_all. rewrite <- E. symmetry. apply get_all_insert_same.
  - apply without_insert.
Qed.

(** ** The way of a request *)
Lemma send_same k r rr : ((exists v, send k r = Over_h2 rr v) \/ send k r = Over_http1 rr) ->
  q_uri rr = q_uri r /\ q_method rr = q_method r /\
  (send k r = Over_http1 rr -> rr = r) /\
  (forall n, n <> bs "l5d-orig-proto" -> n <> bs "transfer-encoding" -> get_all n (q_headers rr) = get_all n (q_headers r)).
Proof.
  change (bs "l5d-orig-proto") with L5D_ORIG_PROTO. change (bs "transfer-encoding") with TRANSFER_ENCODING.
  destruct k; cbn [send].
  - intros [[v [=]]|[= <-]]. repeat split; auto.
  - intros [[v [= <- _]]|[=]]. repeat split; auto; discriminate.
  - unfold orig_proto_upgrade. destruct (q_upgrade r).
    + intros [[v [=]]|[= <-]]. repeat split; auto.
    + assert (forall h, let hs := hm_remove (hm_insert (q_headers (with_absolute r false)) L5D_ORIG_PROTO h) TRANSFER_ENCODING in
        forall n, n <> L5D_ORIG_PROTO -> n <> TRANSFER_ENCODING -> get_all n hs = get_all n (q_headers r)) as K.
      { intros h hs n N1 N2. unfold hs. rewrite get_all_remove_other by congruence. rewrite get_all_insert_other by congruence. reflexivity. }
      destruct (q_version r), (q_absolute r); intros [[v H]|H]; try discriminate H; injection H as <- _;
        (split; [reflexivity|]); (split; [reflexivity|]); (split; [discriminate|]); cbn [q_headers with_headers with_version]; intros n N1 N2; apply K; assumption.
Qed.

Section Path.
Variable parse_authority : bytes -> option authority.

Lemma normalize_ok default r r' : uri_ok (q_uri r) -> normalize_uri parse_authority default r = Normalized r' -> uri_ok (q_uri r').
Proof.
  intros O. unfold normalize_uri.
  assert (forall a, match set_authority (q_uri r) a with Some u => Normalized (with_uri r u) | None => Normalize_panic end = Normalized r' -> uri_ok (q_uri r')) as K.
  { intros a. destruct (set_authority_spec (q_uri r) a O) as (u & -> & U & _). intros [= <-]. exact U. }
  destruct (q_version r); try (intros [= <-]; exact O);
    destruct (negb (q_absolute r) && _); try (intros [= <-]; exact O);
    destruct (authority_from_header parse_authority (q_headers r) HOST) as [a|]; try apply K; destruct default as [a|]; try apply K; discriminate.
Qed.

Lemma out_path v default profile over k r d : made_by v r ->
  outbound parse_authority v default profile over k r = Some d ->
  exists r1 r3 r4 r5,
    InboundModel.serve v r = Passed r1 /\ q_headers r3 = q_headers r1 /\ q_method r3 = q_method r /\ q_version r3 = q_version r /\
    q_upgrade r3 = q_upgrade r1 /\ uri_ok (q_uri r3) /\
    match profile with
    | Some a => r4 = header_from_target (CANONICAL_DST_HEADER, name_addr_to_string a) r3
    | None => r4 = r3
    end /\
    endpoint_override over r4 = Some r5 /\ d = send k r5.
Proof.
  intros ((FA & FU & FW) & O & V). unfold outbound. destruct (InboundModel.serve v r) as [|r1] eqn:S; [discriminate|].
  assert (q_method r1 = q_method r /\ q_version r1 = q_version r /\ q_uri r1 = q_uri r) as (S1 & S2 & S3).
  { destruct (serve_headers parse_authority (fun _ => false) (fun _ => []) (fun _ => true) (InboundConn None (AuthzModel.V4 0) (Sock [] 0) v None) r r1 [] S O) as (A & B & C & _); [repeat split; assumption|auto]. }
  destruct (normalize_uri parse_authority default (mark_absolute_form r1)) as [r3| |] eqn:N; try discriminate.
  destruct (mark_same r1) as (M1 & M2 & M3 & M4 & M5 & _).
  pose proof (normalize_ok default (mark_absolute_form r1) r3) as K. rewrite M3, S3 in K. specialize (K O N).
  apply normalize_same in N as (N1 & N2 & N3 & _ & N5 & _). rewrite M1 in N1. rewrite M2 in N2. rewrite M4 in N3. rewrite M5 in N5.
  intros H. destruct profile as [a|].
  - destruct (profile_route a r3) as [r4|] eqn:P; [|discriminate]. unfold profile_route in P.
    destruct (canonical_dst a) as [h|] eqn:C; [|discriminate]. apply canonical_dst_is in C. subst h. injection P as <-.
    destruct (endpoint_override over (header_from_target (CANONICAL_DST_HEADER, name_addr_to_string a) r3)) as [r5|] eqn:E; [|discriminate]. injection H as <-.
    exists r1, r3. do 2 eexists. do 5 (split; [congruence|]). split; [exact K|]. split; [reflexivity|]. split; [exact E|reflexivity].
  - destruct (endpoint_override over r3) as [r5|] eqn:E; [|discriminate]. injection H as <-.
    exists r1, r3. do 2 eexists. do 5 (split; [congruence|]). split; [exact K|]. split; [reflexivity|]. split; [exact E|reflexivity].
Qed.

Lemma asks_ext r r' : q_method r' = q_method r -> q_version r' = q_version r ->
  get_all (bs "upgrade") (q_headers r') = get_all (bs "upgrade") (q_headers r) -> asks_upgrade r -> asks_upgrade r'.
Proof.
  intros M V U A. apply wants_iff in A. apply wants_iff. rewrite <- A. unfold wants_upgrade. rewrite M, V.
  change (bs "upgrade") with UPGRADE in U. rewrite (get_ext _ _ _ U). reflexivity.
Qed.
Lemma no_connection hs n : get_all (bs "connection") hs = [] -> hop_by_hop hs n ->
  In n [bs "connection"; bs "upgrade"; bs "proxy-connection"; bs "keep-alive"].
Proof.
  intros G [H|(v & l & o & t & (pre & post & -> & _) & _)]; [exact H|].
  assert (In v (get_all (bs "connection") (pre ++ (bs "connection", v) :: post))) as I.
  { apply get_all_in. apply in_or_app. right. left. reflexivity. }
  rewrite G in I. destruct I.
Qed.

Ltac differ := let E := fresh in intros E; vm_compute in E; discriminate E.

(** What arrives with the header of the profile *)
Lemma arrives_with v default a k r d r2 c : made_by v r ->
  outbound parse_authority v default (Some a) None k r = Some d -> arrives d r2 -> fits c r2 ->
  fresh r2 /\ uri_ok (q_uri r2) /\ ~ of_connection c r2 (bs "l5d-dst-canonical") /\
  get_all (bs "l5d-dst-canonical") (q_headers r2) = [name_addr_to_string a].
Proof.
  intros M O A F. apply out_path in O as (r1 & r3 & r4 & r5 & S & H3 & M3 & V3 & U3 & K3 & -> & E & ->); [|exact M].
  injection E as <-. set (r4 := header_from_target (CANONICAL_DST_HEADER, name_addr_to_string a) r3) in *.
  assert (get_all (bs "l5d-dst-canonical") (q_headers r4) = [name_addr_to_string a]) as G4 by apply get_all_insert_same.
  assert (forall n, n <> bs "l5d-dst-canonical" -> get_all n (q_headers r4) = get_all n (q_headers r1)) as O4.
  { intros n N. unfold r4, header_from_target. cbn [q_headers with_headers fst snd]. change CANONICAL_DST_HEADER with (bs "l5d-dst-canonical").
    rewrite get_all_insert_other by congruence. rewrite H3. reflexivity. }
  inversion A as [rr v0 Ed E2|rr r2' Fr Ok Me Ve Va Ed E2]; subst r2.
  - destruct (send_same k r4 rr) as (Su & Sm & _ & Sh); [left; exists v0; auto|].
    split; [repeat split|]. split; [cbn; rewrite Su; exact K3|]. split.
    + intros (Cv & _). unfold fits in F. rewrite Cv in F. destruct F as [F|F]; discriminate F.
    + cbn [over_wire q_headers]. rewrite Sh by differ. exact G4.
  - destruct (send_same k r4 rr) as (_ & _ & Se & _); [right; auto|]. rewrite (Se (eq_sym Ed)) in *. clear Se.
    assert (forall n, n <> bs "host" -> get_all n (q_headers r2') = get_all n (q_headers r4)) as Ga.
    { intros n N. symmetry. apply values_get_all. apply (Va n _ N). apply values_get_all. reflexivity. }
    split; [exact Fr|]. split; [exact Ok|]. split.
    + intros (Cv & NA & Hop). unfold fits in F. rewrite Cv, Ve in F. change (q_version r4) with (q_version r3) in *. rewrite V3 in F.
      destruct M as ((FA & FU & FW) & Ou & Mv). destruct v; [|destruct F as [F|F]; rewrite F in Mv; discriminate Mv].
      cbn [InboundModel.serve] in S. destruct (upgrade_call_spec r Ou FU) as (_ & _ & U). destruct (U r1 S) as (U1 & U2 & _ & _ & _ & _ & U5 & U6).
      pose proof (wants_iff r) as W. destruct (wants_upgrade r).
      * assert (asks_upgrade r) as Q by (apply W; reflexivity). apply NA. apply (asks_ext r).
        -- rewrite Me. exact M3.
        -- rewrite Ve. exact V3.
        -- rewrite Ga by differ. rewrite O4 by differ. rewrite (U5 Q). reflexivity.
        -- exact Q.
      * assert (~ asks_upgrade r) as Q by (intros Q; apply W in Q; discriminate). destruct (U6 Q) as (f & E1 & Ff).
        assert (get_all (bs "connection") (q_headers r2') = []) as Gc.
        { rewrite Ga by differ. rewrite O4 by differ. rewrite E1. rewrite (get_all_filter f _ _ false); [reflexivity|].
          intros x. pose proof (Ff (bs "connection", x)) as Fx. cbn [fst] in Fx. destruct (f (bs "connection", x)); [|reflexivity].
          destruct (proj1 Fx eq_refl). left. left. reflexivity. }
        apply (no_connection _ _ Gc) in Hop. cbn [In] in Hop. repeat destruct Hop as [Hop|Hop]; try (vm_compute in Hop; discriminate Hop); exact Hop.
    + rewrite Ga by differ. exact G4.
Qed.

Variable is_ip : bytes -> bool.
Variable form_parse : bytes -> list (bytes * bytes).
Variable pq_valid : bytes -> bool.
Variable draw : nat -> bool.

Theorem agreed v default a k r d r2 tracing span1 span2 allow p limit c to v' asked r' n :
  service a -> made_by v r ->
  outbound parse_authority v default (Some a) None k r = Some d -> arrives d r2 -> fits c r2 ->
  keeps p (bs "l5d-dst-canonical") -> suffixes_ok allow ->
  inbound parse_authority is_ip form_parse pq_valid draw tracing span1 span2 allow p limit c r2 = Sent to v' asked r' ->
  (asked = Some n <-> undotted_service a n /\ allowed allow n).
Proof.
  intros Sv M O A F K Su I. destruct (arrives_with _ _ _ _ _ _ _ _ M O A F) as (Fr & Ok & NC & G).
  rewrite (sent_lookup _ _ _ _ _ _ _ _ _ _ _ _ _ _ _ _ _ n Su I).
  pose proof (other_headers _ _ _ _ _ _ _ _ _ _ _ _ _ _ _ _ _ _ [name_addr_to_string a] Fr Ok I K) as [_ R]; [unfold own_headers; cbn [In]; intros J; repeat destruct J as [J|J]; try (vm_compute in J; discriminate J); exact J|].
  specialize (R NC). assert (values (bs "l5d-dst-canonical") (q_headers r') [name_addr_to_string a]) as G'.
  { apply R. apply values_get_all. symmetry. exact G. }
  apply values_get_all in G'. rewrite (undotted_iff a n Sv). destruct (text_read a Sv) as (T1 & T2).
  assert (logical_name parse_authority is_ip r' = Some (NameAddr (without_trailing_dot (na_name a)) (na_port a))) as L.
  { unfold logical_name, get_header_str. rewrite get_hd. change CANONICAL_DST_HEADER with (bs "l5d-dst-canonical"). rewrite <- G'. cbn [hd_error]. rewrite T1, T2. reflexivity. }
  rewrite <- logical_iff, L. split; intros [X Y]; (split; [congruence|exact Y]).
Qed.

Theorem overridden v default profile o k r d rr v0 tracing span1 span2 allow p limit c to v' asked r' n :
  made_by v r ->
  outbound parse_authority v default profile (Some o) k r = Some d -> d = Over_h2 rr v0 -> fits c (over_wire rr) ->
  keeps p (bs "l5d-dst-canonical") -> keeps p (bs "host") -> suffixes_ok allow ->
  inbound parse_authority is_ip form_parse pq_valid draw tracing span1 span2 allow p limit c (over_wire rr) = Sent to v' asked r' ->
  (asked = Some n <-> named is_ip o n /\ allowed allow n).
Proof.
  intros M O Ed F K1 K2 Su I. apply out_path in O as (r1 & r3 & r4 & r5 & S & H3 & M3 & V3 & U3 & Ok3 & P & E & Ed'); [|exact M].
  assert (q_uri r4 = q_uri r3) as E4 by (destruct profile; subst r4; reflexivity).
  pose proof (override_spec [HOST; CANONICAL_DST_HEADER] (Some o) r4) as OV. rewrite E4 in OV. destruct (OV Ok3) as (u & EO & Ou & Ru).
  unfold endpoint_override in E. rewrite EO in E. injection E as <-. rewrite Ed in Ed'. symmetry in Ed'.
  destruct (send_same k _ rr (or_introl (ex_intro _ v0 Ed'))) as (Su' & _ & _ & Sh). cbn [q_uri with_uri] in Su'.
  assert (get_all (bs "host") (q_headers rr) = [] /\ get_all (bs "l5d-dst-canonical") (q_headers rr) = []) as [G1 G2].
  { split; (rewrite Sh by differ); cbn [q_headers with_uri with_headers]; unfold without; (rewrite (get_all_filter _ _ _ false); [reflexivity|]); intros x; vm_compute; reflexivity. }
  assert (fresh (over_wire rr)) as Fr by (repeat split). assert (uri_ok (q_uri (over_wire rr))) as Ok by (cbn; rewrite Su'; exact Ou).
  assert (c_variant c = PolicyModel.V_h2) as Cv.
  { unfold fits in F. destruct (c_variant c); [destruct F as [F|F]; discriminate F|reflexivity]. }
  assert (forall m, keeps p m -> ~ In m own_headers -> get_all m (q_headers (over_wire rr)) = [] -> get_all m (q_headers r') = []) as Keep.
  { intros m Km Om Gm. destruct (other_headers _ _ _ _ _ _ _ _ _ _ _ _ _ _ _ _ _ m [] Fr Ok I Km Om) as [_ R].
    symmetry. apply values_get_all. apply R; [unfold of_connection; rewrite Cv; intros ([=] & _)|]. apply values_get_all. symmetry. exact Gm. }
  assert (get_all HOST (q_headers r') = []) as Gh.
  { apply (Keep (bs "host") K2); [unfold own_headers; cbn [In]; intros J; repeat destruct J as [J|J]; try (vm_compute in J; discriminate J); exact J|exact G1]. }
  assert (get_all CANONICAL_DST_HEADER (q_headers r') = []) as Gc.
  { apply (Keep (bs "l5d-dst-canonical") K1); [unfold own_headers; cbn [In]; intros J; repeat destruct J as [J|J]; try (vm_compute in J; discriminate J); exact J|exact G2]. }
  rewrite (sent_lookup _ _ _ _ _ _ _ _ _ _ _ _ _ _ _ _ _ n Su I).
  assert (u_auth (q_uri r') = Some o) as Ua.
  { apply sent_path in I as (s1 & hs0 & s3 & hs1 & hs2 & e0 & e1 & S' & _ & N & _ & _ & _ & _ & _ & ->).
    apply (before_same parse_authority is_ip form_parse pq_valid _ _ _ _ _ S' Ok Fr) in N as (_ & _ & _ & N). cbn [q_uri with_headers]. destruct Ru as (Ru & _).
    rewrite N; cbn [over_wire q_uri]; rewrite Su', Ru; [reflexivity|discriminate]. }
  rewrite <- logical_iff, <- authority_name_iff. unfold logical_name, get_header_str, authority_from_header. rewrite !get_hd, Gh, Gc, Ua. cbn [hd_error].
  destruct (authority_name is_ip o); tauto.
Qed.
End Path.
