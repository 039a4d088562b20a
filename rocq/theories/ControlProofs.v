From Coq Require Import String List NArith ZArith Bool Lia.
From Verif Require Import Bytes NameModel NameSpec NameProofs BytesProofs EndpointModel FilterModel Http1Model Http1Spec DnsModel MtlsModel MtlsSpec MtlsProofs ControlModel ControlSpec.
From Verif Require EnvModel GatewaySpec GatewayProofs.
Import ListNotations.
Open Scope N_scope.

Lemma loopback_sock s : EnvModel.is_loopback (Socket s) = true -> loopback (s_ip s).
Proof.
  destruct s as [ip port]. unfold EnvModel.is_loopback. cbn [s_ip].
  assert (B : beq ip (repeat 0 15 ++ [1]) = true -> loopback ip) by (intros H; right; apply beq_eq in H; exact H).
  destruct ip as [|a [|b [|c [|d [|x ip]]]]]; try exact B.
  intros H. apply N.eqb_eq in H. subst a. left. now exists b, c, d.
Qed.
Lemma control_addr_cases s6 e base c : EnvModel.parse_control_addr s6 e base = inl (Some c) ->
  (EnvModel.is_loopback (EnvModel.ca_addr c) = true /\ EnvModel.ca_identity c = None) \/
  (EnvModel.is_loopback (EnvModel.ca_addr c) = false /\ exists n, EnvModel.ca_identity c = Some n /\ names e base n).
Proof.
  unfold EnvModel.parse_control_addr, EnvModel.parse, EnvModel.get, EnvModel.parse_dns_name. intros H.
  remember (e (base ++ bs "_NAME"%string)) as en eqn:En. symmetry in En. remember (e (base ++ bs "_ADDR"%string)) as ea eqn:Ea. clear Ea.
  destruct ea as [[a|]|]; cbn in H; [|destruct en as [[n|]|]; cbn in H; [destruct (name_from_str n)| |]; discriminate H|discriminate H].
  destruct (EnvModel.parse_addr s6 a) as [a'|]; cbn in H; [|discriminate H].
  destruct en as [[n|]|]; cbn in H; [destruct (name_from_str n) as [n'|] eqn:P; cbn in H; [|discriminate H]| |discriminate H];
    destruct (EnvModel.is_loopback a') eqn:Lo; cbn in H; try discriminate H; injection H as <-;
    cbn [EnvModel.ca_addr EnvModel.ca_identity]; try (left; split; [exact Lo|reflexivity]).
  right. split; [exact Lo|]. exists n'. split; [reflexivity|]. exists n. split; [exact En|]. now apply name_from_str_spec.
Qed.
Lemma identity_none c : identity_of c = None <-> EnvModel.ca_identity c = None.
Proof. unfold identity_of. destruct (EnvModel.ca_identity c); split; congruence. Qed.
Lemma loopback_targets c answers : EnvModel.is_loopback (EnvModel.ca_addr c) = true -> forall t, In t (targets c answers) -> loopback (s_ip (g_addr t)).
Proof.
  intros Lo t. unfold targets, dns_resolve. destruct (EnvModel.ca_addr c) as [na|s].
  - change (is_localhost (na_name na) = true) in Lo. rewrite Lo. cbn. intros [<-|[]]. left. now exists 0, 0, 1.
  - cbn. intros [<-|[]]. exact (loopback_sock s Lo).
Qed.

Theorem plaintext_local s6 L e base c answers t p now a : EnvModel.parse_control_addr s6 e base = inl (Some c) ->
  In t (targets c answers) -> connect L t p now = Some (a, Plaintext) -> a = g_addr t /\ loopback (s_ip a).
Proof.
  intros C I H. unfold connect in H. destruct (client_connect L (g_tls t) p now) as [k|] eqn:K; [|discriminate].
  injection H as <- ->. split; [reflexivity|]. apply plaintext_iff in K.
  assert (T : g_tls t = identity_of c).
  { unfold targets in I. apply in_map_iff in I. destruct I as (x & <- & _). reflexivity. }
  rewrite T in K. apply identity_none in K.
  destruct (control_addr_cases s6 e base c C) as [[Lo _]|(_ & n & N & _)]; [|congruence].
  exact (loopback_targets c answers Lo t I).
Qed.
Theorem encrypted_authenticated s6 L e base c answers t p now a alpn : EnvModel.parse_control_addr s6 e base = inl (Some c) ->
  In t (targets c answers) -> connect L t p now = Some (a, Encrypted alpn) ->
  a = g_addr t /\ exists n, names e base n /\ is_server L p now n.
Proof.
  intros C I H. unfold connect in H. destruct (client_connect L (g_tls t) p now) as [k|] eqn:K; [|discriminate].
  injection H as <- ->. split; [reflexivity|].
  assert (T : g_tls t = identity_of c).
  { unfold targets in I. apply in_map_iff in I. destruct I as (x & <- & _). reflexivity. }
  rewrite T in K. unfold identity_of in K.
  destruct (control_addr_cases s6 e base c C) as [[_ N]|(_ & n & N & M)]; rewrite N in K; [discriminate K|].
  exists n. split; [exact M|]. apply client_iff in K. destruct K as [_ (leaf & P & Q)]. exists leaf. auto.
Qed.
Theorem connects_iff s6 L e base c answers t p now : EnvModel.parse_control_addr s6 e base = inl (Some c) ->
  EnvModel.is_loopback (EnvModel.ca_addr c) = false -> In t (targets c answers) ->
  forall n, names e base n ->
  ((exists x, connect L t p now = Some x) <-> is_server L p now n) /\ (forall a, connect L t p now <> Some (a, Plaintext)) /\
  exists x, g_tls t = Some x /\ t_name x = n.
Proof.
  intros C Lo I n (s & E1 & D & ->).
  assert (T : g_tls t = identity_of c).
  { unfold targets in I. apply in_map_iff in I. destruct I as (x & <- & _). reflexivity. }
  destruct (control_addr_cases s6 e base c C) as [[Lo' _]|(_ & n & N & (s' & E2 & D' & ->))]; [congruence|].
  rewrite E1 in E2. injection E2 as <-. unfold identity_of in T. rewrite N in T. unfold connect. rewrite T. repeat split.
  - intros [x H]. destruct (client_connect L (Some (ClientTls (Dns (lowers s)) (lowers s) None)) p now) as [k|] eqn:K; [|discriminate].
    apply client_iff in K. destruct K as [_ (leaf & P & Q)]. exists leaf. auto.
  - intros (leaf & P & Q).
    rewrite (proj2 (client_iff L (ClientTls (Dns (lowers s)) (lowers s) None) p now (Encrypted (p_alpn p)))); [eexists; reflexivity|].
    split; [reflexivity|]. exists leaf. auto.
  - intros a H. destruct (client_connect L (Some (ClientTls (Dns (lowers s)) (lowers s) None)) p now) as [k|] eqn:K; [|discriminate].
    injection H as _ ->. apply plaintext_iff in K. discriminate K.
  - eexists. split; reflexivity.
Qed.
Theorem only_where_told c answers t : In t (targets c answers) ->
  match EnvModel.ca_addr c with
  | Socket s => g_addr t = s
  | Name na => In (g_addr t) (concat answers) \/ is_localhost (na_name na) = true /\ g_addr t = Sock [127; 0; 0; 1] (na_port na)
  end.
Proof.
  unfold targets, dns_resolve. destruct (EnvModel.ca_addr c) as [na|s].
  - destruct (is_localhost (na_name na)) eqn:Lh; cbn.
    + intros [<-|[]]. right. auto.
    + rewrite in_map_iff. intros (x & <- & I). now left.
  - cbn. intros [<-|[]]. reflexivity.
Qed.
Theorem dotted_never L p now n : (exists m, n = m ++ [dot]) -> ~ is_server L p now n.
Proof.
  intros [m ->] (leaf & _ & (ns & g & _ & _ & Sa)). remember (Dns (m ++ [dot])) as i eqn:I.
  destruct Sa as [s n D Nd E|]; [|discriminate I]. injection I as ->. rename E into H.
  destruct (exists_last (l := s)) as (s' & x & ->).
  { intros ->. destruct m; discriminate H. }
  rewrite lowers_app in H. cbn [lowers map] in H. apply app_inj_tail in H. destruct H as [_ H].
  apply (Nd s'). f_equal. f_equal. revert H. unfold lower, dot. destruct (_ && _) eqn:Q; [|congruence].
  apply andb_true_iff in Q. rewrite !N.leb_le in Q. intros H. lia.
Qed.
Theorem origin_iff a u : uri_ok u ->
  (~ authority_uri u -> exists u', add_origin a u = Some u' /\ sent_to u a u') /\ (authority_uri u -> add_origin a u = None).
Proof.
  intros O. unfold add_origin, into_parts, from_parts, sent_to, has_path_and_query, authority_uri. cbn [p_path_and_query p_scheme p_authority].
  destruct u as [s au p q]. cbn [u_scheme u_auth u_path u_query].
  destruct O as [[H1 H2]|[(H1 & H2 & H3 & H4)|[H1 H2]]]; cbn in *.
  - destruct s as [s|]; [|destruct H1; reflexivity]. split; [|intros ([=] & _)]. intros _. eexists. split; [reflexivity|]. repeat split.
  - subst. destruct au as [au|]; [|destruct H2; reflexivity]. split; [intros H; destruct H; repeat split; discriminate|reflexivity].
  - subst. split; [|intros (_ & H & _); destruct H; reflexivity]. intros _. eexists. split; [reflexivity|]. repeat split.
Qed.
Theorem authority_said show_ip show_sock a : (forall na, a = Name na -> dns_name (na_name na)) ->
  written show_ip show_sock a (to_http_authority show_ip show_sock a).
Proof.
  intros D. destruct a as [na|s].
  - exact (GatewayProofs.authority_written na (D na eq_refl)).
  - cbn [written to_http_authority]. destruct (s_port s =? 80) eqn:P; [apply N.eqb_eq in P; right|apply N.eqb_neq in P; left; auto].
    destruct (N.of_nat (List.length (s_ip s)) =? 4) eqn:Q; [apply N.eqb_eq in Q; left|apply N.eqb_neq in Q; right]; (split; [exact P|]); (split; [lia|reflexivity]).
Qed.

Definition a_dotted : EnvModel.strings := fun k =>
  if beq k (bs "_ADDR"%string) then Some (Some (bs "10.0.0.1:80"%string)) else if beq k (bs "_NAME"%string) then Some (Some (bs "foo."%string)) else Some None.
Theorem reachable_refuted : ~ forall s6 e base c, EnvModel.parse_control_addr s6 e base = inl (Some c) ->
  exists L answers t p now x, In t (targets c answers) /\ connect L t p now = Some x.
Proof.
  intros H.
  assert (C : EnvModel.parse_control_addr (fun _ => None) a_dotted [] = inl (Some (EnvModel.ControlAddr (Socket (Sock [10; 0; 0; 1] 80)) (Some (bs "foo."%string))))) by (vm_compute; reflexivity).
  destruct (H _ _ _ _ C) as (L & answers & t & p & now & x & I & X).
  assert (N : names a_dotted [] (bs "foo."%string)).
  { exists (bs "foo."%string). split; [reflexivity|]. apply name_from_str_spec. vm_compute. reflexivity. }
  destruct (connects_iff _ L _ _ _ answers t p now C eq_refl I _ N) as [A _].
  apply (dotted_never L p now (bs "foo."%string)); [exists (bs "foo"%string); reflexivity|]. apply A. now exists x.
Qed.
Theorem queue_refuted : ~ exists a i o, queue_of (EnvModel.control_for a i o) = EnvModel.ct_queue (EnvModel.control_for a i o).
Proof. intros (a & i & o & H). unfold queue_of, EnvModel.control_for in H. cbn [EnvModel.ct_queue] in H. injection H as H _. discriminate H. Qed.
