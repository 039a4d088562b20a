(** Proofs of C57, C58 and C59 *)
From Coq Require Import List NArith Bool Lia ZifyBool ZifyN.
From Verif Require Import Bytes BytesProofs NameModel NameSpec NameProofs IoModel IoSpec TransportModel TransportSpec TransportProofs
  FilterModel TraceModel EndpointModel EndpointSpec EndpointProofs ConnectModel ConnectSpec.
Import ListNotations.
Open Scope N_scope.

Section Connect.
Variable host : bytes -> bytes.
Variable port_u16 : bytes -> option N.
Notation tagged := (tagged_transport host port_u16).

Lemma tagged_tls e p : a_tls (tagged e p) = conditional_tls e.
Proof.
  unfold tagged_transport. destruct (conditional_tls e) as [t|r]; [|reflexivity].
  destruct (authority_override e) as [au|]; [destruct (port_u16 au)|]; reflexivity.
Qed.

Lemma plaintext e p r :
  a_tls (tagged e p) = inr r <->
  (e_local e = true /\ r = Loopback) \/ (e_local e = false /\ m_tls (e_meta e) = None /\ r = Not_provided).
Proof.
  rewrite tagged_tls. unfold conditional_tls. destruct (e_local e).
  - split; [intros [= <-]; left; split; reflexivity|]. intros [[_ ->]|([=] & _)]. reflexivity.
  - destruct (m_tls (e_meta e)) as [t|].
    + split; [discriminate|]. intros [([=] & _)|(_ & [=] & _)].
    + split; [intros [= <-]; right; repeat split|]. intros [([=] & _)|(_ & _ & ->)]. reflexivity.
Qed.

Lemma plaintext_direct e p r :
  a_tls (tagged e p) = inr r -> a_addr (tagged e p) = e_addr e /\ forall np, a_header (tagged e p) np = None.
Proof.
  rewrite tagged_tls. unfold tagged_transport. intros ->. split; reflexivity.
Qed.

Lemma with_tls e p t :
  a_tls (tagged e p) = inl t <->
  e_local e = false /\ exists t0, m_tls (e_meta e) = Some t0 /\ t_id t = t_id t0 /\ t_name t = t_name t0 /\
    ((needs_header (e_meta e) /\ t_alpn t = Some [header_protocol]) \/ (~ needs_header (e_meta e) /\ t_alpn t = None)).
Proof.
  rewrite tagged_tls. unfold conditional_tls, needs_header. change header_protocol with PROTOCOL. destruct (e_local e); [split; [discriminate|intros [[=] _]]|].
  destruct (m_tls (e_meta e)) as [t0|]; [|split; [discriminate|intros (_ & ? & [=] & _)]].
  destruct t as [i n al]. cbn [t_id t_name t_alpn].
  destruct (m_port (e_meta e)) as [q|], (m_authority (e_meta e)) as [au|]; cbn [orb].
  all: split;
    [intros [= <- <- <-]; split; [reflexivity|]; exists t0; split; [reflexivity|split; [reflexivity|split; [reflexivity|]]];
     first [ left; split; [first [left; discriminate|right; discriminate]|reflexivity]
           | right; split; [intros [X|X]; apply X; reflexivity|reflexivity] ]
    |intros (_ & ? & [= <-] & -> & -> & [[H ->]|[H ->]])].
  all: try reflexivity.
  all: first [ exfalso; apply H; first [left; discriminate|right; discriminate]
             | exfalso; destruct H as [H|H]; apply H; reflexivity ].
Qed.

Lemma tagged_addr e p :
  s_ip (a_addr (tagged e p)) = s_ip (e_addr e) /\
  forall n, s_port (a_addr (tagged e p)) = n <->
    (exists t, a_tls (tagged e p) = inl t) /\ m_port (e_meta e) = Some n \/
    ((forall t, a_tls (tagged e p) <> inl t) \/ m_port (e_meta e) = None) /\ s_port (e_addr e) = n.
Proof.
  rewrite tagged_tls.
  assert (a_addr (tagged e p) = match conditional_tls e with
                                | inl _ => Sock (s_ip (e_addr e)) (match port_override e with Some q => q | None => s_port (e_addr e) end)
                                | inr _ => e_addr e end) as ->.
  { unfold tagged_transport. destruct (conditional_tls e); [|reflexivity].
    destruct (authority_override e) as [au|]; [destruct (port_u16 au)|]; reflexivity. }
  destruct (conditional_tls e) as [t|r] eqn:C.
  - cbn [s_ip s_port]. split; [reflexivity|]. intros n. unfold port_override.
    assert (e_local e = false) as -> by (unfold conditional_tls in C; destruct (e_local e); [discriminate|reflexivity]).
    destruct (m_port (e_meta e)) as [q|]; split.
    + intros <-. left. split; [exists t; reflexivity|reflexivity].
    + intros [[_ [= <-]]|[[H|[=]] _]]; [reflexivity|]. destruct (H t). reflexivity.
    + intros <-. right. split; [right; reflexivity|reflexivity].
    + intros [[_ [=]]|[_ H]]. exact H.
  - split; [reflexivity|]. intros n. split.
    + intros <-. right. split; [left; discriminate|reflexivity].
    + intros [[[? [=]] _]|[_ H]]. exact H.
Qed.

Lemma tagged_header e p np h :
  a_header (tagged e p) np = Some h <->
  (exists t, a_tls (tagged e p) = inl t) /\ np = Some header_protocol /\ h_protocol h = p /\
  header_for host port_u16 (e_addr e) (e_meta e) h.
Proof.
  rewrite tagged_tls. change header_protocol with PROTOCOL. unfold tagged_transport, header_for.
  destruct (conditional_tls e) as [t|r] eqn:C; [|split; [discriminate|intros ((? & [=]) & _)]].
  assert (e_local e = false) as LF by (unfold conditional_tls in C; destruct (e_local e); [discriminate|reflexivity]).
  unfold authority_override. rewrite LF.
  set (np_ok := match np with Some q => beq q PROTOCOL | None => false end).
  assert (np_ok = true <-> np = Some PROTOCOL) as NP.
  { unfold np_ok. destruct np as [q|]; [|split; discriminate]. rewrite beq_eq. split; [intros ->; reflexivity|intros [= ->]; reflexivity]. }
  assert (forall x, match np with Some q => if beq q PROTOCOL then Some x else None | None => None end = if np_ok then Some x else @None header) as R.
  { intros x. unfold np_ok. destruct np; reflexivity. }
  destruct h as [hp hn hs]. cbn [h_port h_name h_protocol].
  assert (forall n tp, (a_header (Attempt (Sock (s_ip (e_addr e)) (match port_override e with Some q => q | None => s_port (e_addr e) end)) (inl t)
      (fun np0 => match np0 with Some p0 => if beq p0 PROTOCOL then Some (Header tp n p) else None | None => None end)) np = Some (Header hp hn hs)
      <-> np = Some PROTOCOL /\ hs = p /\ hp = tp /\ hn = n)) as G.
  { intros n tp. cbn [a_header]. rewrite R. rewrite <- NP. destruct np_ok.
    - split; [intros [= <- <- <-]; repeat split|intros (_ & -> & -> & ->); reflexivity].
    - split; [discriminate|intros ([=] & _)]. }
  destruct (m_authority (e_meta e)) as [au|]; [destruct (port_u16 au) as [q|] eqn:Q|]; rewrite G.
  - split.
    + intros (-> & -> & -> & ->). split; [exists t; reflexivity|split; [reflexivity|split; [reflexivity|left]]].
      exists au, q. split; [reflexivity|split; [exact Q|split; [reflexivity|]]]. intros n. apply name_from_str_spec.
    + intros (_ & -> & -> & [(au' & q' & [= <-] & Q' & -> & N0)|(H & _)]); [|specialize (H au eq_refl); congruence].
      split; [reflexivity|split; [reflexivity|split; [congruence|]]]. apply opt_ext. intros n. rewrite N0. symmetry. apply name_from_str_spec.
  - split.
    + intros (-> & -> & -> & ->). split; [exists t; reflexivity|split; [reflexivity|split; [reflexivity|right]]].
      split; [intros au' [= <-]; exact Q|split; reflexivity].
    + intros (_ & -> & -> & [(au' & q' & [= <-] & Q' & _)|(_ & -> & ->)]); [congruence|]. repeat split.
  - split.
    + intros (-> & -> & -> & ->). split; [exists t; reflexivity|split; [reflexivity|split; [reflexivity|right]]].
      split; [intros au' [=]|split; reflexivity].
    + intros (_ & -> & -> & [(au' & q' & [=] & _)|(_ & -> & ->)]). repeat split.
Qed.

Lemma contains_in ips ip : contains ips ip = true <-> In ip ips.
Proof.
  unfold contains. rewrite existsb_exists. split.
  - intros (x & J & E). apply beq_eq in E. subst x. exact J.
  - intros J. exists ip. split; [exact J|apply beq_refl].
Qed.

(** An endpoint that was announced with an identity is never connected to without. *)
Lemma discovered parse_url parse_authority to_duration h a m labels w pb t ips p :
  Forall update_ok h ->
  known (updates parse_url parse_authority to_duration h) a = Some m ->
  announces h a labels w -> w_tls w = Some pb -> identifies parse_url pb t -> ~ In (s_ip a) ips ->
  exists t', a_tls (tagged (new_endpoint ips a m) p) = inl t' /\ t_id t' = t_id t /\ t_name t' = t_name t.
Proof.
  intros O K (before & addrs & after & -> & NM & pre & post & -> & A & NP) W I NL.
  apply history in K; [|exact O].
  destruct K as (before' & addrs' & labels' & after' & E & NM' & pre' & w' & post' & -> & A' & NP' & D).
  assert (before = before' /\ after = after' /\ Pb_add (pre ++ w :: post) labels = Pb_add (pre' ++ w' :: post') labels') as (<- & <- & E2).
  { assert (mentions (Some (Pb_add (pre ++ w :: post) labels)) a) as M1 by (exists w; split; [apply in_elt|exact A]).
    assert (mentions (Some (Pb_add (pre' ++ w' :: post') labels')) a) as M2 by (exists w'; split; [apply in_elt|exact A']).
    revert E NM NM' M1 M2. generalize (Pb_add (pre ++ w :: post) labels) (Pb_add (pre' ++ w' :: post') labels'). clear.
    intros x y E NM NM' M1 M2. apply app_eq_app in E as (l & [[-> E]|[-> E]]).
    - destruct l as [|z l]; [injection E as E0 E1; subst; rewrite app_nil_r; repeat split|]. injection E as E0 E1; subst.
      exfalso. apply (NM' (Some x)); [apply in_elt|exact M1].
    - destruct l as [|z l]; [injection E as E0 E1; subst; rewrite app_nil_r; repeat split|]. injection E as E0 E1; subst.
      exfalso. apply (NM (Some y)); [apply in_elt|exact M2]. }
  injection E2 as E2 <-.
  assert (w = w') as <-.
  { revert E2 NP NP' A A'. clear. intros E NP NP' A A'. apply app_eq_app in E as (l & [[-> E]|[-> E]]).
    - destruct l as [|z l]; [injection E as E0 _; congruence|]. injection E as E0 E1; subst. exfalso. apply (NP' w); [apply in_elt|exact A].
    - destruct l as [|z l]; [injection E as E0 _; congruence|]. injection E as E0 E1; subst. exfalso. apply (NP w'); [apply in_elt|exact A']. }
  assert (m_tls m = Some t) as T by (apply (d_tls _ _ _ _ _ _ D); exists pb; split; [exact W|exact I]).
  rewrite tagged_tls. unfold conditional_tls, new_endpoint. cbn [e_local e_meta].
  assert (contains ips (s_ip a) = false) as -> by (destruct (contains ips (s_ip a)) eqn:C; [apply contains_in in C; contradiction|reflexivity]).
  rewrite T. eexists. split; [reflexivity|]. split; reflexivity.
Qed.
End Connect.

Lemma client_spec v e :
  (client_params v e = Client_h2 <-> v = V2) /\
  (client_params v e = Client_upgrade <-> v = V1 /\ e_local e = false /\ m_hint (e_meta e) = EndpointModel.Http2).
Proof.
  unfold client_params. destruct v, (e_local e), (m_hint (e_meta e)); split; split; intros H; try discriminate H; try reflexivity; try (destruct H as (? & ? & ?); discriminate); repeat split.
Qed.

Lemma session_spec v e :
  (session_protocol v e = None <-> m_hint (e_meta e) = Opaque) /\
  (m_hint (e_meta e) <> Opaque -> (session_protocol v e = Some TransportModel.Http2 <-> v = V2)).
Proof.
  unfold session_protocol. destruct v, (m_hint (e_meta e)); (split; [split; intros H; try discriminate H; reflexivity|]);
    intros Ne; try (destruct Ne; reflexivity); split; intros H; try discriminate H; reflexivity.
Qed.

(** ** Required identities *)

Section Require.
Variable parse_url : bytes -> option bytes.
Notation require_identity := (require_identity parse_url).

Lemma id_from_str_iff s i : id_from_str parse_url s = Some i <-> means parse_url s i.
Proof.
  unfold id_from_str, means, parse_uri_id. destruct (parse_dns_id s) as [i0|] eqn:E.
  - apply parse_dns_id_iff in E as (V & Nd & ->). split.
    + intros [= <-]. left. split; [split; [exact V|exact Nd]|reflexivity].
    + intros [[_ ->]|[ND _]]; [reflexivity|]. destruct ND. split; assumption.
  - assert (~ (dns_name s /\ forall r, s <> r ++ [dot])) as ND.
    { intros [V Nd]. assert (parse_dns_id s = Some (Dns (lowers s))) by (apply parse_dns_id_iff; split; [exact V|split; [exact Nd|reflexivity]]). congruence. }
    destruct (parse_url s) as [u|]; split.
    + intros [= <-]. right. split; [exact ND|]. exists u. split; reflexivity.
    + intros [[H _]|[_ (u' & [= <-] & ->)]]; [contradiction|reflexivity].
    + discriminate.
    + intros [[H _]|[_ (u' & [=] & _)]]. contradiction.
Qed.

Lemma hm_get_first hs v : hm_get hs HEADER_NAME = Some v <-> first_value hs v.
Proof.
  unfold hm_get, first_value. change require_id with HEADER_NAME. induction hs as [|[k x] hs IH]; cbn [find fst].
  - split; [discriminate|]. intros (pre & post & E & _). destruct pre; discriminate.
  - destruct (beq k HEADER_NAME) eqn:B.
    + apply beq_eq in B. subst k. split.
      * intros [= <-]. exists [], hs. split; [reflexivity|intros []].
      * intros ([|[k0 x0] pre] & post & [=] & N0); [subst; reflexivity|]. destruct N0. left. cbn. congruence.
    + rewrite IH. apply beq_neq in B. split.
      * intros (pre & post & -> & N0). exists ((k, x) :: pre), post. split; [reflexivity|]. cbn. intros [H|H]; [exact (B H)|exact (N0 H)].
      * intros ([|[k0 x0] pre] & post & [=] & N0); [congruence|]. exists pre, post. split; [assumption|]. intros H. apply N0. right. exact H.
Qed.
Lemma hm_get_none hs : hm_get hs HEADER_NAME = None <-> ~ In require_id (map fst hs).
Proof.
  unfold hm_get. change require_id with HEADER_NAME. induction hs as [|[k x] hs IH]; cbn [find fst map In].
  - split; [intros _ []|reflexivity].
  - destruct (beq k HEADER_NAME) eqn:B.
    + apply beq_eq in B. subst k. split; [discriminate|]. intros H. destruct H. left. reflexivity.
    + rewrite IH. apply beq_neq in B. tauto.
Qed.

Lemma to_str_text v s : to_str v = Some s <-> s = v /\ text v.
Proof.
  unfold to_str, text. destruct (forallb _ v) eqn:F.
  - rewrite forallb_forall in F. split; [intros [= <-]; split; [reflexivity|]|intros [-> _]; reflexivity].
    apply Forall_forall. intros b J. specialize (F b J). lia.
  - split; [discriminate|]. intros [_ T]. rewrite Forall_forall in T.
    assert (forallb (fun b => ((32 <=? b) && (b <? 127)) || (b =? 9)) v = true) as C
      by (apply forallb_forall; intros b J; specialize (T b J); lia). congruence.
Qed.

Lemma id_eqb_eq a b : id_eqb a b = true <-> a = b.
Proof.
  destruct a, b; cbn [id_eqb]; try (split; discriminate); rewrite beq_eq; (split; [intros ->; reflexivity|intros [= ->]; reflexivity]).
Qed.

Lemma extract_spec hs :
  snd (extract_id parse_url hs) = filter (fun h => negb (beq (fst h) require_id)) hs /\
  forall i, fst (extract_id parse_url hs) = Some i <-> exists v, first_value hs v /\ text v /\ means parse_url v i.
Proof.
  unfold extract_id. destruct (hm_get hs HEADER_NAME) as [v|] eqn:G.
  - cbn [fst snd]. split; [reflexivity|]. intros i. apply hm_get_first in G.
    assert (forall v', first_value hs v' -> v' = v) as U.
    { intros v' H. apply hm_get_first in G, H. congruence. }
    destruct (to_str v) as [s|] eqn:T.
    + apply to_str_text in T as [-> T]. rewrite id_from_str_iff. split; [intros M; exists v; split; [eassumption|split; assumption]|].
      intros (v' & F & _ & M). rewrite (U v' F) in M. exact M.
    + split; [discriminate|]. intros (v' & F & T' & _). rewrite (U v' F) in T'.
      assert (to_str v = Some v) by (apply to_str_text; split; [reflexivity|exact T']). congruence.
  - cbn [fst snd]. pose proof (proj1 (hm_get_none hs) G) as N0. split.
    + symmetry. assert (forall l : headers, ~ In require_id (map fst l) -> filter (fun h => negb (beq (fst h) require_id)) l = l) as FA.
      { clear. induction l as [|[k x] l IH]; intros H; [reflexivity|]. cbn [filter fst].
        destruct (beq k require_id) eqn:B; [apply beq_eq in B; subst k; destruct H; left; reflexivity|].
        cbn [negb]. f_equal. apply IH. intros J. apply H. right. exact J. }
      apply FA. exact N0.
    + intros i. split; [discriminate|]. intros (v & (pre & post & -> & _) & _). destruct N0. rewrite map_app. apply in_elt.
Qed.

Lemma require_enforced tls hs v i :
  first_value hs v -> text v -> means parse_url v i ->
  ((exists hs', require_identity tls hs = Forwarded hs') <-> exists t, tls = inl t /\ t_id t = i).
Proof.
  intros F T M. pose proof (extract_spec hs) as [_ X]. unfold ConnectModel.require_identity.
  destruct (extract_id parse_url hs) as [o hs1]. cbn [fst] in X. rewrite (proj2 (X i)) by (exists v; split; [eassumption|split; assumption]).
  destruct tls as [t|r].
  - destruct (id_eqb i (t_id t)) eqn:E; cbn [negb].
    + apply id_eqb_eq in E. subst i. split; [intros _; exists t; split; reflexivity|intros _; exists hs1; reflexivity].
    + split; [intros [? [=]]|]. intros (t' & [= <-] & E'). exfalso. symmetry in E'. apply id_eqb_eq in E'. congruence.
  - split; [intros [? [=]]|intros (? & [=] & _)].
Qed.

Lemma require_refused tls hs i found :
  require_identity tls hs = Identity_required i found ->
  (exists v, first_value hs v /\ text v /\ means parse_url v i) /\
  match found with
  | Some f => f <> i /\ exists t, tls = inl t /\ t_id t = f
  | None => exists r, tls = inr r
  end.
Proof.
  pose proof (extract_spec hs) as [_ X]. unfold ConnectModel.require_identity.
  destruct (extract_id parse_url hs) as [[o|] hs1]; [|discriminate]. cbn [fst] in X. destruct tls as [t|r].
  - destruct (id_eqb o (t_id t)) eqn:E; cbn [negb]; [discriminate|]. intros [= <- <-]. split; [apply X; reflexivity|].
    split; [|exists t; split; reflexivity]. intros Q. symmetry in Q. apply id_eqb_eq in Q. congruence.
  - intros [= <- <-]. split; [apply X; reflexivity|]. exists r. reflexivity.
Qed.

Lemma require_stripped tls hs hs' :
  require_identity tls hs = Forwarded hs' -> hs' = filter (fun h => negb (beq (fst h) require_id)) hs.
Proof.
  pose proof (extract_spec hs) as [X _]. unfold ConnectModel.require_identity.
  destruct (extract_id parse_url hs) as [[o|] hs1]; cbn [snd] in X; subst hs1.
  - destruct tls as [t|r]; [|discriminate]. destruct (negb _); [discriminate|]. intros [= <-]. reflexivity.
  - intros [= <-]. reflexivity.
Qed.

Lemma require_absent tls hs : ~ In require_id (map fst hs) -> require_identity tls hs = Forwarded hs.
Proof.
  intros N0. unfold ConnectModel.require_identity, extract_id. rewrite (proj2 (hm_get_none hs) N0). reflexivity.
Qed.
End Require.

(** ** Direct connections *)

Lemma direct_served tls remote local h :
  is_served (direct tls remote local h) <->
  exists c, tls = Some (Established (Some c) (Some header_protocol)).
Proof.
  change header_protocol with PROTOCOL. unfold direct, client_info_of, header_negotiated, is_served.
  destruct tls as [[[c|] np|sni]|]; try (split; [intros [H _]; destruct H; reflexivity|intros (? & [=])]).
  cbn [c_alpn]. destruct np as [q|].
  - destruct (beq q PROTOCOL) eqn:B.
    + apply beq_eq in B. subst q. split; [intros _; exists c; reflexivity|]. intros _. unfold switch.
      destruct (h_name h); [split; discriminate|]. destruct (h_protocol h); split; discriminate.
    + split; [intros [_ H]; destruct H; reflexivity|]. intros (? & [= <- ->]). rewrite beq_refl in B. discriminate.
  - split; [intros [_ H]; destruct H; reflexivity|]. intros (? & [=]).
Qed.

Lemma direct_policy tls remote local h :
  is_served (direct tls remote local h) ->
  (exists c, tls = Some (Established (Some c) (Some header_protocol)) /\ served_as (direct tls remote local h) c) /\
  match h_name h with
  | None => let a := Sock (s_ip local) (h_port h) in goes_to (direct tls remote local h) a /\ checked (direct tls remote local h) a
  | Some n => (exists c, direct tls remote local h = Gateway n (h_port h) c (h_protocol h) local) /\ checked (direct tls remote local h) local
  end.
Proof.
  intros S0. apply direct_served in S0 as [c ->]. change header_protocol with PROTOCOL.
  assert (direct (Some (Established (Some c) (Some PROTOCOL))) remote local h = switch h (ClientInfo c (Some PROTOCOL) remote local)) as ->.
  { unfold direct, client_info_of, header_negotiated. cbn [c_alpn]. rewrite beq_refl. reflexivity. }
  unfold switch. cbn [c_local c_id]. split.
  - exists c. split; [reflexivity|]. destruct (h_name h); [reflexivity|]. destruct (h_protocol h); reflexivity.
  - destruct (h_name h) as [n|]; [split; [exists c; reflexivity|reflexivity]|]. destruct (h_protocol h); split; reflexivity.
Qed.

(** From one proxy to the other *)
Lemma end_to_end host port_u16 utf8 e p hdr payload i sizes c remote :
  utf8_accepts_ascii utf8 ->
  a_header (tagged_transport host port_u16 e p) (Some header_protocol) = Some hdr ->
  1 <= h_port hdr <= 65535 ->
  contents i = encode_prefaced hdr ++ payload -> (length (contents i) < length sizes)%nat ->
  let local := a_addr (tagged_transport host port_u16 e p) in
  exists h i', serve utf8 i sizes = Next h i' /\ contents i' = payload /\
    let s := direct (Some (Established (Some c) (Some header_protocol))) remote local h in
    served_as s c /\
    match m_authority (e_meta e) with
    | None => goes_to s (e_addr e) /\ checked s (e_addr e)
    | Some au =>
        forall q, port_u16 au = Some q -> dns_name (host au) ->
        (exists c', s = Gateway (lowers (host au)) q c' p local) /\ checked s local
    end.
Proof.
  intros U H P C L local. pose proof (proj1 (tagged_header _ _ _ _ _ _) H) as ((t & T) & _ & HP & HF).
  assert (sendable hdr) as SN.
  { split; [exact P|]. destruct (h_name hdr) as [n|] eqn:E; [|exact Logic.I].
    destruct HF as [(au & q & _ & _ & _ & N0)|(_ & _ & N0)]; [|congruence]. exists (host au). apply name_from_str_spec. apply N0. exact E. }
  destruct (serve_round_trip_complete utf8 hdr payload i sizes U SN C L) as (i' & S1 & C').
  exists hdr, i'. split; [exact S1|split; [exact C'|]]. cbv zeta.
  assert (is_served (direct (Some (Established (Some c) (Some header_protocol))) remote local hdr)) as SV
    by (apply direct_served; exists c; reflexivity).
  apply direct_policy in SV as [(c' & [= <-] & SA) SP]. split; [exact SA|].
  destruct (m_authority (e_meta e)) as [au|] eqn:A.
  - intros q Q V. destruct HF as [(au' & q' & E1 & Q' & HQ & N0)|(N0 & _)].
    + rewrite A in E1. injection E1 as <-. rewrite Q in Q'. injection Q' as <-.
      assert (h_name hdr = Some (lowers (host au))) as HN by (apply N0; split; [exact V|reflexivity]).
      rewrite HN in SP. rewrite HQ, HP in SP. exact SP.
    + specialize (N0 au A). congruence.
  - destruct HF as [(au' & q' & E1 & _)|(_ & HQ & HN)]; [congruence|]. rewrite HN in SP. cbv zeta in SP.
    destruct (tagged_addr host port_u16 e p) as [IP _]. fold local in IP. rewrite IP, HQ in SP.
    destruct (e_addr e) as [ip port]. exact SP.
Qed.

Theorem forward_tls host port_u16 ips addr meta p t0 : m_tls meta = Some t0 ->
  (exists t, a_tls (tagged_transport host port_u16 (new_forward addr meta) p) = inl t /\ t_id t = t_id t0 /\ t_name t = t_name t0) /\
  (In (s_ip addr) ips <-> a_tls (tagged_transport host port_u16 (new_endpoint ips addr meta) p) = inr Loopback).
Proof.
  intros M. split.
  - destruct (a_tls (tagged_transport host port_u16 (new_forward addr meta) p)) as [t|r] eqn:E.
    + exists t. split; [reflexivity|]. apply with_tls in E. destruct E as (_ & t1 & E & A & B & _). cbn in E. rewrite M in E. injection E as <-. auto.
    + apply plaintext in E. cbn in E. destruct E as [[E _]|(_ & E & _)]; [discriminate E|]. rewrite M in E. discriminate E.
  - rewrite plaintext. cbn [e_local new_endpoint e_meta]. rewrite <- contains_in. split.
    + intros H. left. auto.
    + intros [[H _]|(_ & H & _)]; [exact H|]. rewrite M in H. discriminate H.
Qed.
