(** Proofs of C60, C61 and C62 *)
From Coq Require Import String List NArith Bool Lia ZifyBool ZifyN.
From Verif Require Import Bytes BytesProofs RetryModel RetrySpec RetryParseProofs HintSpec HintProofs FilterModel TraceModel ReqMetricsProofs EndpointProofs Http1Model Http1Spec.
Import ListNotations.
Open Scope N_scope.

Lemma hm_get_iff hs n v : hm_get hs n = Some v <-> first_of n hs v.
Proof.
  unfold hm_get, first_of. induction hs as [|[k x] hs IH]; cbn [find fst].
  - split; [discriminate|]. intros (pre & post & E & _). destruct pre; discriminate.
  - destruct (beq k n) eqn:B.
    + apply beq_eq in B. subst k. split.
      * intros [= <-]. exists [], hs. split; [reflexivity|intros []].
      * intros ([|[k0 x0] pre] & post & [=] & N0); [subst; reflexivity|]. destruct N0. left. cbn. congruence.
    + rewrite IH. apply beq_neq in B. split.
      * intros (pre & post & -> & N0). exists ((k, x) :: pre), post. split; [reflexivity|]. cbn. intros [H|H]; [exact (B H)|exact (N0 H)].
      * intros ([|[k0 x0] pre] & post & [=] & N0); [congruence|]. exists pre, post. split; [assumption|]. intros H. apply N0. right. exact H.
Qed.
Lemma hm_get_none_iff hs n : hm_get hs n = None <-> ~ In n (map fst hs).
Proof.
  unfold hm_get. induction hs as [|[k x] hs IH]; cbn [find fst map In].
  - split; [intros _ []|reflexivity].
  - destruct (beq k n) eqn:B.
    + apply beq_eq in B. subst k. split; [discriminate|]. intros H. destruct H. left. reflexivity.
    + rewrite IH. apply beq_neq in B. tauto.
Qed.

Lemma filter_filter {A} (f g : A -> bool) l : filter f (filter g l) = filter (fun x => g x && f x) l.
Proof.
  induction l as [|x l IH]; [reflexivity|]. cbn [filter]. destruct (g x); cbn [filter andb]; [destruct (f x)|]; rewrite IH; reflexivity.
Qed.
Lemma without_cons n ns hs : without ns (hm_remove hs n) = without (n :: ns) hs.
Proof.
  unfold without, hm_remove. rewrite filter_filter. apply filter_ext. intros [k v]. cbn [existsb fst]. rewrite negb_orb. reflexivity.
Qed.
Lemma without_nil hs : without [] hs = hs.
Proof. unfold without. cbn [existsb negb]. induction hs as [|h hs IH]; [reflexivity|]. cbn [filter]. rewrite IH. reflexivity. Qed.
Lemma fold_remove ns : forall hs, fold_left hm_remove ns hs = without ns hs.
Proof.
  induction ns as [|n ns IH]; intros hs; [symmetry; apply without_nil|]. cbn [fold_left]. rewrite IH. apply without_cons.
Qed.
Lemma without_app ms ns hs : without ms (without ns hs) = without (ns ++ ms) hs.
Proof.
  unfold without. rewrite filter_filter. apply filter_ext. intros h. rewrite existsb_app, negb_orb. reflexivity.
Qed.
Lemma remove_without hs n : hm_remove hs n = without [n] hs.
Proof. rewrite <- without_cons. symmetry. apply without_nil. Qed.
Lemma without_in ns hs h : In h (without ns hs) <-> In h hs /\ ~ In (fst h) ns.
Proof.
  unfold without. rewrite filter_In, negb_true_iff. split; intros [J H]; (split; [exact J|]).
  - intros K. assert (existsb (beq (fst h)) ns = true) by (apply existsb_exists; exists (fst h); split; [exact K|apply beq_refl]). congruence.
  - destruct (existsb (beq (fst h)) ns) eqn:E; [|reflexivity]. apply existsb_exists in E as (x & K & B). apply beq_eq in B. subst x. contradiction.
Qed.
Lemma without_filter ns hs (P : bytes -> Prop) :
  (forall n, In n ns <-> P n) -> exists f, without ns hs = filter f hs /\ forall h, f h = true <-> ~ P (fst h).
Proof.
  intros H. eexists. split; [reflexivity|]. intros h. cbv beta. rewrite negb_true_iff, <- H. split.
  - intros E K. assert (existsb (beq (fst h)) ns = true) by (apply existsb_exists; exists (fst h); split; [exact K|apply beq_refl]). congruence.
  - intros N0. destruct (existsb (beq (fst h)) ns) eqn:E; [|reflexivity]. apply existsb_exists in E as (x & K & B). apply beq_eq in B. subst x. contradiction.
Qed.

(** ** Headers of the connection *)

Lemma to_str_printable v s : to_str v = Some s <-> s = v /\ printable v.
Proof.
  unfold to_str, printable. destruct (forallb _ v) eqn:F.
  - rewrite forallb_forall in F. split; [intros [= <-]; split; [reflexivity|]|intros [-> _]; reflexivity].
    apply Forall_forall. intros b J. specialize (F b J). lia.
  - split; [discriminate|]. intros [_ T]. rewrite Forall_forall in T.
    assert (forallb (fun b => ((32 <=? b) && (b <? 127)) || (b =? 9)) v = true) as C
      by (apply forallb_forall; intros b J; specialize (T b J); lia). congruence.
Qed.

Definition listed (hs : headers) : list bytes :=
  match hm_get hs CONNECTION with
  | Some v => match to_str v with Some s => map (fun o => lowers (trim o)) (split 44 s) | None => [] end
  | None => []
  end.

Lemma listed_iff hs n :
  In n (listed hs) <-> exists v l o t, first_of (bs "connection") hs v /\ printable v /\ items v l /\ In o l /\ trimmed o t /\ n = lowers t.
Proof.
  unfold listed. change (bs "connection") with CONNECTION. destruct (hm_get hs CONNECTION) as [v|] eqn:G.
  - destruct (to_str v) as [s|] eqn:T.
    + apply to_str_printable in T as [-> P]. rewrite in_map_iff. split.
      * intros (o & <- & J). exists v, (split 44 v), o, (trim o). split; [apply hm_get_iff; exact G|]. split; [exact P|]. split; [apply items_split|].
        split; [exact J|]. split; [apply trim_iff; reflexivity|reflexivity].
      * intros (v' & l & o & t & F & _ & I1 & J & Tr & ->). apply hm_get_iff in F. rewrite G in F. injection F as <-.
        apply split_items in I1. subst l. apply trim_iff in Tr. subst t. exists o. split; [reflexivity|exact J].
    + split; [intros []|]. intros (v' & l & o & t & F & P & _). apply hm_get_iff in F. rewrite G in F. injection F as <-.
      assert (to_str v = Some v) by (apply to_str_printable; split; [reflexivity|exact P]). congruence.
  - split; [intros []|]. intros (v' & l & o & t & F & _). apply hm_get_iff in F. congruence.
Qed.

Lemma strip_eq hs :
  strip_connection_headers hs = without (CONNECTION :: listed hs ++ [UPGRADE; PROXY_CONNECTION; KEEP_ALIVE]) hs.
Proof.
  assert (forall l hs, fold_left (fun h name => hm_remove h (lowers (trim name))) l hs = without (map (fun o => lowers (trim o)) l) hs) as F.
  { intros l. induction l as [|o l IH]; intros h; [symmetry; apply without_nil|]. cbn [fold_left map]. rewrite IH. apply without_cons. }
  unfold strip_connection_headers, listed. rewrite !remove_without, !without_app.
  destruct (hm_get hs CONNECTION) as [v|] eqn:G.
  - destruct (to_str v) as [s|].
    + rewrite F, !without_app. f_equal.
    + rewrite without_app. reflexivity.
  - change (CONNECTION :: [] ++ [UPGRADE; PROXY_CONNECTION; KEEP_ALIVE]) with ([CONNECTION] ++ [UPGRADE; PROXY_CONNECTION; KEEP_ALIVE]).
    rewrite <- (without_app _ [CONNECTION]). change ([UPGRADE] ++ [PROXY_CONNECTION] ++ [KEEP_ALIVE]) with [UPGRADE; PROXY_CONNECTION; KEEP_ALIVE].
    f_equal. symmetry. apply hm_get_none_iff in G. unfold without. clear F. induction hs as [|[k x] hs IH]; [reflexivity|].
    cbn [filter]. change (existsb (beq (fst (k, x))) [CONNECTION]) with (beq k CONNECTION || false). destruct (beq k CONNECTION) eqn:B; [apply beq_eq in B; subst k; destruct G; left; reflexivity|].
    cbn [orb negb]. rewrite IH; [reflexivity|]. intros J. apply G. right. exact J.
Qed.

Lemma stripped hs :
  exists f, strip_connection_headers hs = filter f hs /\ forall h, f h = true <-> ~ hop_by_hop hs (fst h).
Proof.
  rewrite strip_eq. apply without_filter. intros n. unfold hop_by_hop. rewrite <- listed_iff. cbn [In]. rewrite in_app_iff. cbn [In].
  change (bs "connection") with CONNECTION. change (bs "upgrade") with UPGRADE. change (bs "proxy-connection") with PROXY_CONNECTION. change (bs "keep-alive") with KEEP_ALIVE. tauto.
Qed.

(** ** Upgrades *)

Lemma version_eqb_eq a b : version_eqb a b = true <-> a = b.
Proof. destruct a, b; cbn; split; intros H; try discriminate H; reflexivity. Qed.
Lemma origin_iff u : uri_ok u -> is_origin_form u = true <-> authority_uri u.
Proof.
  unfold is_origin_form, has_path_and_query, uri_ok, absolute_uri, path_uri, authority_uri. destruct u as [[s|] [au|] p q]; cbn; intros O.
  - split; [discriminate|]. intros ([=] & _).
  - split; [discriminate|]. intros ([=] & _).
  - destruct O as [[H _]|[H|[_ [=]]]]; [destruct H; reflexivity|]. tauto.
  - split; [discriminate|]. intros (_ & H & _). destruct H. reflexivity.
Qed.

Lemma bad_iff r : uri_ok (q_uri r) -> is_bad_request r = true <-> ill_formed r.
Proof.
  intros O. pose proof (origin_iff _ O) as F. unfold is_bad_request, ill_formed. change (bs "CONNECT") with CONNECT.
  destruct (beq (q_method r) CONNECT) eqn:B.
  - apply beq_eq in B. destruct (version_eqb (q_version r) Http_11) eqn:V; cbn [negb].
    + apply version_eqb_eq in V. rewrite negb_true_iff. destruct (is_origin_form (q_uri r)).
      * split; [discriminate|]. intros [[_ [H|H]]|[H _]]; [contradiction| |contradiction]. destruct H. apply F. reflexivity.
      * split; [|reflexivity]. intros _. left. split; [exact B|]. right. intros H. apply F in H. discriminate.
    + split; [|reflexivity]. intros _. left. split; [exact B|]. left. intros H. apply version_eqb_eq in H. congruence.
  - apply beq_neq in B. rewrite F. split; [intros H; right; split; assumption|]. intros [[H _]|[_ H]]; [contradiction|exact H].
Qed.
Lemma wants_iff r : wants_upgrade r = true <-> asks_upgrade r.
Proof.
  unfold wants_upgrade, asks_upgrade. change (bs "upgrade") with UPGRADE. change (bs "h2c") with H2C. change (bs "CONNECT") with CONNECT.
  destruct (version_eqb (q_version r) Http_11) eqn:V; cbn [negb].
  - apply version_eqb_eq in V. destruct (hm_get (q_headers r) UPGRADE) as [v|] eqn:G.
    + apply hm_get_iff in G. rewrite negb_true_iff. destruct (beq v H2C) eqn:B.
      * apply beq_eq in B. subst v. split; [discriminate|]. intros (_ & [(v & F & N0)|[N0 _]]).
        -- apply hm_get_iff in F, G. congruence.
        -- destruct N0. destruct G as (pre & post & -> & _). rewrite map_app. apply in_elt.
      * apply beq_neq in B. split; [|reflexivity]. intros _. split; [exact V|]. left. exists v. split; assumption.
    + rewrite beq_eq. pose proof (proj1 (hm_get_none_iff _ _) G) as N0. split.
      * intros E. split; [exact V|]. right. split; assumption.
      * intros (_ & [(v & F & _)|[_ E]]); [|exact E]. apply hm_get_iff in F. congruence.
  - split; [discriminate|]. intros (E & _). apply version_eqb_eq in E. congruence.
Qed.

Lemma upgrade_call_spec r : uri_ok (q_uri r) -> q_upgrade r = false ->
  ((exists rsp, upgrade_call r = Answered rsp) <-> ill_formed r) /\
  (forall rsp, upgrade_call r = Answered rsp -> r_status rsp = 400) /\
  (forall r', upgrade_call r = Passed r' ->
     q_method r' = q_method r /\ q_version r' = q_version r /\ q_uri r' = q_uri r /\
     q_absolute r' = q_absolute r /\ q_was_upgrade r' = q_was_upgrade r /\
     (q_upgrade r' = true <-> asks_upgrade r) /\
     (asks_upgrade r -> q_headers r' = q_headers r) /\
     (~ asks_upgrade r -> exists f, q_headers r' = filter f (q_headers r) /\ forall h, f h = true <-> ~ hop_by_hop (q_headers r) (fst h))).
Proof.
  intros O U. rewrite <- (bad_iff r O). unfold upgrade_call. destruct (is_bad_request r).
  - split; [split; [reflexivity|intros _; eexists; reflexivity]|]. split; [intros ? [= <-]; reflexivity|discriminate].
  - split; [|split; [destruct (wants_upgrade r); discriminate|]].
    { split; [|discriminate]. destruct (wants_upgrade r); intros [? [=]]. }
    pose proof (wants_iff r) as W. destruct (wants_upgrade r); intros r' [= <-]; cbn; rewrite <- W.
    + do 5 (split; [reflexivity|]). split; [tauto|]. split; [reflexivity|]. intros H. destruct H. reflexivity.
    + do 5 (split; [reflexivity|]). rewrite U. split; [tauto|]. split; [discriminate|]. intros _. apply stripped.
Qed.

Lemma success_iff s : is_success s = true <-> 200 <= s < 300.
Proof. unfold is_success. lia. Qed.
Lemma is_upgrade_iff c rsp : is_upgrade rsp c = true <-> switches c rsp.
Proof.
  unfold is_upgrade, switches. destruct (r_version rsp); try (split; [discriminate|intros ([=] & _)]).
  destruct (r_status rsp =? 101) eqn:E.
  - split; [intros _; split; [reflexivity|left; lia]|reflexivity].
  - rewrite andb_true_iff, success_iff. split.
    + intros H. split; [reflexivity|right; exact H].
    + intros (_ & [H|H]); [lia|exact H].
Qed.

Lemma h1_response_spec c u rsp : let rsp' := fst (h1_response c u rsp) in
  r_status rsp' = r_status rsp /\ r_version rsp' = r_version rsp /\
  (snd (h1_response c u rsp) = true <-> u = true /\ switches c rsp) /\
  exists hs, tunnel_headers c rsp hs /\
  (switches c rsp -> r_headers rsp' = hs) /\
  (~ switches c rsp -> exists f, r_headers rsp' = filter f hs /\ forall h, f h = true <-> ~ hop_by_hop hs (fst h)).
Proof.
  cbv zeta. unfold h1_response. set (rsp1 := if c && is_success (r_status rsp) then _ else rsp).
  assert (r_status rsp1 = r_status rsp /\ r_version rsp1 = r_version rsp /\
    r_headers rsp1 = (if c && is_success (r_status rsp) then without [bs "content-length"; bs "transfer-encoding"] (r_headers rsp) else r_headers rsp)) as (E1 & E2 & E3).
  { unfold rsp1. destruct (c && is_success (r_status rsp)); [|repeat split]. cbn [r_status r_version r_headers]. repeat split.
    rewrite !remove_without, without_app. reflexivity. }
  assert (is_upgrade rsp1 c = is_upgrade rsp c) as EU by (unfold is_upgrade; rewrite E1, E2; reflexivity).
  assert (tunnel_headers c rsp (r_headers rsp1)) as TH.
  { rewrite E3. pose proof (success_iff (r_status rsp)) as SI. unfold tunnel_headers. rewrite <- SI. destruct c, (is_success (r_status rsp)); cbn [andb]; split; intros H; try reflexivity; try (destruct H; discriminate); destruct H; split; reflexivity. }
  rewrite EU. pose proof (is_upgrade_iff c rsp) as S0. clearbody rsp1. destruct (is_upgrade rsp c); cbn [fst snd r_status r_version r_headers].
  - split; [exact E1|split; [exact E2|]]. split; [tauto|]. exists (r_headers rsp1). split; [exact TH|]. split; [reflexivity|]. intros H. destruct H. apply S0. reflexivity.
  - split; [exact E1|split; [exact E2|]]. split; [split; [discriminate|intros [_ H]; apply S0 in H; discriminate H]|]. exists (r_headers rsp1). split; [exact TH|]. split; [intros H; apply S0 in H; discriminate H|]. intros _. apply stripped.
Qed.

(** ** Tunnels *)

Definition client_op (o : half_op) : option bool := match o with Client_insert => Some true | Client_drop => Some false | _ => None end.
Definition is_body (o : half_op) : bool := match o with Body_dropped => true | _ => false end.
Fixpoint first_client (os : list half_op) : option bool :=
  match os with
  | [] => None
  | o :: os' => match client_op o with Some b => Some b | None => first_client os' end
  end.
Lemma first_client_snoc os o : first_client (os ++ [o]) = match first_client os with Some b => Some b | None => client_op o end.
Proof.
  induction os as [|x os IH]; cbn [first_client app]; [destruct (client_op o); reflexivity|]. destruct (client_op x); [reflexivity|exact IH].
Qed.
Lemma half_run_eq os :
  half_run os =
  match existsb is_body os, first_client os with
  | true, Some b => Halves false false false false (if b then 1 else 0)
  | b, c => Halves (negb b) (match c with None => true | _ => false end) b (match c with Some true => true | _ => false end) 0
  end.
Proof.
  unfold half_run. induction os as [|o os IH] using rev_ind; [reflexivity|].
  rewrite fold_left_app. cbn [fold_left]. rewrite IH, existsb_app, first_client_snoc. cbn [existsb].
  destruct (existsb is_body os), (first_client os) as [[|]|], o; reflexivity.
Qed.
Lemma first_client_insert os : first_client os = Some true <-> exists pre post, os = pre ++ Client_insert :: post /\ ~ In Client_drop pre.
Proof.
  induction os as [|o os IH]; cbn [first_client].
  - split; [discriminate|]. intros (pre & post & E & _). destruct pre; discriminate.
  - destruct o; cbn [client_op].
    2:{ split; [intros _; exists [], os; split; [reflexivity|intros []]|reflexivity]. }
    2:{ split; [discriminate|]. intros ([|x pre] & post & E & N0); [discriminate|]. injection E as <- _. destruct N0. left. reflexivity. }
    all: rewrite IH; split;
      [intros (pre & post & -> & N0); eexists (_ :: pre), post; split; [reflexivity|]; intros [H|H]; [discriminate|exact (N0 H)]
      |intros ([|x pre] & post & E & N0); [discriminate|]; injection E as _ ->; exists pre, post; split; [reflexivity|]; intros H; apply N0; right; exact H].
Qed.

Lemma tunnel_once os :
  (tunnels (half_run os) <= 1)%nat /\
  (tunnels (half_run os) = 1%nat <->
   In Body_dropped os /\ exists pre post, os = pre ++ Client_insert :: post /\ ~ In Client_drop pre).
Proof.
  rewrite half_run_eq, <- first_client_insert.
  assert (existsb is_body os = true <-> In Body_dropped os) as B.
  { rewrite existsb_exists. split; [intros (o & J & E); destruct o; try discriminate E; exact J|]. intros J. exists Body_dropped. split; [exact J|reflexivity]. }
  rewrite <- B. destruct (existsb is_body os), (first_client os) as [[|]|]; cbn [tunnels negb]; (split; [lia|]); split; intros H; try discriminate H; try (split; reflexivity); try reflexivity; destruct H as [H1 H2]; discriminate.
Qed.

Lemma only_first os o : snd (half_step (half_run os) o) = true <->
  o = Body_dropped /\ ~ In Body_dropped os \/
  (o = Client_insert \/ o = Client_drop) /\ ~ In Client_insert os /\ ~ In Client_drop os.
Proof.
  assert (existsb is_body os = true <-> In Body_dropped os) as B.
  { rewrite existsb_exists. split; [intros (x & J & E); destruct x; try discriminate E; exact J|]. intros J. exists Body_dropped. split; [exact J|reflexivity]. }
  assert (first_client os = None <-> ~ In Client_insert os /\ ~ In Client_drop os) as C.
  { clear B. induction os as [|x os IH]; cbn [first_client In]; [tauto|].
    destruct x; cbn [client_op]; rewrite ?IH; intuition discriminate. }
  rewrite half_run_eq. rewrite <- B, <- C.
  destruct (existsb is_body os), (first_client os) as [[|]|], o; cbn; split; intros H; try discriminate H; try reflexivity;
    try (left; split; [reflexivity|discriminate]); try (right; split; [tauto|reflexivity]);
    destruct H as [[E H]|[[E|E] H]]; try discriminate; try (now destruct H).
Qed.

(** ** Authorities *)

Lemma set_authority_spec u a : uri_ok u ->
  exists u', set_authority u a = Some u' /\ uri_ok u' /\ reauthorized u a u'.
Proof.
  intros O. unfold set_authority, from_parts, into_parts, reauthorized, has_path_and_query. cbn [p_path_and_query p_scheme p_authority].
  destruct u as [s au p q]. cbn [u_scheme u_auth u_path u_query].
  destruct O as [[H1 H2]|[(H1 & H2 & H3 & H4)|[H1 H2]]]; cbn in *.
  - destruct s as [s|]; [|destruct H1; reflexivity]. destruct au as [au|]; [|destruct H2; reflexivity].
    eexists. split; [reflexivity|]. split; [left; split; discriminate|]. cbn. repeat (split; [reflexivity|]).
    split; [intros ([=] & _)|]. intros _. reflexivity.
  - subst. destruct au as [au|]; [|destruct H2; reflexivity]. eexists. split; [reflexivity|].
    split; [right; left; repeat split; discriminate|]. cbn. do 3 (split; [reflexivity|]). split; [reflexivity|].
    intros H. destruct H. repeat split. discriminate.
  - subst. eexists. split; [reflexivity|]. split; [left; split; discriminate|]. cbn. repeat (split; [reflexivity|]).
    split; [intros (_ & H & _); destruct H; reflexivity|]. intros _. reflexivity.
Qed.

Section Normalize.
Variable parse_authority : bytes -> option authority.

Let host_authority := host_authority parse_authority.

Lemma from_header_iff hs a : authority_from_header parse_authority hs HOST = Some a <-> host_authority hs a.
Proof.
  unfold authority_from_header, host_authority, Http1Spec.host_authority. change (bs "host") with HOST. destruct (hm_get hs HOST) as [v|] eqn:G.
  - destruct (to_str v) as [s|] eqn:T.
    + apply to_str_printable in T as [-> P]. apply hm_get_iff in G. split; [intros H; exists v; repeat split; assumption|].
      intros (v' & F & _ & H). apply hm_get_iff in F, G. congruence.
    + split; [discriminate|]. intros (v' & F & P & _). apply hm_get_iff in F. rewrite G in F. injection F as <-.
      assert (to_str v = Some v) by (apply to_str_printable; split; [reflexivity|exact P]). congruence.
  - split; [discriminate|]. intros (v & F & _). apply hm_get_iff in F. congruence.
Qed.

Lemma normalize_keeps default r :
  ~ http1 (q_version r) \/ q_absolute r = true \/ u_auth (q_uri r) <> None ->
  normalize_uri parse_authority default r = Normalized r.
Proof.
  unfold normalize_uri, http1. intros [H|H].
  - destruct (q_version r); try reflexivity; exfalso; apply H; [left|right]; reflexivity.
  - assert (negb (q_absolute r) && match u_auth (q_uri r) with None => true | Some _ => false end = false) as ->.
    { destruct H as [->|H]; [reflexivity|]. destruct (u_auth (q_uri r)); [apply andb_false_r|destruct H; reflexivity]. }
    destruct (q_version r); reflexivity.
Qed.

Lemma normalize_sets default r :
  http1 (q_version r) -> q_absolute r = false -> path_uri (q_uri r) ->
  (forall a, (host_authority (q_headers r) a \/ (~ (exists b, host_authority (q_headers r) b) /\ default = Some a)) ->
     exists u, normalize_uri parse_authority default r = Normalized (with_uri r u) /\ reauthorized (q_uri r) a u /\ uri_ok u) /\
  (normalize_uri parse_authority default r = No_authority <->
     ~ (exists b, host_authority (q_headers r) b) /\ default = None).
Proof.
  intros V A P. pose proof (from_header_iff (q_headers r)) as F.
  assert (normalize_uri parse_authority default r =
    match (match authority_from_header parse_authority (q_headers r) HOST with Some a => Some a | None => default end) with
    | Some a => match set_authority (q_uri r) a with Some u => Normalized (with_uri r u) | None => Normalize_panic end
    | None => No_authority end) as ->.
  { unfold normalize_uri. rewrite A. destruct P as [_ ->]. cbn [negb andb]. destruct V as [->| ->]; reflexivity. }
  assert (forall a, exists u, match set_authority (q_uri r) a with Some u => Normalized (with_uri r u) | None => Normalize_panic end = Normalized (with_uri r u) /\ reauthorized (q_uri r) a u /\ uri_ok u) as G.
  { intros a. destruct (set_authority_spec (q_uri r) a) as (u & -> & O & R); [right; right; exact P|]. exists u. repeat (split; [first [reflexivity|exact R]|]). exact O. }
  destruct (authority_from_header parse_authority (q_headers r) HOST) as [b|].
  - split.
    + intros a [H|[H _]]; [|destruct H; exists b; apply F; reflexivity]. apply F in H. injection H as <-. apply G.
    + split; [destruct (G b) as (u & E & _); rewrite E; discriminate|]. intros [H _]. destruct H. exists b. apply F. reflexivity.
  - assert (~ exists b, host_authority (q_headers r) b) as N0 by (intros [b H]; apply F in H; discriminate). split.
    + intros a [H|[_ ->]]; [destruct N0; exists a; exact H|]. apply G.
    + destruct default as [a|]; [|tauto]. split; [destruct (G a) as (u & E & _); rewrite E; discriminate|intros [_ [=]]].
Qed.

Lemma normalize_cases default r : uri_ok (q_uri r) -> (q_absolute r = true -> absolute_uri (q_uri r)) -> http1 (q_version r) ->
  normalize_uri parse_authority default r = No_authority \/
  exists u, normalize_uri parse_authority default r = Normalized (with_uri r u) /\ u_auth u <> None /\ uri_ok u /\
    (u = q_uri r \/ (path_uri (q_uri r) /\ exists a, reauthorized (q_uri r) a u)).
Proof.
  intros O A V. assert (with_uri r (q_uri r) = r) as W by (destruct r; reflexivity).
  destruct (q_absolute r) eqn:Q.
  - right. exists (q_uri r). rewrite W. split; [apply normalize_keeps; right; left; exact Q|]. split; [exact (proj2 (A eq_refl))|]. split; [exact O|left; reflexivity].
  - destruct (u_auth (q_uri r)) as [a|] eqn:U.
    + right. exists (q_uri r). rewrite W, U. split; [apply normalize_keeps; right; right; congruence|]. split; [discriminate|]. split; [exact O|left; reflexivity].
    + assert (path_uri (q_uri r)) as P by (destruct O as [[_ H]|[(_ & H & _)|H]]; [contradiction|contradiction|exact H]).
      destruct (normalize_sets default r V Q P) as [S1 S2].
      destruct (authority_from_header parse_authority (q_headers r) HOST) as [a|] eqn:F.
      * apply from_header_iff in F. destruct (S1 a (or_introl F)) as (u & E & R & OU). right. exists u. split; [exact E|]. destruct R as (R1 & R).
        split; [congruence|]. split; [exact OU|]. right. split; [exact P|]. exists a. split; assumption.
      * assert (~ exists b, host_authority (q_headers r) b) as N0 by (intros [b H]; apply from_header_iff in H; congruence).
        destruct default as [a|]; [|left; apply S2; split; [exact N0|reflexivity]].
        destruct (S1 a (or_intror (conj N0 eq_refl))) as (u & E & R & OU). right. exists u. split; [exact E|]. destruct R as (R1 & R).
        split; [congruence|]. split; [exact OU|]. right. split; [exact P|]. exists a. split; assumption.
Qed.

(** As both servers do it *)
Lemma mark_spec r : fresh r -> q_absolute (mark_absolute_form r) = true <-> http1 (q_version r) /\ u_scheme (q_uri r) <> None.
Proof.
  intros (A & _). unfold mark_absolute_form, is_absolute_form, http1.
  destruct (q_version r); try (rewrite A; split; [discriminate|intros [[?|?] _]; discriminate]);
    (destruct (u_scheme (q_uri r)); cbn [q_absolute with_absolute];
     [split; [intros _; split; [tauto|discriminate]|reflexivity]|rewrite A; split; [discriminate|intros [_ H]; destruct H; reflexivity]]).
Qed.
Lemma mark_same r : q_method (mark_absolute_form r) = q_method r /\ q_version (mark_absolute_form r) = q_version r /\ q_uri (mark_absolute_form r) = q_uri r /\
  q_headers (mark_absolute_form r) = q_headers r /\ q_upgrade (mark_absolute_form r) = q_upgrade r /\ q_was_upgrade (mark_absolute_form r) = q_was_upgrade r.
Proof. destruct r as [m v u h a b w]. unfold mark_absolute_form. cbn. destruct v, (is_absolute_form u); repeat split. Qed.

Lemma served default r : fresh r -> uri_ok (q_uri r) -> http1 (q_version r) ->
  normalize_uri parse_authority default (mark_absolute_form r) = No_authority \/
  exists r', normalize_uri parse_authority default (mark_absolute_form r) = Normalized r' /\
    u_auth (q_uri r') <> None /\ uri_ok (q_uri r') /\
    q_method r' = q_method r /\ q_version r' = q_version r /\ q_headers r' = q_headers r /\ q_upgrade r' = q_upgrade r /\
    u_path (q_uri r') = u_path (q_uri r) /\ u_query (q_uri r') = u_query (q_uri r) /\
    (u_auth (q_uri r) <> None -> q_uri r' = q_uri r) /\
    (q_absolute r' = true <-> u_scheme (q_uri r) <> None).
Proof.
  intros Fr O V. destruct (mark_same r) as (M1 & M2 & M3 & M4 & M5 & M6). pose proof (mark_spec r Fr) as MA.
  destruct (normalize_cases default (mark_absolute_form r)) as [E|(u & E & A & OU & C)].
  - rewrite M3. exact O.
  - intros H. apply MA in H as [_ H]. rewrite M3. destruct O as [O|[(O & _)|(O & _)]]; [exact O|contradiction|contradiction].
  - rewrite M2. exact V.
  - left. exact E.
  - right. eexists. split; [exact E|]. cbn. split; [exact A|]. split; [exact OU|]. split; [exact M1|]. split; [exact M2|]. split; [exact M4|]. split; [exact M5|].
    rewrite M3 in C. destruct C as [->|(P & a & R1 & R2 & R3 & _)].
    + split; [reflexivity|]. split; [reflexivity|]. split; [reflexivity|]. rewrite MA. tauto.
    + split; [exact R2|]. split; [exact R3|]. split; [intros H; destruct P as [_ P]; contradiction|]. rewrite MA. tauto.
Qed.
End Normalize.

Lemma override_spec names over r : uri_ok (q_uri r) ->
  match over with
  | None => override_authority names over r = Some r
  | Some a => exists u, override_authority names over r = Some (with_uri (with_headers r (without names (q_headers r))) u) /\
      uri_ok u /\ reauthorized (q_uri r) a u
  end.
Proof.
  intros O. destruct over as [a|]; [|reflexivity]. destruct (set_authority_spec (q_uri r) a O) as (u & E & OU & R).
  exists u. split; [|split; assumption]. unfold override_authority. rewrite fold_remove. cbn [q_uri with_headers]. rewrite E. reflexivity.
Qed.

(** ** Over HTTP/2 *)

Lemma find_nothing {A} (f : A -> bool) l : (forall x, In x l -> f x = false) -> find f l = None.
Proof.
  induction l as [|x l IH]; intros H; [reflexivity|]. cbn [find]. rewrite (H x (or_introl eq_refl)). apply IH. intros y J. apply H. right. exact J.
Qed.
Lemma get_insert hs n m v : n <> m -> hm_get (hm_remove (hm_insert hs n v) m) n = Some v.
Proof.
  intros D. unfold hm_get, hm_insert, hm_remove. rewrite filter_app, find_app.
  rewrite find_nothing.
  - cbn [filter fst]. assert (beq n m = false) as -> by (apply beq_neq; exact D). cbn [negb find fst]. rewrite beq_refl. reflexivity.
  - intros x J. apply filter_In in J as [J _]. apply filter_In in J as [_ J]. rewrite negb_true_iff in J. exact J.
Qed.
Lemma remove_insert hs n m v : hm_remove (hm_remove (hm_insert hs n v) m) n = without [n; m] hs.
Proof.
  unfold hm_insert, hm_remove, without. rewrite !filter_app. cbn [filter fst]. rewrite !filter_filter.
  assert (filter (fun kv => negb (beq (fst kv) n)) (if negb (beq n m) then [(n, v)] else []) = []) as ->.
  { destruct (negb (beq n m)); [|reflexivity]. cbn [filter fst]. rewrite beq_refl. reflexivity. }
  rewrite app_nil_r. apply filter_ext. intros [k x]. cbn [existsb fst]. destruct (beq k n), (beq k m); reflexivity.
Qed.

Lemma over_h2 r : http1 (q_version r) -> q_upgrade r = false ->
  exists sent, orig_proto_upgrade r = Over_h2 sent (q_version r) /\ q_version sent = Http_2 /\
    exists r', downgrade (over_wire sent) = (r', true) /\
      q_method r' = q_method r /\ q_version r' = q_version r /\ q_uri r' = q_uri r /\
      q_headers r' = without [bs "l5d-orig-proto"; bs "transfer-encoding"] (q_headers r) /\
      q_absolute r' = q_absolute r /\ q_was_upgrade r' = true /\ q_upgrade r' = false.
Proof.
  intros V U. unfold orig_proto_upgrade. rewrite U. change (bs "l5d-orig-proto") with L5D_ORIG_PROTO. change (bs "transfer-encoding") with TRANSFER_ENCODING.
  assert (forall hs v, hm_get (hm_remove (hm_insert hs L5D_ORIG_PROTO v) TRANSFER_ENCODING) L5D_ORIG_PROTO = Some v) as G
    by (intros; apply get_insert; discriminate).
  destruct V as [->| ->], (q_absolute r); cbn [with_absolute with_headers with_version q_headers]; (eexists; split; [reflexivity|]; split; [reflexivity|]);
    unfold downgrade, over_wire; cbn [q_method q_version q_uri q_headers with_version with_headers with_absolute version_eqb]; rewrite G;
    (eexists; split; [reflexivity|]); cbn; rewrite <- remove_insert with (v := HTTP_11_STR); repeat split;
    rewrite !remove_insert; reflexivity.
Qed.

Lemma over_h2_response v rsp : http1 v -> http1 (r_version rsp) ->
  let rsp' := orig_proto_upgrade_response v (downgrade_response true rsp) in
  r_version (downgrade_response true rsp) = Http_2 /\
  r_status rsp' = r_status rsp /\ r_version rsp' = r_version rsp /\
  r_headers rsp' = without [bs "l5d-orig-proto"; bs "transfer-encoding"] (r_headers rsp).
Proof.
  intros V R. cbv zeta. unfold orig_proto_upgrade_response, downgrade_response. change (bs "l5d-orig-proto") with L5D_ORIG_PROTO. change (bs "transfer-encoding") with TRANSFER_ENCODING.
  assert (forall hs v, hm_get (hm_remove (hm_insert hs L5D_ORIG_PROTO v) TRANSFER_ENCODING) L5D_ORIG_PROTO = Some v) as G
    by (intros; apply get_insert; discriminate).
  destruct R as [->| ->]; cbn [r_status r_version r_headers]; rewrite G; rewrite remove_insert; repeat split.
Qed.

(** Both proxies *)
Section Both.
Variable parse_authority : bytes -> option authority.
Lemma both_proxies d d' r r1 r2 :
  fresh r -> uri_ok (q_uri r) -> http1 (q_version r) -> ~ asks_upgrade r ->
  upgrade_call r = Passed r1 ->
  normalize_uri parse_authority d (mark_absolute_form r1) = Normalized r2 ->
  exists sent, orig_proto_upgrade r2 = Over_h2 sent (q_version r) /\
  exists r3, downgrade (mark_absolute_form (over_wire sent)) = (r3, true) /\
    normalize_uri parse_authority d' r3 = Normalized r3 /\
    q_method r3 = q_method r /\ q_version r3 = q_version r /\ q_uri r3 = q_uri r2 /\
    u_path (q_uri r3) = u_path (q_uri r) /\ u_query (q_uri r3) = u_query (q_uri r) /\ u_auth (q_uri r3) <> None /\
    (u_auth (q_uri r) <> None -> q_uri r3 = q_uri r) /\
    (q_absolute r3 = true <-> u_scheme (q_uri r) <> None) /\
    exists f, q_headers r3 = filter f (q_headers r) /\
      forall h, f h = true <-> ~ hop_by_hop (q_headers r) (fst h) /\ fst h <> bs "l5d-orig-proto" /\ fst h <> bs "transfer-encoding".
Proof.
  intros (Fa & Fu & Fw) O V NA E1 E2. destruct (upgrade_call_spec r O Fu) as (_ & _ & P). destruct (P r1 E1) as (P1 & P2 & P3 & P4 & P5 & P6 & _ & P7). clear P.
  destruct (P7 NA) as (f & Hf & If). assert (q_upgrade r1 = false) as U1 by (destruct (q_upgrade r1); [destruct NA; apply P6; reflexivity|reflexivity]).
  assert (fresh r1) as F1 by (repeat split; congruence).
  destruct (served parse_authority d r1 F1) as [E|(r2' & E & A & OU & S1 & S2 & S3 & S4 & S5 & S6 & S7 & S8)]; [rewrite P3; exact O|rewrite P2; exact V|congruence|].
  rewrite E in E2. injection E2 as ->. destruct (over_h2 r2) as (sent & D1 & D2 & r3 & D3 & T1 & T2 & T3 & T4 & T5 & T6 & T7); [rewrite S2, P2; exact V|congruence|].
  exists sent. split; [rewrite D1; f_equal; congruence|]. exists r3.
  assert (mark_absolute_form (over_wire sent) = over_wire sent) as -> by reflexivity. split; [exact D3|].
  rewrite P3 in *. split; [apply normalize_keeps; right; right; rewrite T3; exact A|]. split; [congruence|]. split; [congruence|]. split; [exact T3|].
  split; [congruence|]. split; [congruence|]. split; [congruence|]. split; [intros H; rewrite T3; apply S7; exact H|]. split; [rewrite T5; exact S8|].
  rewrite T4, S3, Hf. eexists. split; [unfold without; rewrite filter_filter; reflexivity|]. intros h. cbv beta. rewrite andb_true_iff, If, negb_true_iff.
  cbn [existsb]. rewrite !orb_false_iff, !beq_neq. tauto.
Qed.
End Both.

Lemma h1_call_spec s r :
  c_absolute (snd (h1_call s r)) = q_absolute r /\
  (c_pooled (snd (h1_call s r)) = true <-> q_version r <> Http_10 /\ exists v, first_of (bs "host") (q_headers r) v /\ v <> []) /\
  (c_pooled (snd (h1_call s r)) = true -> (if q_absolute r then absolute_form else origin_form) (fst (h1_call s r)) = true).
Proof.
  unfold h1_call. change (bs "host") with HOST.
  destruct (version_eqb (q_version r) Http_10) eqn:V; cbn [orb].
  - apply version_eqb_eq in V. cbn. split; [reflexivity|]. split; [|discriminate]. split; [discriminate|]. intros [H _]. contradiction.
  - assert (q_version r <> Http_10) as NV by (intros H; apply version_eqb_eq in H; congruence).
    destruct (hm_get (q_headers r) HOST) as [v|] eqn:G.
    + destruct v as [|b v].
      * cbn [snd c_absolute c_pooled]. change (len [] =? 0) with true. cbn iota. cbn [snd c_absolute c_pooled]. split; [reflexivity|]. split; [|discriminate]. split; [discriminate|]. intros (_ & v & F & N0). apply hm_get_iff in F. rewrite G in F. injection F as <-. destruct N0. reflexivity.
      * assert ((len (b :: v) =? 0) = false) as -> by (unfold len; cbn [List.length]; lia). apply hm_get_iff in G.
        destruct (q_absolute r); cbn; (split; [reflexivity|]); (split; [|reflexivity]); (split; [|reflexivity]); intros _; (split; [exact NV|]); exists (b :: v); (split; [exact G|discriminate]).
    + cbn [snd c_absolute c_pooled]. split; [reflexivity|]. split; [|discriminate]. split; [discriminate|]. intros (_ & v & F & _). apply hm_get_iff in F. congruence.
Qed.
