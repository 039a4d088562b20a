From Coq Require Import List Arith NArith Bool Lia ZifyBool ZifyNat ZifyN.
From Verif Require Import Bytes BytesProofs NameModel AuthzModel AuthzSpec.
Import ListNotations.
Open Scope N_scope.

(** ** Networks *)
Lemma network_div : forall w a p, network w a p = a / 2 ^ (w - p) * 2 ^ (w - p).
Proof. intros. unfold network. rewrite N.ldiff_ones_r, N.shiftl_mul_pow2, N.shiftr_div_pow2. reflexivity. Qed.
Lemma broadcast_div : forall w a p, broadcast w a p = a / 2 ^ (w - p) * 2 ^ (w - p) + (2 ^ (w - p) - 1).
Proof.
  intros w a p. unfold broadcast. set (k := w - p). rewrite N.sub_1_r, <- (N.ones_equiv k).
  rewrite <- N.shiftr_div_pow2, <- N.shiftl_mul_pow2.
  assert (E : N.lor a (N.ones k) = N.lor (N.shiftl (N.shiftr a k) k) (N.ones k)).
  { apply N.bits_inj. intros i. rewrite !N.lor_spec. destruct (N.lt_ge_cases i k) as [H|H].
    - rewrite N.ones_spec_low by exact H. rewrite !orb_true_r. reflexivity.
    - rewrite N.ones_spec_high by exact H. rewrite !orb_false_r, N.shiftl_spec_high' by exact H.
      rewrite N.shiftr_spec'. f_equal. lia. }
  assert (D : N.land (N.shiftl (N.shiftr a k) k) (N.ones k) = 0).
  { apply N.bits_inj; intros i. rewrite N.land_spec, N.bits_0. destruct (N.lt_ge_cases i k) as [H|H];
    [rewrite N.shiftl_spec_low by exact H; reflexivity|rewrite N.ones_spec_high by exact H; apply andb_false_r]. }
  rewrite E, N.add_nocarry_lxor, N.lxor_lor by exact D. reflexivity.
Qed.
Lemma range_div : forall w a p i, range_contains w a p i = (a / 2 ^ (w - p) =? i / 2 ^ (w - p)).
Proof.
  intros w a p i. unfold range_contains. rewrite network_div, broadcast_div. set (d := 2 ^ (w - p)).
  assert (Hd : d <> 0) by (apply N.pow_nonzero; lia).
  pose proof (N.div_mod i d Hd) as E. pose proof (N.mod_lt i d Hd) as L.
  set (q := a / d). clearbody q d. set (r := i mod d) in *. set (j := i / d) in *. clearbody r j. subst i.
  destruct (N.eqb_spec q j) as [->|N]; [lia|].
  apply andb_false_iff. destruct (N.lt_ge_cases q j) as [H|H].
  - right. apply N.leb_gt. assert ((q + 1) * d <= d * j) by nia. lia.
  - left. apply N.leb_gt. assert (d * (j + 1) <= q * d) by nia. lia.
Qed.
Lemma range_same_prefix : forall w a p i, p <= w -> a < 2 ^ w -> i < 2 ^ w ->
  range_contains w a p i = true <-> same_prefix w p a i.
Proof.
  intros w a p i Hp Ha Hi. rewrite range_div, N.eqb_eq, <- !N.shiftr_div_pow2. split.
  - intros E k Hk. assert (K : w - 1 - k = p - 1 - k + (w - p)) by lia.
    rewrite K, <- !N.shiftr_spec', E. reflexivity.
  - intros H. apply N.bits_inj. intros j. rewrite !N.shiftr_spec'. destruct (N.lt_ge_cases j p) as [L|L].
    + specialize (H (p - 1 - j)). replace (w - 1 - (p - 1 - j)) with (j + (w - p)) in H by lia. apply H. lia.
    + assert (K : forall x, x < 2 ^ w -> N.testbit x (j + (w - p)) = false).
      { intros x Hx. destruct (N.eq_dec x 0) as [->|N0]; [apply N.bits_0|]. apply N.bits_above_log2.
        apply N.log2_lt_pow2 in Hx; lia. }
      rewrite !K by assumption. reflexivity.
Qed.
Lemma net_contains_iff : forall n i, net_wf n -> ip_wf i -> net_contains n i = true <-> in_net n i.
Proof.
  intros [a p|a p] [i|i] Hn Hi; cbn [net_wf ip_wf net_contains in_net] in *; try (split; [discriminate|tauto]);
    destruct Hn; apply range_same_prefix; assumption.
Qed.
Lemma covers_iff : forall n i, net_wf (n_net n) -> (forall e, In e (n_except n) -> net_wf e) -> ip_wf i ->
  network_contains n i = true <-> covers n i.
Proof.
  intros [m es] i Hn He Hi. cbn [n_net n_except] in *. unfold network_contains, covers. cbn [n_net n_except].
  rewrite andb_true_iff, negb_true_iff, net_contains_iff by assumption. apply and_iff_compat_l.
  rewrite <- not_true_iff_false, existsb_exists. split.
  - intros H e Hin C. apply H. exists e. split; [exact Hin|]. apply net_contains_iff; auto.
  - intros H (e & Hin & C). apply (H e Hin). apply net_contains_iff in C; auto.
Qed.
Lemma ip_match_iff : forall nets i, (forall n, In n nets -> net_wf n) -> ip_wf i ->
  ip_match nets i = true <-> exists n, In n nets /\ in_net n i.
Proof.
  intros nets i Hn Hi. unfold ip_match. rewrite existsb_exists. split; intros (n & Hin & H); exists n; split; auto;
    apply (net_contains_iff n i (Hn n Hin) Hi); exact H.
Qed.

Lemma ipv4_mapped_spec : forall a, ipv4_mapped (V4 a) = V4 a.
Proof. reflexivity. Qed.
Lemma ipv4_mapped_v6 : forall n v, ipv4_mapped (V6 n) = V4 v <-> (v < 2 ^ 32 /\ n = mapped v).
Proof.
  intros n v. unfold ipv4_mapped, mapped. rewrite N.shiftr_div_pow2.
  change 0xffffffff with (N.ones 32). rewrite N.land_ones.
  pose proof (N.div_mod n (2 ^ 32)) as E. pose proof (N.mod_lt n (2 ^ 32)) as L.
  destruct (N.eqb_spec (n / 2 ^ 32) 0xffff) as [H|H].
  - split.
    + intros K. injection K as <-. split; [apply L; discriminate|]. rewrite <- H, N.mul_comm. apply E. discriminate.
    + intros [Hv ->]. f_equal. rewrite N.add_comm, N.mod_add by discriminate. apply N.mod_small, Hv.
  - split; [discriminate|]. intros [Hv ->]. exfalso. apply H.
    rewrite N.div_add_l by discriminate. rewrite N.div_small by exact Hv. apply N.add_0_r.
Qed.
Lemma ipv4_mapped_other : forall n, (forall v, v < 2 ^ 32 -> n <> mapped v) -> ipv4_mapped (V6 n) = V6 n.
Proof.
  intros n H. destruct (ipv4_mapped (V6 n)) as [v|v] eqn:E.
  - apply ipv4_mapped_v6 in E as [Hv E]. destruct (H v Hv E).
  - revert E. unfold ipv4_mapped. destruct (_ =? _); congruence.
Qed.

(** ** Identities *)
Lemma mem_iff : forall s l, mem s l = true <-> In s l.
Proof.
  intros s l. unfold mem. rewrite existsb_exists. split.
  - intros (x & Hin & E). apply beq_eq in E. subst. exact Hin.
  - intros H. exists s. split; [exact H|apply beq_refl].
Qed.
Lemma meets_iff : forall a t, is_tls_authorized t a = true <-> meets (au_authentication a) t.
Proof.
  intros [ns au] t. unfold is_tls_authorized, meets. cbn [au_authentication]. destruct au as [| |ids sfxs].
  - tauto.
  - destruct t; split; try discriminate; eauto; intros (c & H); congruence.
  - destruct t as [[i|]| |]; try (split; [discriminate|intros (j & H & _); discriminate]).
    destruct i as [n|u]; cbn [id_str].
    + rewrite orb_true_iff, mem_iff, existsb_exists. split.
      * intros H. exists (Dns n). split; [reflexivity|]. destruct H as [H|(s & Hin & H)]; [left; exact H|right].
        apply ends_with_iff in H as (b & ->). exists s, b. auto.
      * intros (j & E & H). injection E as <-. destruct H as [H|(s & b & Hin & H)]; [left; exact H|right].
        exists s. split; [exact Hin|]. apply ends_with_iff. eauto.
    + rewrite mem_iff. split; [intros H; exists (Uri u); auto|]. intros (j & E & H). injection E as <-. exact H.
Qed.
Lemma is_authorized_iff : forall a client t, authz_wf a -> ip_wf client ->
  is_authorized a client t = true <-> (exists n, In n (au_networks a) /\ covers n client) /\ meets (au_authentication a) t.
Proof.
  intros a client t Ha Hc. unfold is_authorized.
  assert (N : existsb (fun n => network_contains n client) (au_networks a) = true <->
              exists n, In n (au_networks a) /\ covers n client).
  { rewrite existsb_exists. split; intros (n & Hin & H); exists n; (split; [exact Hin|]);
      destruct (Ha n Hin); apply (covers_iff n client); auto. }
  destruct (existsb _ _); cbn [negb].
  - rewrite meets_iff. split; [intros H; split; [apply N; reflexivity|exact H]|tauto].
  - split; [discriminate|]. intros [H _]. apply N in H. discriminate.
Qed.
Theorem find_authz_iff : forall l client t, (forall a, In a l -> authz_wf a) -> ip_wf client ->
  (exists a, find_authz l client t = Some a) <-> authorized l client t.
Proof.
  intros l client t Hl Hc. unfold find_authz, authorized. split.
  - intros (a & H). apply find_some in H as [Hin H]. exists a. split; [exact Hin|].
    apply is_authorized_iff in H; auto.
  - intros (a & Hin & H). destruct (find _ l) as [b|] eqn:E; [eauto|]. exfalso.
    pose proof (find_none _ _ E a Hin) as F. cbv beta in F. apply is_authorized_iff in H; auto. congruence.
Qed.
(** The first authorization that covers the client is the one used. *)
Theorem find_authz_first : forall l client t a, (forall a, In a l -> authz_wf a) -> ip_wf client ->
  find_authz l client t = Some a <->
  exists before after, l = before ++ a :: after /\ ~ authorized before client t /\ authorized [a] client t.
Proof.
  intros l client t a Hl Hc. unfold find_authz. split.
  - revert Hl. induction l as [|x l IH]; cbn [find]; intros Hl H; [discriminate|].
    destruct (is_authorized x client t) eqn:E.
    + injection H as ->. exists [], l. split; [reflexivity|]. split; [intros (b & [] & _)|].
      exists a. split; [left; reflexivity|]. apply is_authorized_iff in E; auto. apply Hl. left. reflexivity.
    + destruct IH as (b & c & -> & N & Y); [intros; apply Hl; right; assumption|exact H|].
      exists (x :: b), c. split; [reflexivity|]. split; [|exact Y].
      intros (y & [->|Hin] & K); [|apply N; exists y; auto]. apply is_authorized_iff in K; auto; [congruence|].
      apply Hl. left. reflexivity.
  - intros (b & c & -> & N & Y). induction b as [|x b IH]; cbn [app find].
    + destruct Y as (y & [<-|[]] & K). apply is_authorized_iff in K; auto; [rewrite K; reflexivity|].
      apply Hl. left. reflexivity.
    + destruct (is_authorized x client t) eqn:E.
      * exfalso. apply N. exists x. split; [left; reflexivity|]. apply is_authorized_iff in E; auto. apply Hl. left. reflexivity.
      * apply IH; [intros; apply Hl; right; assumption|]. intros (y & Hin & K). apply N. exists y. split; [right; exact Hin|exact K].
Qed.

(** ** Suffixes sent by the control plane *)
Lemma join_concat : forall ps, ps <> [] -> 46 :: join 46 ps = concat (map (cons 46) ps).
Proof.
  induction ps as [|p ps IH]; [congruence|]. intros _. destruct ps as [|q ps].
  - cbn. rewrite app_nil_r. reflexivity.
  - change (concat (map (cons 46) (p :: q :: ps))) with ((46 :: p) ++ concat (map (cons 46) (q :: ps))).
    rewrite <- (IH ltac:(discriminate)). reflexivity.
Qed.
Theorem suffix_parts : forall parts name, suffix_contains (suffix_of_parts parts) name = true <->
  exists before, name = before ++ concat (map (cons 46) parts).
Proof.
  intros parts name. unfold suffix_contains. rewrite ends_with_iff.
  destruct parts as [|p ps]; [cbn; tauto|].
  assert (E : suffix_of_parts (p :: ps) = concat (map (cons 46) (p :: ps))) by (apply join_concat; discriminate).
  rewrite E. tauto.
Qed.

(** ** Localhost *)
Lemma all_some_in : forall A (l : list (option A)) r x, all_some l = Some r -> (In x r <-> In (Some x) l).
Proof.
  induction l as [|[y|] l IH]; cbn; intros r x H; try discriminate.
  - injection H as <-. tauto.
  - destruct (all_some l) as [r'|] eqn:E; [|discriminate]. injection H as <-. cbn. rewrite (IH r' x eq_refl).
    split; intros [K|K]; auto; left; congruence.
Qed.
Theorem localhost_authorized : forall l authzs t, server_authorizations l = Some authzs ->
  authorized authzs (V4 (127 * 2 ^ 24 + 1)) t /\ authorized authzs (V6 1) t.
Proof.
  intros l authzs t. unfold server_authorizations, mk_authorizations.
  destruct (all_some _) as [r|]; [|discriminate]. intros H. injection H as <-.
  split; exists localhost; (split; [apply in_app_iff; right; left; reflexivity|]); (split; [|exact I]);
    [exists (Net (Net4 (127 * 2 ^ 24 + 1) 32) [])|exists (Net (Net6 1 128) [])];
    (split; [cbn; auto|]); (split; [|intros e []]); intros k Hk; reflexivity.
Qed.
(** and nobody else because of it *)
Lemma same_prefix_all : forall w a b, a < 2 ^ w -> b < 2 ^ w -> same_prefix w w a b -> a = b.
Proof.
  intros w a b Ha Hb H. apply N.bits_inj. intros j. destruct (N.lt_ge_cases j w) as [L|L].
  - specialize (H (w - 1 - j)). replace (w - 1 - (w - 1 - j)) with j in H by lia. apply H. lia.
  - assert (K : forall x, x < 2 ^ w -> N.testbit x j = false).
    { intros x Hx. destruct (N.eq_dec x 0) as [->|N0]; [apply N.bits_0|]. apply N.bits_above_log2.
      apply N.log2_lt_pow2 in Hx; lia. }
    rewrite !K by assumption. reflexivity.
Qed.
Theorem localhost_only : forall l authzs client t, server_authorizations l = Some authzs -> ip_wf client ->
  authorized authzs client t ->
  client = V4 (127 * 2 ^ 24 + 1) \/ client = V6 1 \/
  exists a z, In a l /\ authz_of a = Some z /\ authorized [z] client t.
Proof.
  intros l authzs client t. unfold server_authorizations, mk_authorizations.
  destruct (all_some _) as [r|] eqn:E; [|discriminate]. intros H Hc. injection H as <-.
  intros (a & Hin & (n & Hn & Hcov) & Hm). apply in_app_iff in Hin as [Hin|[<-|[]]].
  - right. right. apply (all_some_in _ _ _ a E) in Hin. apply in_map_iff in Hin as (x & Hx & Hin).
    exists x, a. split; [exact Hin|]. split; [exact Hx|]. exists a. split; [left; reflexivity|]. eauto.
  - destruct Hcov as [Hcov _]. destruct Hn as [<-|[<-|[]]]; destruct client as [c|c]; cbn [n_net in_net] in Hcov; try tauto.
    + left. f_equal. symmetry. apply (same_prefix_all 32); [reflexivity|exact Hc|exact Hcov].
    + right. left. f_equal. symmetry. apply (same_prefix_all 128); [reflexivity|exact Hc|exact Hcov].
Qed.
(** What an authorization sent by the control plane allows *)
Lemma authz_of_some : forall a z, authz_of a = Some z ->
  aa_networks a <> [] /\ exists p, aa_permit a = Some p /\ authn_of p = Some (au_authentication z) /\
  (forall n, In n (au_networks z) <-> exists m, In m (aa_networks a) /\ net_of m = Some n).
Proof.
  intros [ns p] z. unfold authz_of. cbn [aa_networks aa_permit]. destruct ns as [|n0 ns]; [discriminate|].
  set (l := n0 :: ns). intros H. split; [discriminate|].
  destruct (all_some (map net_of l)) as [r|] eqn:E; [|discriminate]. destruct p as [p|]; [|discriminate].
  destruct (authn_of p) as [au|] eqn:A; [|discriminate]. injection H as <-. exists p. split; [reflexivity|]. split; [exact A|].
  intros n. cbn [au_networks]. rewrite (all_some_in _ _ _ n E), in_map_iff. firstorder.
Qed.
Lemma net_of_some : forall n m, net_of n = Some m -> an_net n = Some (n_net m) /\ forall e, In (Some e) (an_except n) <-> In e (n_except m).
Proof.
  intros n m. unfold net_of. destruct (an_net n) as [x|]; [|discriminate]. destruct (all_some (an_except n)) as [r|] eqn:E; [|discriminate].
  intros H. injection H as <-. split; [reflexivity|]. intros e. cbn. symmetry. exact (all_some_in _ _ _ e E).
Qed.
Lemma authn_of_some : forall p a t, authn_of p = Some a -> (meets a t <-> permits p t).
Proof.
  intros [|[[|names sfxs]|]] a t H; try discriminate; injection H as <-; cbn [meets permits]; [tauto..|].
  split; intros (i & E & H); exists i; (split; [exact E|]); destruct i as [n|u]; auto; (destruct H as [H|(s & b & H & H2)]; [left; exact H|right]).
  - apply in_map_iff in H as (ls & <- & Hin).
    assert (Q : suffix_contains (suffix_of_parts ls) n = true) by (apply ends_with_iff; eauto).
    apply suffix_parts in Q as (before & Q). exists ls, before. auto.
  - assert (Q : suffix_contains (suffix_of_parts s) n = true) by (apply suffix_parts; eauto).
    apply ends_with_iff in Q as (before & Q). exists (suffix_of_parts s), before. split; [apply in_map; exact H|exact Q].
Qed.
Lemma all_some_conv : forall A (l : list (option A)) r, all_some l = Some r -> forall x, In x l -> exists y, x = Some y.
Proof.
  induction l as [|[a|] l IH]; intros r H x Hx; [destruct Hx| |discriminate]. cbn in H. destruct (all_some l) as [r'|]; [|discriminate].
  destruct Hx as [<-|Hx]; [eauto|]. exact (IH r' eq_refl x Hx).
Qed.
Lemma allows_iff : forall a z client t, authz_of a = Some z -> (authorized [z] client t <-> allows a client t).
Proof.
  intros a z client t H. pose proof (authz_of_some a z H) as (_ & p & Hp & Ha & Hn).
  unfold authorized, allows. split.
  - intros (x & [<-|[]] & (n & Hin & [C1 C2]) & M). split.
    + apply Hn in Hin as (m & Hin & Hm). exists m. split; [exact Hin|]. apply net_of_some in Hm as [E1 E2].
      split; [exists (n_net n); auto|]. intros e He. apply C2, E2, He.
    + exists p. split; [exact Hp|]. apply (authn_of_some _ _ t Ha). exact M.
  - intros [(m & Hin & (x & Ex & Hx) & C2) (p' & Ep & M)]. rewrite Hp in Ep. injection Ep as <-.
    exists z. split; [left; reflexivity|]. split; [|apply (authn_of_some _ _ t Ha); exact M].
    assert (S : exists n, net_of m = Some n).
    { unfold authz_of in H. destruct (aa_networks a) as [|n0 ns] eqn:En; [destruct Hin|]. destruct (all_some (map net_of (n0 :: ns))) as [r|] eqn:R; [|discriminate].
      apply (all_some_conv _ _ _ R). apply in_map. exact Hin. }
    destruct S as (n & Hm). exists n. split; [apply Hn; eauto|]. apply net_of_some in Hm as [E1 E2]. rewrite Ex in E1. injection E1 as ->.
    split; [exact Hx|]. intros e He. apply C2, E2, He.
Qed.
Theorem localhost_exactly : forall l authzs client t, server_authorizations l = Some authzs -> ip_wf client ->
  (authorized authzs client t <->
   client = V4 (127 * 2 ^ 24 + 1) \/ client = V6 1 \/ exists a, In a l /\ allows a client t).
Proof.
  intros l authzs client t H Hc. split.
  - intros A. destruct (localhost_only l authzs client t H Hc A) as [->|[->|(a & z & Hin & Ha & Hz)]]; [auto..|].
    right. right. exists a. split; [exact Hin|]. apply (allows_iff a z); assumption.
  - intros [->|[->|(a & Hin & A)]]; [apply (localhost_authorized l authzs t H)..|].
    unfold server_authorizations, mk_authorizations in H. destruct (all_some (map authz_of l)) as [r|] eqn:R; [|discriminate]. injection H as <-.
    destruct (all_some_conv _ _ _ R (authz_of a) (in_map _ _ _ Hin)) as (z & Hz).
    apply (allows_iff a z) in A; [|exact Hz]. destruct A as (x & [<-|[]] & A). exists z. split; [|exact A].
    apply in_app_iff. left. apply (all_some_in _ _ _ z R). rewrite <- Hz. apply in_map. exact Hin.
Qed.
