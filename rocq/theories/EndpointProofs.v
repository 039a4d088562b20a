(** Proofs of C56 *)
From Coq Require Import List NArith ZArith Bool Lia ZifyBool ZifyN Sorted Permutation.
From Verif Require Import Bytes BytesProofs NameModel NameSpec NameProofs EndpointModel EndpointSpec.
Import ListNotations.
Open Scope N_scope.

(** ** Addresses *)

Lemma big_endian_snoc l b : big_endian (l ++ [b]) = big_endian l * 256 + b.
Proof. unfold big_endian. rewrite fold_left_app. reflexivity. Qed.

Lemma be_inj n : forall l l' v, of_octets n l v -> of_octets n l' v -> l = l'.
Proof.
  induction n as [|n IH]; intros l l' v (L & F & B) (L' & F' & B').
  - destruct l; [|discriminate]. destruct l'; [reflexivity|discriminate].
  - destruct l as [|x0 l0] using rev_ind; [discriminate|]. clear IHl0.
    destruct l' as [|x1 l1] using rev_ind; [discriminate|]. clear IHl1.
    rewrite app_length in L, L'. cbn [length] in L, L'.
    apply Forall_app in F, F'. destruct F as [F X], F' as [F' X'].
    inversion X as [|? ? X0 _]; inversion X' as [|? ? X1 _]; subst.
    rewrite big_endian_snoc in B'. rewrite big_endian_snoc in B'.
    assert (big_endian l1 = big_endian l0 /\ x1 = x0) as [E ->] by lia.
    f_equal. apply (IH l0 l1 (big_endian l0)); (split; [lia|split; [assumption|congruence]]).
Qed.

Lemma octets4_ok n : n < 2 ^ 32 -> of_octets 4 (octets4 n) n.
Proof.
  intros H. unfold octets4, octet. rewrite !N.shiftr_div_pow2.
  split; [reflexivity|split].
  - repeat constructor; apply N.mod_lt; discriminate.
  - unfold big_endian. cbn [fold_left].
    change (2 ^ 24) with 16777216. change (2 ^ 16) with 65536. change (2 ^ 8) with 256. change (2 ^ 0) with 1.
    change (2 ^ 32) with 4294967296 in H. Ltac Zify.zify_post_hook ::= Z.div_mod_to_equations. lia.
Qed.
Lemma octets8_ok n : n < 2 ^ 64 -> of_octets 8 (octets8 n) n.
Proof.
  intros H. unfold octets8.
  assert (forall k b, octet n b = k mod 256 -> octet n b = k mod 256) as _ by auto.
  split; [reflexivity|split].
  - repeat constructor; apply N.mod_lt; discriminate.
  - unfold big_endian. cbn [fold_left]. unfold octet. rewrite !N.shiftr_div_pow2.
    assert (forall b, n / 2 ^ (b + 8) = n / 2 ^ b / 256) as D by (intros b; rewrite N.pow_add_r, N.div_div by (try apply N.pow_nonzero; discriminate); reflexivity).
    pose proof (D 48) as D48. pose proof (D 40) as D40. pose proof (D 32) as D32. pose proof (D 24) as D24.
    pose proof (D 16) as D16. pose proof (D 8) as D8. pose proof (D 0) as D0. clear D.
    change (48 + 8) with 56 in *. change (40 + 8) with 48 in *. change (32 + 8) with 40 in *. change (24 + 8) with 32 in *.
    change (16 + 8) with 24 in *. change (8 + 8) with 16 in *. change (0 + 8) with 8 in *.
    assert (n / 2 ^ 0 = n) as E0 by (change (2 ^ 0) with 1; apply N.div_1_r).
    assert (n / 2 ^ 56 < 256) as E56 by (apply N.div_lt_upper_bound; [discriminate|exact H]).
    rewrite E0 in *.
    set (d56 := n / 2 ^ 56) in *. set (d48 := n / 2 ^ 48) in *. set (d40 := n / 2 ^ 40) in *. set (d32 := n / 2 ^ 32) in *.
    set (d24 := n / 2 ^ 24) in *. set (d16 := n / 2 ^ 16) in *. set (d8 := n / 2 ^ 8) in *.
    clearbody d56 d48 d40 d32 d24 d16 d8.
    rewrite (N.mod_small d56) by assumption.
    assert (forall a, a / 256 * 256 + a mod 256 = a) as R by (intros a; rewrite N.mul_comm; symmetry; apply N.div_mod; discriminate).
    change (0 * 256 + d56) with d56.
    rewrite D48, R, D40, R, D32, R, D24, R, D16, R, D8, R, D0, R. reflexivity.
Qed.

Lemma big_endian_app l : forall l', big_endian (l ++ l') = big_endian l * 256 ^ N.of_nat (length l') + big_endian l'.
Proof.
  induction l' as [|x l' IH] using rev_ind; [rewrite app_nil_r; cbn; lia|].
  rewrite app_assoc, !big_endian_snoc, IH, app_length. cbn [length].
  replace (N.of_nat (length l' + 1)) with (N.succ (N.of_nat (length l'))) by lia.
  rewrite N.pow_succ_r'. generalize (256 ^ N.of_nat (length l')). intros. nia.
Qed.

Lemma of_octets_app hi lo n m : of_octets 8 hi n -> of_octets 8 lo m -> of_octets 16 (hi ++ lo) (n * 2 ^ 64 + m).
Proof.
  intros (L & F & B) (L' & F' & B'). split; [rewrite app_length; lia|split].
  - apply Forall_app. split; assumption.
  - rewrite big_endian_app, L', B, B'. reflexivity.
Qed.

Lemma to_sock_addr_iff t a : tcp_ok t -> (to_sock_addr t = Some a <-> located t a).
Proof.
  unfold tcp_ok, to_sock_addr, located. change (2 ^ 16) with 65536. intros O. destruct a as [ip port]. cbn [s_ip s_port].
  destruct (p_ip t) as [[[n|hi lo]|]|].
  - split.
    + intros [= <- <-]. split; [reflexivity|left]. exists n. split; [reflexivity|apply octets4_ok; exact O].
    + intros (-> & [(n' & [= <-] & B)|(hi & lo & [=] & _)]). do 2 f_equal.
      exact (be_inj _ _ _ _ (octets4_ok n O) B).
  - destruct O as [Oh Ol].
    assert (of_octets 16 (octets8 hi ++ octets8 lo) (hi * 2 ^ 64 + lo)) as B0
      by (apply of_octets_app; apply octets8_ok; assumption).
    split.
    + intros [= <- <-]. split; [reflexivity|right]. exists hi, lo. split; [reflexivity|exact B0].
    + intros (-> & [(n & [=] & _)|(hi' & lo' & [= <- <-] & B)]). do 2 f_equal. exact (be_inj _ _ _ _ B0 B).
  - split; [discriminate|]. intros (_ & [(? & [=] & _)|(? & ? & [=] & _)]).
  - split; [discriminate|]. intros (_ & [(? & [=] & _)|(? & ? & [=] & _)]).
Qed.

Lemma address_inj t t' a :
  tcp_ok t -> tcp_ok t' -> p_port t < 2 ^ 16 -> p_port t' < 2 ^ 16 ->
  to_sock_addr t = Some a -> to_sock_addr t' = Some a -> t = t'.
Proof.
  intros O O' P P' H H'. apply to_sock_addr_iff in H; [|exact O]. apply to_sock_addr_iff in H'; [|exact O'].
  destruct H as [Q H], H' as [Q' H']. rewrite N.mod_small in Q, Q' by assumption.
  unfold tcp_ok in *. destruct t as [ip port], t' as [ip' port']. cbn [p_ip p_port] in *.
  destruct H as [(n & -> & L & F & B)|(hi & lo & -> & L & F & B)], H' as [(n' & -> & L' & F' & B')|(hi' & lo' & -> & L' & F' & B')];
    rewrite L in L'; try discriminate.
  - congruence.
  - rewrite B in B'. destruct O, O'. change (2 ^ 64) with 18446744073709551616 in *. 
    assert (hi = hi' /\ lo = lo') as [-> ->] by lia. congruence.
Qed.

(** ** Labels *)

Lemma cmp_lt a : forall b, cmp a b = Lt <-> precedes a b.
Proof.
  induction a as [|x a IH]; intros [|y b]; cbn [cmp].
  - split; [discriminate|]. intros (p & [(z & r & <- & E)|(u & v & r & r' & E & _)]); [discriminate E|destruct p; discriminate E].
  - split; [intros _|reflexivity]. exists []. left. exists y, b. split; reflexivity.
  - split; [discriminate|]. intros (p & [(z & r & <- & E)|(u & v & r & r' & _ & E & _)]); [discriminate E|destruct p; discriminate E].
  - destruct (N.compare_spec x y) as [->|L|L].
    + rewrite IH. split.
      * intros (p & [(z & r & -> & ->)|(u & v & r & r' & -> & -> & l)]); exists (y :: p).
        -- left. exists z, r. split; reflexivity.
        -- right. exists u, v, r, r'. repeat split; assumption.
      * intros (p & [(z & r & <- & E)|(u & v & r & r' & E & E' & l)]).
        -- injection E as ->. exists a. left. exists z, r. split; reflexivity.
        -- destruct p as [|w p]; injection E as E0 E1; injection E' as E2 E3; [lia|].
           subst a b. exists p. right. exists u, v, r, r'. repeat split; assumption.
    + split; [intros _|reflexivity]. exists []. right. exists x, y, a, b. repeat split; assumption.
    + split; [discriminate|]. intros (p & [(z & r & <- & E)|(u & v & r & r' & E & E' & l)]); [injection E as E1 E2; lia|].
      destruct p as [|w p]; injection E as E0 E1; injection E' as E2 E3; lia.
Qed.
Lemma cmp_eq a : forall b, cmp a b = Eq <-> a = b.
Proof.
  induction a as [|x a IH]; intros [|y b]; cbn [cmp]; try (split; [discriminate|discriminate]).
  - split; reflexivity.
  - destruct (N.compare_spec x y) as [->|L|L].
    + rewrite IH. split; [intros ->; reflexivity|intros [= ->]; reflexivity].
    + split; [discriminate|]. intros [= -> _]. lia.
    + split; [discriminate|]. intros [= -> _]. lia.
Qed.
Lemma cmp_antisym a : forall b, cmp b a = CompOpp (cmp a b).
Proof.
  induction a as [|x a IH]; intros [|y b]; cbn [cmp]; try reflexivity.
  rewrite (N.compare_antisym x y). destruct (x ?= y); cbn [CompOpp]; [apply IH|reflexivity|reflexivity].
Qed.
Lemma precedes_irrefl a : ~ precedes a a.
Proof. intros H. apply cmp_lt in H. assert (cmp a a = Eq) by (apply cmp_eq; reflexivity). congruence. Qed.
Lemma precedes_trans a b c : precedes a b -> precedes b c -> precedes a c.
Proof.
  rewrite <- !cmp_lt. revert b c. induction a as [|x a IH]; intros [|y b] [|z c]; cbn [cmp]; try discriminate; try reflexivity.
  destruct (N.compare_spec x y) as [->|L|L]; destruct (N.compare_spec y z) as [->|L'|L']; intros H H'; try discriminate.
  - eapply IH; eassumption.
  - reflexivity.
  - apply N.compare_lt_iff in L. rewrite L. reflexivity.
  - assert (x < z) as L2 by lia. apply N.compare_lt_iff in L2. rewrite L2. reflexivity.
Qed.

Lemma bt_insert_in k v m k' v' :
  StronglySorted precedes (map fst m) ->
  (In (k', v') (bt_insert k v m) <-> (k' = k /\ v' = v) \/ (k' <> k /\ In (k', v') m)).
Proof.
  induction m as [|[k0 v0] m IH]; cbn [bt_insert map fst]; intros S0.
  - cbn. split; [intros [[= <- <-]|[]]; left; split; reflexivity|intros [[-> ->]|[_ []]]; left; reflexivity].
  - inversion S0 as [|? ? S1 F]; subst.
    assert (forall y, In (k', y) m -> precedes k0 k') as F'
      by (intros y J; rewrite Forall_forall in F; apply F; apply in_map_iff; exists (k', y); split; [reflexivity|exact J]).
    destruct (cmp k k0) eqn:E.
    + apply cmp_eq in E. subst k0. cbn [In]. split.
      * intros [[= <- <-]|J]; [left; split; reflexivity|right].
        split; [|right; exact J]. intros ->. exact (precedes_irrefl _ (F' _ J)).
      * intros [[-> ->]|[Ne [[= -> _]|J]]]; [left; reflexivity|contradiction|right; exact J].
    + apply cmp_lt in E. cbn [In]. split.
      * intros [[= <- <-]|[[= <- <-]|J]]; [left; split; reflexivity| |].
        -- right. split; [intros ->; exact (precedes_irrefl _ E)|left; reflexivity].
        -- right. split; [intros ->; exact (precedes_irrefl _ (precedes_trans _ _ _ E (F' _ J)))|right; exact J].
      * intros [[-> ->]|[Ne J]]; [left; reflexivity|right; exact J].
    + assert (precedes k0 k) as E' by (apply cmp_lt; rewrite cmp_antisym, E; reflexivity).
      cbn [In]. rewrite IH by exact S1. split.
      * intros [[= <- <-]|[[-> ->]|[Ne J]]].
        -- right. split; [intros ->; exact (precedes_irrefl _ E')|left; reflexivity].
        -- left. split; reflexivity.
        -- right. split; [exact Ne|right; exact J].
      * intros [[-> ->]|[Ne [[= <- <-]|J]]].
        -- right. left. split; reflexivity.
        -- left. reflexivity.
        -- right. right. split; assumption.
Qed.
Lemma bt_insert_keys k v m x : In x (map fst (bt_insert k v m)) -> x = k \/ In x (map fst m).
Proof.
  induction m as [|[k0 v0] m IH]; cbn [bt_insert map fst In]; [intros [<-|[]]; left; reflexivity|].
  destruct (cmp k k0) eqn:E; cbn [map fst In].
  - intros [<-|J]; [left; reflexivity|right; right; exact J].
  - intros [<-|J]; [left; reflexivity|right; exact J].
  - intros [<-|J]; [right; left; reflexivity|]. destruct (IH J) as [->|J']; [left; reflexivity|right; right; exact J'].
Qed.
Lemma bt_insert_sorted k v m : StronglySorted precedes (map fst m) -> StronglySorted precedes (map fst (bt_insert k v m)).
Proof.
  induction m as [|[k0 v0] m IH]; cbn [bt_insert map fst]; intros S0; [repeat constructor|].
  inversion S0 as [|? ? S1 F]; subst. destruct (cmp k k0) eqn:E; cbn [map fst].
  - apply cmp_eq in E. subst k0. exact S0.
  - apply cmp_lt in E. constructor; [exact S0|]. constructor; [exact E|].
    eapply Forall_impl; [|exact F]. intros a Fa. exact (precedes_trans _ _ _ E Fa).
  - assert (precedes k0 k) as E' by (apply cmp_lt; rewrite cmp_antisym, E; reflexivity).
    constructor; [apply IH; exact S1|]. apply Forall_forall. intros x J. destruct (bt_insert_keys _ _ _ _ J) as [->|J']; [exact E'|].
    rewrite Forall_forall in F. apply F. exact J'.
Qed.

Lemma bt_collect_spec l :
  StronglySorted precedes (map fst (bt_collect l)) /\
  forall k v, In (k, v) (bt_collect l) <-> exists a b, l = a ++ (k, v) :: b /\ ~ In k (map fst b).
Proof.
  induction l as [|[k0 v0] l [S0 IH]] using rev_ind.
  - split; [constructor|]. intros k v. split; [intros []|]. intros (a & b & E & _). destruct a; discriminate.
  - unfold bt_collect. rewrite fold_left_app. cbn [fold_left fst snd]. change (fold_left _ l []) with (bt_collect l).
    split; [apply bt_insert_sorted; exact S0|]. intros k v. rewrite bt_insert_in by exact S0. rewrite IH. split.
    + intros [[-> ->]|(Ne & a & b & -> & Nb)].
      * exists l, []. split; [reflexivity|intros []].
      * exists a, (b ++ [(k0, v0)]). split; [rewrite <- app_assoc; reflexivity|].
        rewrite map_app, in_app_iff. intros [J|[J|[]]]; [exact (Nb J)|exact (Ne (eq_sym J))].
    + intros (a & b & E & Nb). destruct b as [|[k1 v1] b _] using rev_ind.
      * apply app_inj_tail in E as [-> [= -> ->]]. left. split; reflexivity.
      * rewrite app_comm_cons, app_assoc in E. apply app_inj_tail in E as [-> [= -> ->]].
        rewrite map_app, in_app_iff in Nb. cbn in Nb. right. split; [intros ->; apply Nb; right; left; reflexivity|]. exists a, b. split; [reflexivity|tauto].
Qed.

Lemma last_in_nodup k v (l : list (bytes * bytes)) :
  NoDup (map fst l) -> ((exists a b, l = a ++ (k, v) :: b /\ ~ In k (map fst b)) <-> In (k, v) l).
Proof.
  intros D. split.
  - intros (a & b & -> & _). apply in_elt.
  - intros J. apply in_split in J as (a & b & ->). exists a, b. split; [reflexivity|].
    rewrite map_app in D. cbn [map fst] in D. apply NoDup_remove_2 in D. rewrite in_app_iff in D. tauto.
Qed.

Lemma labels_spec set own k v :
  NoDup (map fst set) -> NoDup (map fst own) ->
  (In (k, v) (bt_collect (set ++ own)) <-> In (k, v) own \/ (In (k, v) set /\ ~ In k (map fst own))).
Proof.
  intros D1 D2. rewrite (proj2 (bt_collect_spec _)). split.
  - intros (a & b & E & Nb). apply app_eq_app in E as (m & [[-> E]|[-> E]]).
    + destruct m as [|x m].
      * cbn in E. left. subst own. left. reflexivity.
      * injection E as <- ->. right. split; [apply in_elt|]. intros J. apply Nb. rewrite map_app, in_app_iff. right. exact J.
    + left. subst own. apply in_elt.
  - intros [J|[J NJ]].
    + apply (last_in_nodup k v own D2) in J as (a & b & -> & Nb). exists (set ++ a), b. rewrite <- app_assoc. split; [reflexivity|exact Nb].
    + apply (last_in_nodup k v set D1) in J as (a & b & -> & Nb). exists a, (b ++ own). rewrite <- app_assoc. split; [reflexivity|].
      rewrite map_app, in_app_iff. tauto.
Qed.

Lemma sorted_nodup l : StronglySorted precedes l -> NoDup l.
Proof.
  induction 1 as [|x l S0 IH F]; constructor; [|exact IH]. intros J. rewrite Forall_forall in F. exact (precedes_irrefl _ (F _ J)).
Qed.
Lemma sorted_unique l : forall l' : list (bytes * bytes),
  StronglySorted precedes (map fst l) -> StronglySorted precedes (map fst l') ->
  (forall e, In e l <-> In e l') -> l = l'.
Proof.
  induction l as [|e l IH]; intros l' S1 S2 E.
  - destruct l' as [|e' l']; [reflexivity|]. destruct (proj2 (E e') (or_introl eq_refl)).
  - destruct l' as [|e' l']; [destruct (proj1 (E e) (or_introl eq_refl))|].
    inversion S1 as [|? ? S1' F1]; inversion S2 as [|? ? S2' F2]; subst. rewrite Forall_forall in F1, F2.
    assert (e = e') as ->.
    { destruct (proj1 (E e) (or_introl eq_refl)) as [->|J]; [reflexivity|].
      destruct (proj2 (E e') (or_introl eq_refl)) as [<-|J']; [reflexivity|].
      exfalso. eapply precedes_irrefl. eapply precedes_trans; [apply F1; apply in_map; exact J'|apply F2; apply in_map; exact J]. }
    f_equal. apply IH; [assumption|assumption|]. intros x. specialize (E x). cbn [In] in E.
    assert (forall y, In y l -> y <> e') as A1 by (intros y J ->; exact (precedes_irrefl _ (F1 _ (in_map fst _ _ J)))).
    assert (forall y, In y l' -> y <> e') as A2 by (intros y J ->; exact (precedes_irrefl _ (F2 _ (in_map fst _ _ J)))).
    split; intros J.
    + destruct (proj1 E (or_intror J)) as [<-|J']; [destruct (A1 _ J eq_refl)|exact J'].
    + destruct (proj2 E (or_intror J)) as [<-|J']; [destruct (A2 _ J eq_refl)|exact J'].
Qed.

Lemma assoc_iff k l v : NoDup (map fst l) -> (assoc k l = Some v <-> In (k, v) l).
Proof.
  induction l as [|[k0 v0] l IH]; cbn [assoc map fst In]; intros D; [split; [discriminate|intros []]|].
  inversion D as [|? ? Nk D']; subst. destruct (beq k k0) eqn:E.
  - apply beq_eq in E. subst k0. split; [intros [= ->]; left; reflexivity|].
    intros [[= ->]|J]; [reflexivity|]. destruct Nk. apply in_map_iff. exists (k, v). split; [reflexivity|exact J].
  - rewrite IH by exact D'. split; [intros J; right; exact J|]. intros [[= -> _]|J]; [rewrite beq_refl in E; discriminate|exact J].
Qed.

(** ** Metadata *)

Lemma opt_ext {A} (o o' : option A) : (forall x, o = Some x <-> o' = Some x) -> o = o'.
Proof.
  intros H. destruct o as [x|].
  - symmetry. apply H. reflexivity.
  - destruct o' as [y|]; [|reflexivity]. symmetry. symmetry. apply H. reflexivity.
Qed.

Section Meta.
Variable parse_url : bytes -> option bytes.
Variable parse_authority : bytes -> option bytes.
Variable to_duration : pb_duration -> option N.
Notation identifies := (identifies parse_url).
Notation described := (described parse_url parse_authority to_duration).
Notation to_addr_meta := (to_addr_meta parse_url parse_authority to_duration).

Lemma parse_dns_id_iff s i :
  parse_dns_id s = Some i <-> dns_name s /\ (forall r, s <> r ++ [dot]) /\ i = Dns (lowers s).
Proof.
  unfold parse_dns_id. destruct (name_from_str s) as [n|] eqn:E.
  - apply name_from_str_spec in E as [V ->]. destruct (ends_with [46] (lowers s)) eqn:W.
    + split; [discriminate|]. intros (_ & Nd & _). exfalso. apply ends_with_iff in W as (r & W).
      destruct s as [|c s _] using rev_ind; [destruct r; discriminate|].
      rewrite lowers_app in W. cbn [lowers map] in W. apply app_inj_tail in W as [_ W]. apply (Nd s). f_equal. f_equal.
      exact (proj1 (lower_dot c) W).
    + split; [intros [= <-]|intros (_ & _ & ->); reflexivity]. split; [exact V|split; [|reflexivity]].
      intros r ->. rewrite lowers_app in W. assert (ends_with [46] (lowers r ++ lowers [dot]) = true) by (apply ends_with_iff; exists (lowers r); reflexivity).
      congruence.
  - split; [discriminate|]. intros (V & _). assert (name_from_str s = Some (lowers s)) by (apply name_from_str_spec; split; [exact V|reflexivity]). congruence.
Qed.

Lemma to_identity_iff pb t : to_identity parse_url pb = Some t <-> identifies pb t.
Proof.
  unfold to_identity, EndpointSpec.identifies, parse_uri_id. destruct pb as [strategy server_name]. cbn [p_strategy p_server_name].
  set (oid := match strategy with Some (Dns_like name) => parse_dns_id name
                                | Some (Uri_like uri) => match parse_url uri with Some u => Some (Uri u) | None => None end
                                | None => None end).
  assert (forall i, oid = Some i <->
    ((exists s, strategy = Some (Dns_like s) /\ dns_name s /\ (forall r, s <> r ++ [dot]) /\ i = Dns (lowers s)) \/
     (exists s u, strategy = Some (Uri_like s) /\ parse_url s = Some u /\ i = Uri u))) as O.
  { intros i. unfold oid. destruct strategy as [[s|s]|].
    - rewrite parse_dns_id_iff. split; [intros H; left; exists s; split; [reflexivity|exact H]|].
      intros [(? & [= <-] & H)|(? & ? & [=] & _)]. exact H.
    - destruct (parse_url s) as [u|] eqn:U.
      + split; [intros [= <-]; right; exists s, u; repeat split; assumption|].
        intros [(? & [=] & _)|(s' & u' & [= <-] & U' & ->)]. congruence.
      + split; [discriminate|]. intros [(? & [=] & _)|(s' & u' & [= <-] & U' & ->)]. congruence.
    - split; [discriminate|]. intros [(? & [=] & _)|(? & ? & [=] & _)]. }
  clearbody oid. destruct t as [i n al]. cbn [t_id t_name t_alpn]. rewrite <- (O i). destruct oid as [i0|].
  2:{ split; [discriminate|]. intros (_ & [=] & _). }
  set (onm := match server_name with Some name => name_from_str name | None => match i0 with Dns dns => Some dns | Uri _ => None end end).
  assert (forall n, onm = Some n <->
    (exists s, server_name = Some s /\ dns_name s /\ n = lowers s) \/ (server_name = None /\ i0 = Dns n)) as Q.
  { intros n0. unfold onm. destruct server_name as [s|].
    - rewrite name_from_str_spec. split; [intros H; left; exists s; split; [reflexivity|exact H]|].
      intros [(? & [= <-] & H)|([=] & _)]. exact H.
    - destruct i0 as [d|u].
      + split; [intros [= <-]; right; split; reflexivity|]. intros [(? & [=] & _)|(_ & [= ->])]. reflexivity.
      + split; [discriminate|]. intros [(? & [=] & _)|(_ & [=])]. }
  clearbody onm. split.
  - destruct onm as [n0|]; [|discriminate]. intros [= <- <- <-]. split; [reflexivity|split; [reflexivity|]]. apply Q. reflexivity.
  - intros (-> & [= <-] & R). assert (onm = Some n) as -> by (apply Q; exact R). reflexivity.
Qed.

Lemma positive_some o n : positive o = Some n <-> o = Some n /\ 0 < n.
Proof.
  unfold positive. destruct o as [k|]; [|split; [discriminate|intros [[=] _]]].
  destruct (0 <? k) eqn:E; split.
  - intros [= <-]. split; [reflexivity|lia].
  - intros [[= <-] _]. reflexivity.
  - discriminate.
  - intros [[= <-] H]. lia.
Qed.
Lemma internals_iff (f : pb_internals -> N) p n :
  positive (option_map f (p_internals p)) = Some n <->
  0 < n /\ exists p0 i, Some p = Some p0 /\ p_internals p0 = Some i /\ f i = n.
Proof.
  rewrite positive_some. split.
  - intros [H P]. split; [exact P|]. destruct (p_internals p) as [i|] eqn:E; [|discriminate]. injection H as H. exists p, i. repeat split; assumption.
  - intros [P (p0 & i & [= <-] & E & F)]. rewrite E. cbn. split; [congruence|exact P].
Qed.

Lemma h2_described_ok pb :
  h2_described to_duration pb (match pb with Some h => to_http2_client_params to_duration h | None => h2_default end).
Proof.
  unfold h2_described. destruct pb as [p|].
  - unfold to_http2_client_params. cbn [h_flow h_keep_alive h_reset_streams h_frame_size h_send_buf_size].
    split; [|split; [|split; [|split; [apply internals_iff|split; apply internals_iff]]]].
    + split.
      * destruct (p_flow p) as [f|] eqn:E; [|discriminate]. destruct (p_adaptive f) eqn:A.
        -- intros _. exists f. split; [exists p; split; [reflexivity|exact E]|exact A].
        -- destruct (0 <? p_connection_window f); [|discriminate]. destruct (0 <? p_stream_window f); discriminate.
      * intros (f & (p0 & [= <-] & E) & A). rewrite E, A. reflexivity.
    + intros s c. split.
      * destruct (p_flow p) as [f|] eqn:E; [|discriminate]. destruct (p_adaptive f) eqn:A; [discriminate|].
        destruct (0 <? p_connection_window f) eqn:C; [|discriminate]. destruct (0 <? p_stream_window f) eqn:S0; [|discriminate].
        intros [= <- <-]. exists f. split; [exists p; split; [reflexivity|exact E]|]. repeat split; try assumption; lia.
      * intros (f & (p0 & [= <-] & E) & A & <- & <- & S0 & C). rewrite E, A.
        assert (0 <? p_connection_window f = true) as -> by lia. assert (0 <? p_stream_window f = true) as -> by lia. reflexivity.
    + intros i t w. split.
      * destruct (p_keep_alive p) as [k|] eqn:E; [|discriminate].
        destruct (p_interval k) as [di|] eqn:I; [|discriminate]. destruct (to_duration di) as [i0|] eqn:I'; [|discriminate].
        destruct (p_timeout k) as [dt|] eqn:T; [|discriminate]. destruct (to_duration dt) as [t0|] eqn:T'; [|discriminate].
        intros [= <- <- <-]. exists k, di, dt. split; [exists p; split; [reflexivity|exact E]|]. repeat split; assumption.
      * intros (k & di & dt & (p0 & [= <-] & E) & I & I' & T & T' & <-). rewrite E, I, I', T, T'. reflexivity.
  - cbn [h2_default h_flow h_keep_alive h_reset_streams h_frame_size h_send_buf_size].
    repeat split; try discriminate.
    + intros (f & (p & [=] & _) & _).
    + intros (f & (p & [=] & _) & _).
    + intros (k & di & dt & (p & [=] & _) & _).
    + intros (_ & p & i & [=] & _).
    + intros (_ & p & i & [=] & _).
    + intros (_ & p & i & [=] & _).
Qed.

Lemma h2_unique pb h h' : h2_described to_duration pb h -> h2_described to_duration pb h' -> h = h'.
Proof.
  intros (A & F & K & R & S0 & B) (A' & F' & K' & R' & S0' & B').
  destruct h as [fl ka rs fs sb], h' as [fl' ka' rs' fs' sb'].
  cbn [h_flow h_keep_alive h_reset_streams h_frame_size h_send_buf_size] in *.
  assert (fl = fl') as ->.
  { apply opt_ext. intros [|s c]; [rewrite A, A'; reflexivity|rewrite F, F'; reflexivity]. }
  assert (ka = ka') as -> by (apply opt_ext; intros [i t w]; rewrite K, K'; reflexivity).
  assert (rs = rs') as -> by (apply opt_ext; intros n; rewrite R, R'; reflexivity).
  assert (fs = fs') as -> by (apply opt_ext; intros n; rewrite S0, S0'; reflexivity).
  assert (sb = sb') as -> by (apply opt_ext; intros n; rewrite B, B'; reflexivity).
  reflexivity.
Qed.

Lemma described_unique labels w m m' : described labels w m -> described labels w m' -> m = m'.
Proof.
  intros [S1 L1 W1 H1 O1 P1 T1 A1 Q1 Z1 R1] [S2 L2 W2 H2 O2 P2 T2 A2 Q2 Z2 R2].
  destruct m as [la we hi po tl au h2 zo], m' as [la' we' hi' po' tl' au' h2' zo'].
  cbn [m_labels m_weight m_hint m_port m_tls m_authority m_http2 m_zone_local] in *.
  assert (la = la') as -> by (apply sorted_unique; [assumption|assumption|intros [k v]; rewrite L1, L2; reflexivity]).
  assert (hi = hi') as ->.
  { destruct hi, hi'; try reflexivity; first
      [ pose proof (proj2 H2 (proj1 H1 eq_refl)) as X; discriminate X
      | pose proof (proj2 O2 (proj1 O1 eq_refl)) as X; discriminate X
      | pose proof (proj2 H1 (proj1 H2 eq_refl)) as X; discriminate X
      | pose proof (proj2 O1 (proj1 O2 eq_refl)) as X; discriminate X ]. }
  assert (po = po') as -> by (apply opt_ext; intros n; rewrite P1, P2; reflexivity).
  assert (tl = tl') as -> by (apply opt_ext; intros n; rewrite T1, T2; reflexivity).
  assert (au = au') as -> by (apply opt_ext; intros n; rewrite A1, A2; reflexivity).
  assert (zo = zo') as -> by (apply opt_ext; intros [|]; [rewrite Z1, Z2; reflexivity|rewrite R1, R2; reflexivity]).
  rewrite (h2_unique _ _ _ Q1 Q2). congruence.
Qed.

Lemma eq_case_lit v lit : lowers lit = lit -> (eq_ignore_case v lit = true <-> lowers v = lit).
Proof. intros L. rewrite eq_ignore_case_iff, L. reflexivity. Qed.

Lemma to_addr_meta_described w labels a m :
  labels_ok labels -> labels_ok (w_labels w) -> to_addr_meta w labels = Some (a, m) -> described labels w m.
Proof.
  intros D1 D2. unfold EndpointModel.to_addr_meta.
  destruct (match w_addr w with Some a => to_sock_addr a | None => None end) as [a0|]; [|discriminate].
  intros [= <- <-].
  constructor; cbn [m_labels m_weight m_hint m_port m_tls m_authority m_http2 m_zone_local].
  - apply bt_collect_spec.
  - intros k v. apply labels_spec; assumption.
  - reflexivity.
  - destruct (w_hint w) as [h|]; [|split; [discriminate|intros (? & [=] & _)]].
    destruct (p_protocol h) as [[|]|] eqn:P; (split; [intros Q; try discriminate Q; exists h; (split; [reflexivity|exact P])|]);
      intros (h' & [= <-] & P'); rewrite P in P'; try discriminate; reflexivity.
  - destruct (w_hint w) as [h|]; [|split; [discriminate|intros (? & [=] & _)]].
    destruct (p_protocol h) as [[|]|] eqn:P; (split; [intros Q; try discriminate Q; exists h; (split; [reflexivity|exact P])|]);
      intros (h' & [= <-] & P'); rewrite P in P'; try discriminate; reflexivity.
  - intros p. destruct (w_hint w) as [h|]; [|split; [discriminate|intros ((? & [=] & _) & _)]].
    destruct (p_opaque_transport h) as [q|] eqn:P; [|split; [discriminate|intros ((? & [= <-] & ?) & _); congruence]].
    destruct ((0 <? q) && (q <? 65535)) eqn:B.
    + split; [intros [= <-]; split; [exists h; split; [reflexivity|exact P]|lia]|]. intros ((? & [= <-] & E) & _). congruence.
    + split; [discriminate|]. intros ((? & [= <-] & E) & R). rewrite P in E. injection E as ->. lia.
  - intros t. destruct (w_tls w) as [pb|]; [|split; [discriminate|intros (? & [=] & _)]].
    rewrite to_identity_iff. split; [intros H; exists pb; split; [reflexivity|exact H]|]. intros (? & [= <-] & H). exact H.
  - intros s. destruct (w_authority w) as [pb|]; [|split; [discriminate|intros (? & [=] & _)]].
    split; [intros H; exists pb; split; [reflexivity|exact H]|]. intros (? & [= <-] & H). exact H.
  - apply h2_described_ok.
  - split.
    + destruct (assoc ZONE_LOCALITY (w_labels w)) as [v|] eqn:E; [|discriminate].
      destruct (eq_ignore_case v LOCAL) eqn:C; [|destruct (eq_ignore_case v REMOTE); discriminate]. intros _.
      exists v. split; [apply (assoc_iff ZONE_LOCALITY); [exact D2|exact E]|apply (eq_case_lit v LOCAL eq_refl); exact C].
    + intros (v & J & C). apply (assoc_iff ZONE_LOCALITY) in J; [|exact D2]. rewrite J.
      apply (eq_case_lit v LOCAL eq_refl) in C. rewrite C. reflexivity.
  - split.
    + destruct (assoc ZONE_LOCALITY (w_labels w)) as [v|] eqn:E; [|discriminate].
      destruct (eq_ignore_case v LOCAL) eqn:C; [discriminate|]. destruct (eq_ignore_case v REMOTE) eqn:C'; [|discriminate]. intros _.
      exists v. split; [apply (assoc_iff ZONE_LOCALITY); [exact D2|exact E]|apply (eq_case_lit v REMOTE eq_refl); exact C'].
    + intros (v & J & C). apply (assoc_iff ZONE_LOCALITY) in J; [|exact D2]. rewrite J.
      apply (eq_case_lit v REMOTE eq_refl) in C. rewrite C. destruct (eq_ignore_case v LOCAL) eqn:C'; [|reflexivity].
      apply (eq_case_lit v LOCAL eq_refl) in C'. apply (eq_case_lit v REMOTE eq_refl) in C. rewrite C' in C. discriminate.
Qed.

Lemma to_addr_meta_at w labels a :
  weighted_ok w -> ((exists m, to_addr_meta w labels = Some (a, m)) <-> at_ w a).
Proof.
  intros [_ O]. unfold EndpointModel.to_addr_meta, at_. destruct (w_addr w) as [t|].
  - split.
    + intros [m H]. destruct (to_sock_addr t) as [a0|] eqn:E; [|discriminate]. injection H as -> _. exists t.
      split; [reflexivity|]. apply to_sock_addr_iff; assumption.
    + intros (? & [= <-] & L). apply to_sock_addr_iff in L; [|exact O]. rewrite L. eexists. reflexivity.
  - split; [intros [m [=]]|intros (? & [=] & _)].
Qed.

Lemma to_addr_meta_iff w labels a m :
  weighted_ok w -> labels_ok labels -> (to_addr_meta w labels = Some (a, m) <-> at_ w a /\ described labels w m).
Proof.
  intros O L. split.
  - intros H. split; [apply (to_addr_meta_at w labels a O); exists m; exact H|]. eapply to_addr_meta_described; [exact L|apply O|exact H].
  - intros [A D]. apply (to_addr_meta_at w labels a O) in A as [m' A].
    rewrite (described_unique labels w m m'); [exact A|exact D|]. eapply to_addr_meta_described; [exact L|apply O|exact A].
Qed.

(** ** Histories *)

Lemma sock_eqb_eq a b : sock_eqb a b = true <-> a = b.
Proof.
  unfold sock_eqb. rewrite andb_true_iff, beq_eq, N.eqb_eq. destruct a, b. cbn. split; [intros [-> ->]; reflexivity|intros [= -> ->]; split; reflexivity].
Qed.
Lemma sock_eqb_refl a : sock_eqb a a = true.
Proof. apply sock_eqb_eq. reflexivity. Qed.

Notation mk_update := (mk_update parse_url parse_authority to_duration).
Notation updates := (updates parse_url parse_authority to_duration).
Notation announced := (announced parse_url parse_authority to_duration).

Lemma put_all eps : forall v a,
  fold_left put eps v a =
  match find (fun e => sock_eqb a (fst e)) (rev eps) with Some e => Some (snd e) | None => v a end.
Proof.
  induction eps as [|e eps IH]; intros v a; [reflexivity|]. cbn [fold_left rev]. rewrite IH.
  assert (forall (f : sock * metadata -> bool) l x, find f (l ++ [x]) = match find f l with Some y => Some y | None => if f x then Some x else None end) as FA.
  { intros f l x. induction l as [|y l IHl]; cbn; [reflexivity|]. destruct (f y); [reflexivity|exact IHl]. }
  rewrite FA. destruct (find _ (rev eps)); [reflexivity|]. unfold put. destruct (sock_eqb a (fst e)); reflexivity.
Qed.
Lemma drop_all l : forall v a, fold_left drop l v a = if existsb (sock_eqb a) l then None else v a.
Proof.
  induction l as [|x l IH]; intros v a; [reflexivity|]. cbn [fold_left existsb]. rewrite IH. unfold drop.
  destruct (sock_eqb a x), (existsb (sock_eqb a) l); reflexivity.
Qed.

Lemma filter_map_app {A B} (f : A -> option B) l l' : filter_map f (l ++ l') = filter_map f l ++ filter_map f l'.
Proof. induction l as [|x l IH]; [reflexivity|]. cbn. destruct (f x); rewrite IH; reflexivity. Qed.
Lemma filter_map_in {A B} (f : A -> option B) l y : In y (filter_map f l) <-> exists x, In x l /\ f x = Some y.
Proof.
  induction l as [|x l IH]; cbn; [split; [intros []|intros (? & [] & _)]|]. destruct (f x) as [z|] eqn:E; cbn; rewrite ?IH.
  - split; [intros [<-|(w & J & F)]; [exists x; split; [left; reflexivity|exact E]|exists w; split; [right; exact J|exact F]]|].
    intros (w & [<-|J] & F); [left; congruence|right; exists w; split; assumption].
  - split; [intros (w & J & F); exists w; split; [right; exact J|exact F]|].
    intros (w & [<-|J] & F); [congruence|exists w; split; assumption].
Qed.

(** What an update does to what is known at [a]: nothing, unless it mentions it *)
Lemma fold_add addrs labels : Forall weighted_ok addrs -> labels_ok labels ->
  forall v a m,
  fold_left put (filter_map (fun w => to_addr_meta w labels) addrs) v a = Some m <->
  (exists pre w post, addrs = pre ++ w :: post /\ at_ w a /\ (forall x, In x post -> ~ at_ x a) /\ described labels w m) \/
  (~ (exists w, In w addrs /\ at_ w a) /\ v a = Some m).
Proof.
  intros O L v a m. induction addrs as [|w addrs IH] using rev_ind.
  - cbn [filter_map fold_left]. split.
    + intros H. right. split; [intros (? & [] & _)|exact H].
    + intros [(pre & w & post & E & _)|[_ H]]; [destruct pre; discriminate|exact H].
  - apply Forall_app in O as [O Ow]. inversion Ow as [|? ? Ow' _]; subst. specialize (IH O).
    rewrite filter_map_app, fold_left_app. cbn [filter_map].
    destruct (to_addr_meta w labels) as [[a0 m0]|] eqn:E.
    + pose proof (proj1 (to_addr_meta_iff w labels a0 m0 Ow' L) E) as [A D].
      cbn [fold_left]. unfold put at 1. cbn [fst snd]. destruct (sock_eqb a a0) eqn:Q.
      * apply sock_eqb_eq in Q. subst a0. split.
        -- intros [= <-]. left. exists addrs, w, []. split; [reflexivity|split; [exact A|split; [intros ? []|exact D]]].
        -- intros [(pre & w' & post & E' & A' & N' & D')|[N' _]].
           ++ destruct post as [|w2 post _] using rev_ind.
              ** apply app_inj_tail in E' as [_ <-]. f_equal. eapply described_unique; eassumption.
              ** rewrite app_comm_cons, app_assoc in E'. apply app_inj_tail in E' as [_ <-]. destruct (N' w); [apply in_elt|exact A].
           ++ destruct N'. exists w. split; [apply in_elt|exact A].
      * rewrite IH. assert (~ at_ w a) as NA.
        { intros A'. apply (to_addr_meta_at w labels a Ow') in A' as [m' A']. rewrite E in A'. injection A' as -> _. rewrite sock_eqb_refl in Q. discriminate. }
        clear - NA. split.
        -- intros [(pre & w' & post & -> & A' & N' & D')|[N' H]].
           ++ left. exists pre, w', (post ++ [w]). split; [rewrite <- app_assoc; reflexivity|]. split; [exact A'|split; [|exact D']].
              intros x J. apply in_app_iff in J as [J|[<-|[]]]; [apply N'; exact J|exact NA].
           ++ right. split; [|exact H]. intros (x & J & A'). apply in_app_iff in J as [J|[<-|[]]]; [apply N'; exists x; split; assumption|exact (NA A')].
        -- intros [(pre & w' & post & E' & A' & N' & D')|[N' H]].
           ++ left. destruct post as [|w2 post _] using rev_ind.
              ** apply app_inj_tail in E' as [_ <-]. contradiction.
              ** rewrite app_comm_cons, app_assoc in E'. apply app_inj_tail in E' as [-> _]. exists pre, w', post.
                 split; [reflexivity|split; [exact A'|split; [|exact D']]]. intros x J. apply N'. apply in_app_iff. left. exact J.
           ++ right. split; [|exact H]. intros (x & J & A'). apply N'. exists x. split; [apply in_app_iff; left; exact J|exact A'].
    + assert (~ at_ w a) as NA.
      { intros A'. apply (to_addr_meta_at w labels a Ow') in A' as [m' A']. congruence. }
      cbn [fold_left]. rewrite IH. clear - NA. split.
        -- intros [(pre & w' & post & -> & A' & N' & D')|[N' H]].
           ++ left. exists pre, w', (post ++ [w]). split; [rewrite <- app_assoc; reflexivity|]. split; [exact A'|split; [|exact D']].
              intros x J. apply in_app_iff in J as [J|[<-|[]]]; [apply N'; exact J|exact NA].
           ++ right. split; [|exact H]. intros (x & J & A'). apply in_app_iff in J as [J|[<-|[]]]; [apply N'; exists x; split; assumption|exact (NA A')].
        -- intros [(pre & w' & post & E' & A' & N' & D')|[N' H]].
           ++ left. destruct post as [|w2 post _] using rev_ind.
              ** apply app_inj_tail in E' as [_ <-]. contradiction.
              ** rewrite app_comm_cons, app_assoc in E'. apply app_inj_tail in E' as [-> _]. exists pre, w', post.
                 split; [reflexivity|split; [exact A'|split; [|exact D']]]. intros x J. apply N'. apply in_app_iff. left. exact J.
           ++ right. split; [|exact H]. intros (x & J & A'). apply N'. exists x. split; [apply in_app_iff; left; exact J|exact A'].
Qed.

Lemma known_snoc ups u : known (updates (ups ++ [u])) = match mk_update u with Some x => apply (known (updates ups)) x | None => known (updates ups) end.
Proof.
  unfold known, EndpointModel.updates. rewrite filter_map_app, fold_left_app. cbn [filter_map]. destruct (mk_update u); reflexivity.
Qed.

Lemma announced_snoc h u a m :
  announced (h ++ [u]) a m <->
  (exists addrs labels, u = Some (Pb_add addrs labels) /\
     exists pre w post, addrs = pre ++ w :: post /\ at_ w a /\ (forall x, In x post -> ~ at_ x a) /\ described labels w m) \/
  (~ mentions u a /\ announced h a m).
Proof.
  split.
  - intros (before & addrs & labels & after & E & NM & W). destruct after as [|u' after _] using rev_ind.
    + apply app_inj_tail in E as [-> ->]. left. exists addrs, labels. split; [reflexivity|exact W].
    + rewrite app_comm_cons, app_assoc in E. apply app_inj_tail in E as [-> ->]. right.
      split; [apply NM; apply in_elt|]. exists before, addrs, labels, after. split; [reflexivity|split; [|exact W]].
      intros x J. apply NM. apply in_app_iff. left. exact J.
  - intros [(addrs & labels & -> & W)|(NM & before & addrs & labels & after & -> & NM' & W)].
    + exists h, addrs, labels, []. split; [reflexivity|split; [intros ? []|exact W]].
    + exists before, addrs, labels, (after ++ [u]). split; [rewrite <- app_assoc; reflexivity|split; [|exact W]].
      intros x J. apply in_app_iff in J as [J|[<-|[]]]; [apply NM'; exact J|exact NM].
Qed.

Lemma history h a m : Forall update_ok h -> (known (updates h) a = Some m <-> announced h a m).
Proof.
  induction h as [|u h IH] using rev_ind; intros O.
  - split; [discriminate|]. intros (before & ? & ? & ? & E & _). destruct before; discriminate.
  - apply Forall_app in O as [O Ou]. inversion Ou as [|? ? Ou' _]; subst. specialize (IH O).
    rewrite known_snoc, announced_snoc, <- IH. destruct u as [[addrs labels|addrs|ex]|]; cbn [EndpointModel.mk_update mentions].
    + destruct Ou' as [L W].
      assert (match (match filter_map (fun addr => to_addr_meta addr labels) addrs with [] => None | am => Some (Add am) end) with
              | Some x => apply (known (updates h)) x | None => known (updates h) end a
              = fold_left put (filter_map (fun w => to_addr_meta w labels) addrs) (known (updates h)) a) as ->
        by (destruct (filter_map _ addrs); reflexivity).
      rewrite (fold_add addrs labels W L). split.
      * intros [H|H]; [left; exists addrs, labels; split; [reflexivity|exact H]|right; exact H].
      * intros [(? & ? & [= <- <-] & H)|H]; [left; exact H|right; exact H].
    + assert (match (match filter_map to_sock_addr addrs with [] => None | am => Some (Remove am) end) with
              | Some x => apply (known (updates h)) x | None => known (updates h) end a
              = fold_left drop (filter_map to_sock_addr addrs) (known (updates h)) a) as ->
        by (destruct (filter_map _ addrs); reflexivity).
      rewrite drop_all.
      assert (existsb (sock_eqb a) (filter_map to_sock_addr addrs) = true <-> exists t, In t addrs /\ located t a) as X.
      { rewrite existsb_exists. split.
        - intros (x & J & Q). apply sock_eqb_eq in Q. subst x. apply filter_map_in in J as (t & J & E). exists t. split; [exact J|].
          apply to_sock_addr_iff; [|exact E]. cbn in Ou'. rewrite Forall_forall in Ou'. apply Ou'. exact J.
        - intros (t & J & E). exists a. split; [|apply sock_eqb_refl]. apply filter_map_in. exists t. split; [exact J|].
          apply to_sock_addr_iff; [|exact E]. cbn in Ou'. rewrite Forall_forall in Ou'. apply Ou'. exact J. }
      destruct (existsb (sock_eqb a) (filter_map to_sock_addr addrs)).
      * split; [discriminate|]. intros [(? & ? & [=] & _)|[N' _]]. destruct N'. apply X. reflexivity.
      * split; [intros H; right; split; [intros H'; apply X in H'; discriminate|exact H]|]. intros [(? & ? & [=] & _)|[_ H]]. exact H.
    + assert (apply (known (updates h)) (if ex then Reset [] else Does_not_exist) a = None) as -> by (destruct ex; reflexivity).
      split; [discriminate|]. intros [(? & ? & [=] & _)|[N' _]]. destruct N'. exact Logic.I.
    + split; [intros H; right; split; [intros []|exact H]|]. intros [(? & ? & [=] & _)|[_ H]]. exact H.
Qed.

(** No empty addition or removal is passed on. *)
Lemma no_empty h : Forall (fun u => u <> Add [] /\ u <> Remove []) (updates h).
Proof.
  apply Forall_forall. intros u J. apply filter_map_in in J as (x & _ & E). unfold EndpointModel.mk_update in E. destruct x as [[addrs labels|addrs|ex]|]; [| | |discriminate].
  - destruct (filter_map _ addrs); [discriminate|]. injection E as <-. split; discriminate.
  - destruct (filter_map _ addrs); [discriminate|]. injection E as <-. split; discriminate.
  - injection E as <-. destruct ex; split; discriminate.
Qed.

(** The order of the entries of a map does not matter. *)
Lemma order w labels w' labels' a m :
  weighted_ok w -> labels_ok labels ->
  w' = WeightedAddr (w_addr w) (w_weight w) (w_labels w') (w_tls w) (w_hint w) (w_authority w) (w_http2 w) ->
  Permutation (w_labels w) (w_labels w') -> Permutation labels labels' ->
  to_addr_meta w labels = Some (a, m) -> to_addr_meta w' labels' = Some (a, m).
Proof.
  intros O L E P P' H.
  assert (weighted_ok w') as O'.
  { destruct O as [Q1 Q2]. split; [|rewrite E; exact Q2]. unfold labels_ok. eapply Permutation_NoDup; [apply Permutation_map; exact P|exact Q1]. }
  assert (labels_ok labels') as L' by (unfold labels_ok; eapply Permutation_NoDup; [apply Permutation_map; exact P'|exact L]).
  apply to_addr_meta_iff in H as [A [S1 L1 W1 H1 O1 P1 T1 A1 Q1 Z1 R1]]; [|exact O|exact L].
  apply to_addr_meta_iff; [exact O'|exact L'|].
  assert (forall e, In e (w_labels w) <-> In e (w_labels w')) as I1
    by (intros e; split; apply Permutation_in; [exact P|symmetry; exact P]).
  assert (forall e, In e labels <-> In e labels') as I2
    by (intros e; split; apply Permutation_in; [exact P'|symmetry; exact P']).
  assert (forall k, In k (map fst (w_labels w)) <-> In k (map fst (w_labels w'))) as I3
    by (intros e; split; apply Permutation_in; apply Permutation_map; [exact P|symmetry; exact P]).
  rewrite E in *. cbn [w_labels] in *. split; [exact A|].
  constructor; cbn [w_addr w_weight w_labels w_tls w_hint w_authority w_http2]; try assumption.
  - intros k v. rewrite L1, I1, I2, I3. reflexivity.
  - rewrite Z1. split; intros (v & J & X); exists v; (split; [apply I1; exact J|exact X]).
  - rewrite R1. split; intros (v & J & X); exists v; (split; [apply I1; exact J|exact X]).
Qed.
End Meta.

Lemma override_from_ok base over :
  let h := override_from base over in
  (forall x, h_flow h = Some x <-> h_flow over = Some x \/ (h_flow over = None /\ h_flow base = Some x)) /\
  (forall x, h_keep_alive h = Some x <-> h_keep_alive over = Some x \/ (h_keep_alive over = None /\ h_keep_alive base = Some x)) /\
  (forall x, h_reset_streams h = Some x <-> h_reset_streams over = Some x \/ (h_reset_streams over = None /\ h_reset_streams base = Some x)) /\
  (forall x, h_frame_size h = Some x <-> h_frame_size over = Some x \/ (h_frame_size over = None /\ h_frame_size base = Some x)) /\
  (forall x, h_send_buf_size h = Some x <-> h_send_buf_size over = Some x \/ (h_send_buf_size over = None /\ h_send_buf_size base = Some x)).
Proof.
  assert (forall A (a b : option A) x, match a with Some y => Some y | None => b end = Some x <-> a = Some x \/ (a = None /\ b = Some x)) as G.
  { intros A [y|] b x; split.
    - intros H. left. exact H.
    - intros [H|[[=] _]]. exact H.
    - intros H. right. split; [reflexivity|exact H].
    - intros [[=]|[_ H]]. exact H. }
  cbv zeta. unfold override_from. cbn [h_flow h_keep_alive h_reset_streams h_frame_size h_send_buf_size].
  repeat (split; [intros x; apply G|]). intros x. apply G.
Qed.
