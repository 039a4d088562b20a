From Coq Require Import String List Arith NArith Bool Lia.
From Verif Require Import Bytes BytesProofs RouteModel FilterModel AuthzModel AuthzSpec AuthzProofs PolicyModel PolicySpec PolicyProofs PolicyStoreModel PolicyStoreSpec.
Import ListNotations.
Open Scope nat_scope.

(** ** C72 *)
Lemma beq_dec : forall a b, (a = b /\ beq a b = true) \/ (a <> b /\ beq a b = false).
Proof. intros a b. destruct (beq a b) eqn:E; [left; split; [apply beq_eq; exact E|reflexivity]|right; split; [|reflexivity]]. intros ->. rewrite beq_refl in E. discriminate. Qed.
Lemma same_iff : forall a b, meta_eqb a b = true <-> group a = group b /\ kind a = kind b /\ name a = name b.
Proof. intros a b. unfold meta_eqb. rewrite !andb_true_iff, !beq_eq. tauto. Qed.
Lemma hashed_iff : forall a b, hashed a = hashed b <-> meta_eqb a b = true.
Proof. intros a b. rewrite same_iff. unfold hashed. split; [intros H; injection H; auto|intros (-> & -> & ->); reflexivity]. Qed.

Lemma label_iff : forall l k v, distinct l -> (label k l = Some v <-> has l k v).
Proof.
  unfold label, has, distinct. induction l as [|[k' v'] l IH]; intros k v D; cbn [List.find In map fst].
  - split; [discriminate|intros []].
  - cbn [map fst] in D. inversion D as [|? ? N D']; subst. destruct (beq_dec k' k) as [[-> E]|[E E']].
    + rewrite E. cbn. split; [intros H; injection H as ->; left; reflexivity|]. intros [H|H]; [congruence|].
      destruct N. apply (in_map fst) in H. exact H.
    + rewrite E'. rewrite IH by exact D'. split; [auto|]. intros [H|H]; [congruence|exact H].
Qed.
Lemma label_none_iff : forall l k, label k l = None <-> lacks l k.
Proof.
  unfold label, lacks. induction l as [|[k' v'] l IH]; intros k; cbn [List.find In].
  - split; [intros _ v []|reflexivity].
  - cbn [fst]. destruct (beq_dec k' k) as [[-> E]|[E E']].
    + rewrite E. split; [discriminate|]. intros H. destruct (H v'). left. reflexivity.
    + rewrite E'. rewrite IH. split.
      * intros H v [Q|Q]; [congruence|exact (H v Q)].
      * intros H v Q. apply (H v). right. exact Q.
Qed.
Lemma label_in : forall l k, (exists v, label k l = Some v) <-> exists v, has l k v.
Proof.
  intros l k. split.
  - intros (v & H). destruct (label k l) eqn:E; [|discriminate]. unfold label in E.
    destruct (List.find _ l) as [[k' v']|] eqn:F; [|discriminate]. apply find_some in F as [I B]. apply beq_eq in B. cbn in B. subst.
    exists v'. exact I.
  - intros (v & H). destruct (label k l) eqn:E; [eauto|]. apply label_none_iff in E. destruct (E v H).
Qed.
Lemma has_lacks : forall l k v, has l k v -> lacks l k -> False.
Proof. intros l k v H L. exact (L v H). Qed.
Lemma has_fun : forall l k v w, distinct l -> has l k v -> has l k w -> v = w.
Proof. intros l k v w D H K. apply label_iff in H; [|exact D]. apply label_iff in K; [|exact D]. congruence. Qed.
Lemma grouped_iff : forall l dg g, distinct l ->
  (match label (bs "group") l with Some g => g | None => dg end = g <-> grouped l dg g).
Proof.
  intros l dg g D. split.
  - destruct (label (bs "group") l) eqn:E; intros ->.
    + apply g_label. apply label_iff; assumption.
    + apply g_default. apply label_none_iff. exact E.
  - intros [g' H|H]; [apply label_iff in H; [|exact D]|apply label_none_iff in H]; rewrite H; reflexivity.
Qed.
Lemma split_once_some : forall c s a b, split_once c s = Some (a, b) <-> s = a ++ c :: b /\ ~ In c a.
Proof.
  intros c. induction s as [|x s IH]; intros a b.
  - cbn. split; [discriminate|]. intros [H _]. destruct a; discriminate.
  - cbn [split_once]. destruct (N.eqb x c) eqn:E.
    + apply N.eqb_eq in E. subst. split.
      * intros H. injection H as <- <-. split; [reflexivity|intros []].
      * intros [H N]. destruct a as [|y a]; [injection H as <-; reflexivity|]. injection H as -> _. destruct N. left. reflexivity.
    + apply N.eqb_neq in E. destruct (split_once c s) as [[p q]|].
      * split.
        -- intros H. injection H as <- <-. destruct (proj1 (IH p q) eq_refl) as [-> N]. split; [reflexivity|].
           intros [H|H]; [congruence|exact (N H)].
        -- intros [H N]. destruct a as [|y a]; [injection H as -> _; congruence|]. injection H as <- H.
           assert (Q : Some (p, q) = Some (a, b)) by (apply IH; split; [exact H|intros K; apply N; right; exact K]). injection Q as -> ->. reflexivity.
      * split; [discriminate|]. intros [H N]. destruct a as [|y a]; [injection H as -> _; congruence|]. injection H as <- H.
        assert (Q : None = Some (a, b)) by (apply IH; split; [exact H|intros K; apply N; right; exact K]). discriminate.
Qed.
Lemma split_once_none : forall c s, split_once c s = None <-> ~ In c s.
Proof.
  intros c s. split.
  - intros E I. apply in_split in I as (a & b & ->). revert E. revert b. induction a as [|x a IH]; intros b; cbn.
    + rewrite N.eqb_refl. discriminate.
    + destruct (N.eqb x c); [discriminate|]. specialize (IH b). destruct (split_once c (a ++ c :: b)) as [[p q]|]; [discriminate|]. intros _. apply IH. reflexivity.
  - intros N. destruct (split_once c s) as [[a b]|] eqn:E; [|reflexivity]. apply split_once_some in E as [-> _].
    destruct N. apply in_app_iff. right. left. reflexivity.
Qed.
Lemma default_colon : forall n, bs "default:" ++ n = bs "default" ++ 58%N :: n.
Proof. reflexivity. Qed.
Lemma no_colon : ~ In 58%N (bs "default").
Proof. cbn. intros H. repeat (destruct H as [H|H]; [discriminate H|]). exact H. Qed.
Ltac clash := match goal with H : has ?l ?k _, L : lacks ?l ?k |- _ => destruct (L _ H) end.
Lemma means_iff : forall l dg dk m, distinct l -> (try_new_with_default l dg dk = Some m <-> means l dg dk m).
Proof.
  intros l dg dk m D. unfold try_new_with_default.
  destruct (label (bs "name") l) as [n|] eqn:En.
  2: { split; [discriminate|]. apply label_none_iff in En. intros H. destruct H; clash. }
  apply label_iff in En; [|exact D].
  set (g := match label (bs "group") l with Some g => g | None => dg end).
  assert (Hg : forall x, grouped l dg x <-> g = x) by (intros x; symmetry; apply grouped_iff; exact D).
  assert (Gg : grouped l dg g) by (apply Hg; reflexivity).
  destruct (label (bs "kind") l) as [k|] eqn:Ek.
  - apply label_iff in Ek; [|exact D]. destruct (beq_dec g []) as [[G ->]|[G ->]]; [destruct (beq_dec k (bs "default")) as [[K ->]|[K ->]]|]; cbn [andb].
    + split.
      * intros H. injection H as <-. apply m_default; [exact En|rewrite <- K; exact Ek|rewrite <- G; exact Gg].
      * intros H. destruct H as [n' g' k' H1 H2 H3 H4|n' H1 H2 H3|n' g' k' H1 H2 H3 H4 H5|n' H1 H2|n' g' H1 H2 H3 H4];
          try clash.
        -- destruct H4. apply Hg in H3. split; [congruence|]. rewrite <- K. exact (has_fun _ _ _ _ D H2 Ek).
        -- rewrite (has_fun _ _ _ _ D H1 En). reflexivity.
    + split.
      * intros H. injection H as <-. apply m_kind; [exact En|exact Ek|exact Gg|tauto].
      * intros H. destruct H as [n' g' k' H1 H2 H3 H4|n' H1 H2 H3|n' g' k' H1 H2 H3 H4 H5|n' H1 H2|n' g' H1 H2 H3 H4];
          try clash.
        -- apply Hg in H3. rewrite (has_fun _ _ _ _ D H1 En), (has_fun _ _ _ _ D H2 Ek), H3. reflexivity.
        -- destruct K. exact (has_fun _ _ _ _ D Ek H2).
    + split.
      * intros H. injection H as <-. apply m_kind; [exact En|exact Ek|exact Gg|tauto].
      * intros H. destruct H as [n' g' k' H1 H2 H3 H4|n' H1 H2 H3|n' g' k' H1 H2 H3 H4 H5|n' H1 H2|n' g' H1 H2 H3 H4];
          try clash.
        -- apply Hg in H3. rewrite (has_fun _ _ _ _ D H1 En), (has_fun _ _ _ _ D H2 Ek), H3. reflexivity.
        -- apply Hg in H3. contradiction.
  - apply label_none_iff in Ek. destruct (split_once 58 n) as [[k n1]|] eqn:Es.
    + apply split_once_some in Es as [-> Nk]. destruct (beq_dec k (bs "default")) as [[K ->]|[K ->]].
      * subst k. split.
        -- intros H. injection H as <-. apply m_old_default; [rewrite default_colon; exact En|exact Ek].
        -- intros H. destruct H as [n' g' k' H1 H2 H3 H4|n' H1 H2 H3|n' g' k' H1 H2 H3 H4 H5|n' H1 H2|n' g' H1 H2 H3 H4];
             try clash.
           ++ pose proof (has_fun _ _ _ _ D H1 En) as Q.
              assert (Q' : split_once 58 (bs "default" ++ 58%N :: n1) = Some (k', n')) by (rewrite <- Q; apply split_once_some; split; [reflexivity|exact H2]).
              rewrite (proj2 (split_once_some 58 _ (bs "default") n1)) in Q' by (split; [reflexivity|exact no_colon]). congruence.
           ++ rewrite default_colon in H1. pose proof (has_fun _ _ _ _ D H1 En) as Q. apply app_inv_head in Q. congruence.
           ++ pose proof (has_fun _ _ _ _ D H1 En) as Q. destruct H2. rewrite Q. apply in_app_iff. right. left. reflexivity.
      * split.
        -- intros H. injection H as <-. apply m_old; assumption.
        -- intros H. destruct H as [n' g' k' H1 H2 H3 H4|n' H1 H2 H3|n' g' k' H1 H2 H3 H4 H5|n' H1 H2|n' g' H1 H2 H3 H4];
             try clash.
           ++ pose proof (has_fun _ _ _ _ D H1 En) as Q.
              assert (Q' : split_once 58 (k ++ 58%N :: n1) = Some (k', n')) by (rewrite <- Q; apply split_once_some; split; [reflexivity|exact H2]).
              rewrite (proj2 (split_once_some 58 _ k n1)) in Q' by (split; [reflexivity|exact Nk]). apply Hg in H4. congruence.
           ++ rewrite default_colon in H1. pose proof (has_fun _ _ _ _ D H1 En) as Q.
              assert (Q' : split_once 58 (k ++ 58%N :: n1) = Some (bs "default", n')) by (rewrite <- Q; apply split_once_some; split; [reflexivity|exact no_colon]).
              rewrite (proj2 (split_once_some 58 _ k n1)) in Q' by (split; [reflexivity|exact Nk]). congruence.
           ++ pose proof (has_fun _ _ _ _ D H1 En) as Q. destruct H2. rewrite Q. apply in_app_iff. right. left. reflexivity.
    + apply split_once_none in Es. split.
      * intros H. injection H as <-. apply m_plain; assumption.
      * intros H. destruct H as [n' g' k' H1 H2 H3 H4|n' H1 H2 H3|n' g' k' H1 H2 H3 H4 H5|n' H1 H2|n' g' H1 H2 H3 H4];
             try clash.
        -- pose proof (has_fun _ _ _ _ D H1 En) as Q. destruct Es. rewrite <- Q. apply in_app_iff. right. left. reflexivity.
        -- pose proof (has_fun _ _ _ _ D H1 En) as Q. destruct Es. rewrite <- Q. rewrite default_colon. apply in_app_iff. right. left. reflexivity.
        -- apply Hg in H4. rewrite (has_fun _ _ _ _ D H1 En), H4. reflexivity.
Qed.
Lemma try_new_some : forall l dg dk, (exists m, try_new_with_default l dg dk = Some m) <-> exists v, has l (bs "name") v.
Proof.
  intros l dg dk. rewrite <- label_in. unfold try_new_with_default. destruct (label (bs "name") l) as [n|].
  - split; [eauto|]. intros _. destruct (label (bs "kind") l) as [k|]; [destruct (_ && _); eauto|].
    destruct (split_once 58 n) as [[k n1]|]; [destruct (beq k _); eauto|eauto].
  - split; intros (x & H); discriminate.
Qed.
Lemma round : forall m dg dk, exists m',
  try_new_with_default [(bs "group", group m); (bs "kind", kind m); (bs "name", name m)] dg dk = Some m' /\
  meta_eqb m' m = true /\ (meta_eqb m (M_default (name m)) = true -> m' = M_default (name m)).
Proof.
  intros m dg dk. unfold try_new_with_default.
  change (label (bs "name") _) with (Some (name m)). change (label (bs "group") _) with (Some (group m)). change (label (bs "kind") _) with (Some (kind m)).
  cbv iota beta zeta. destruct (beq_dec (group m) []) as [[G ->]|[G ->]]; [destruct (beq_dec (kind m) (bs "default")) as [[K ->]|[K ->]]|]; cbn [andb]; eexists; (split; [reflexivity|]); rewrite !same_iff; cbn [group kind name];
    (split; [auto|]); try reflexivity; intros (Q1 & Q2 & _); contradiction.
Qed.

(** ** C71 *)
Lemma in_all : forall i, ip_wf i -> exists n, In n (map (fun n => Net n []) all_nets) /\ covers n i.
Proof.
  intros [a|a] _; [exists (Net (Net4 0 0) [])|exists (Net (Net6 0 0) [])]; (split; [cbn; auto|]); (split; [|intros e []]); intros k Hk; lia.
Qed.
Lemma dns_meets : forall t, meets authenticated t <-> exists n, t = Established (Some (Dns n)).
Proof.
  intros t. cbn. split.
  - intros ([n|u] & -> & H); [eauto|destruct H].
  - intros (n & ->). exists (Dns n). split; [reflexivity|]. right. exists [], n. split; [left; reflexivity|]. rewrite app_nil_r. reflexivity.
Qed.
Lemma mk_authorized : forall nets a client t,
  authorized [Authorization (map (fun n => Net n []) nets) a] client t <-> (exists n, In n nets /\ in_net n client) /\ meets a t.
Proof.
  intros nets a client t. unfold authorized. split.
  - intros (z & [<-|[]] & (n & Hin & [C _]) & M). cbn in Hin, M. apply in_map_iff in Hin as (x & <- & Hx). eauto.
  - intros [(n & Hin & C) M]. eexists. split; [left; reflexivity|]. split; [|exact M]. cbn. exists (Net n []).
    split; [apply in_map_iff; eauto|]. split; [exact C|]. intros e [].
Qed.
Lemma all_in : forall client, exists n, In n all_nets /\ in_net n client.
Proof. intros [a|a]; [exists (Net4 0 0)|exists (Net6 0 0)]; (split; [cbn; auto|]); intros k Hk; lia. Qed.
(** The default policies of all names: those of the networks and authentication given *)
Definition made (d : default_policy) (nets : list ipnet) (a : authentication) (timeout : N) : Prop :=
  exists n, d = Allow (mk n nets a timeout).
Lemma parsed : forall s nets timeout d, parse_default_policy s nets timeout = Some d ->
  (s = bs "deny" /\ d = Deny) \/
  (s = bs "all-authenticated" /\ made d all_nets authenticated timeout) \/
  (s = bs "all-unauthenticated" /\ made d all_nets Unauthenticated timeout) \/
  (nets <> [] /\ s = bs "cluster-authenticated" /\ made d nets authenticated timeout) \/
  (nets <> [] /\ s = bs "cluster-unauthenticated" /\ made d nets Unauthenticated timeout) \/
  (nets <> [] /\ s = bs "audit" /\ made d all_nets Unauthenticated timeout).
Proof.
  intros s nets timeout d. unfold parse_default_policy, made.
  destruct (beq_dec s (bs "deny")) as [[-> ->]|[_ ->]]; [intros H; injection H as <-; auto|].
  destruct (beq_dec s (bs "all-authenticated")) as [[-> ->]|[_ ->]]; [intros H; injection H as <-; right; left; split; [reflexivity|eexists; reflexivity]|].
  destruct (beq_dec s (bs "all-unauthenticated")) as [[-> ->]|[_ ->]]; [intros H; injection H as <-; right; right; left; split; [reflexivity|eexists; reflexivity]|].
  destruct nets as [|n0 nets]; [discriminate|]. assert (NN : n0 :: nets <> []) by discriminate. revert NN. generalize (n0 :: nets). intros l NN.
  destruct (beq_dec s (bs "cluster-authenticated")) as [[-> ->]|[_ ->]]; [intros H; injection H as <-; do 3 right; left; do 2 (split; [auto|]); eexists; reflexivity|].
  destruct (beq_dec s (bs "cluster-unauthenticated")) as [[-> ->]|[_ ->]]; [intros H; injection H as <-; do 4 right; left; do 2 (split; [auto|]); eexists; reflexivity|].
  destruct (beq_dec s (bs "audit")) as [[-> ->]|[_ ->]]; [intros H; injection H as <-; do 5 right; do 2 (split; [auto|]); eexists; reflexivity|discriminate].
Qed.
Ltac pick_name :=
  repeat match goal with
  | H : _ \/ _ |- _ => destruct H as [H|H]
  | H : _ /\ _ |- _ => destruct H
  | H : False |- _ => destruct H
  | H : bs ?a = bs ?b |- _ => first [discriminate H | clear H]
  | H : _ = bs _ |- _ => first [rewrite H in * | subst]
  end.
Lemma who_made : forall s nets timeout d, parse_default_policy s nets timeout = Some d ->
  forall client t, (s = bs "deny" /\ d = Deny /\ ~ who s nets client t) \/
  exists nets' a, made d nets' a timeout /\ (forall n, In n nets' -> In n nets \/ In n all_nets) /\
    (who s nets client t <-> (exists n, In n nets' /\ in_net n client) /\ meets a t).
Proof.
  intros s nets timeout d H client t. apply parsed in H.
  destruct H as [[-> ->]|[[-> M]|[[-> M]|[(_ & -> & M)|[(_ & -> & M)|(_ & -> & M)]]]]].
  - left. split; [reflexivity|]. split; [reflexivity|]. intros W. unfold who in W. repeat (destruct W as [W|W]; try discriminate W; try (destruct W as [W _]; discriminate W)). 
  - right. exists all_nets, authenticated. split; [exact M|]. split; [auto|]. rewrite dns_meets. unfold who. pose proof (all_in client). split.
    + intros W. repeat (destruct W as [W|W]; try discriminate W; try (destruct W as [E W]; try discriminate E)). tauto.
    + tauto.
  - right. exists all_nets, Unauthenticated. split; [exact M|]. split; [auto|]. pose proof (all_in client). unfold who. cbn [meets]. tauto.
  - right. exists nets, authenticated. split; [exact M|]. split; [auto|]. rewrite dns_meets. unfold who. split.
    + intros W. repeat (destruct W as [W|W]; try discriminate W; try (destruct W as [E W]; try discriminate E)). tauto.
    + tauto.
  - right. exists nets, Unauthenticated. split; [exact M|]. split; [auto|]. unfold who. cbn [meets]. split.
    + intros W. repeat (destruct W as [W|W]; try discriminate W; try (destruct W as [E W]; try discriminate E)). tauto.
    + tauto.
  - right. exists all_nets, Unauthenticated. split; [exact M|]. split; [auto|]. pose proof (all_in client). unfold who. cbn [meets]. tauto.
Qed.
Lemma made_wf : forall (nets nets' : list ipnet) a, (forall n, In n nets -> net_wf n) -> (forall n, In n nets' -> In n nets \/ In n all_nets) ->
  authz_wf (Authorization (map (fun n => Net n []) nets') a).
Proof.
  intros nets nets' a W I n Hin. cbn in Hin. apply in_map_iff in Hin as (x & <- & Hx). cbn. split; [|intros e []].
  apply I in Hx as [Hx|[<-|[<-|[]]]]; [apply W; exact Hx| |]; cbn; lia.
Qed.
Theorem default_connections : forall s nets timeout d client t, parse_default_policy s nets timeout = Some d ->
  (forall n, In n nets -> net_wf n) -> ip_wf client ->
  ((exists a, check_authorized (sp_protocol (from_default d)) client t = Some a) <-> who s nets client t).
Proof.
  intros s nets timeout d client t H W Hc. destruct (who_made _ _ _ _ H client t) as [(_ & -> & N)|(nets' & a & (n & ->) & I & E)].
  - split; [intros (a & Q); discriminate|tauto].
  - rewrite E, <- mk_authorized. cbn [from_default mk sp_protocol check_authorized]. apply find_authz_iff; [|exact Hc].
    intros z [<-|[]]. apply (made_wf nets); assumption.
Qed.
Lemma default_found : forall A req, exists k, http_find [http_default A] req = Some (k, RoutePolicy A []).
Proof. intros A req. eexists. reflexivity. Qed.
Theorem default_requests : forall s nets timeout d client t, parse_default_policy s nets timeout = Some d -> s <> bs "deny" ->
  (forall n, In n nets -> net_wf n) -> ip_wf client -> forall pq draw req u limit,
  (who s nets client t -> fst (call pq draw (sp_protocol (from_default d)) client t req u limit) = if limit then R_forward (rq_headers req) else R_limited) /\
  (~ who s nets client t -> fst (call pq draw (sp_protocol (from_default d)) client t req u limit) = R_unauthorized).
Proof.
  intros s nets timeout d client t H ND W Hc pq draw req u limit.
  pose proof (default_connections s nets timeout d client t H W Hc) as C.
  destruct (who_made _ _ _ _ H client t) as [(E & _)|(nets' & a & (n & ->) & I & E)]; [contradiction|].
  cbn [from_default mk sp_protocol check_authorized call] in *.
  set (A := [Authorization (map (fun n => Net n []) nets') a]) in *.
  destruct (default_found A req) as ([h k] & F). unfold authorize. rewrite F. cbn [rp_authorizations rp_filters apply_http_filters].
  destruct (find_authz A client t) as [z|].
  - split; [intros _; destruct limit; reflexivity|]. intros Q. destruct Q. apply C. eauto.
  - split; [|reflexivity]. intros Q. apply C in Q as (x & Q). discriminate.
Qed.
Theorem known_iff : forall s nets timeout, (exists d, parse_default_policy s nets timeout = Some d) <-> known s nets.
Proof.
  intros s nets timeout. split.
  - intros (d & H). apply parsed in H. unfold known.
    destruct H as [[-> ->]|[[-> M]|[[-> M]|[(NN & -> & M)|[(NN & -> & M)|(NN & -> & M)]]]]];
    first [left; cbn [In]; solve [auto]|right; split; [exact NN|cbn [In]; solve [auto]]].
  - intros [[<-|[<-|[<-|[]]]]|[NN [<-|[<-|[<-|[]]]]]]; try (eexists; reflexivity);
    (destruct nets as [|n nets]; [congruence|eexists; reflexivity]).
Qed.
Theorem opaque_same : forall d o client t, make_opaque d = Some o ->
  check_authorized (sp_protocol (from_default o)) client t = check_authorized (sp_protocol (from_default d)) client t /\
  exists l, sp_protocol (from_default o) = Opaque l.
Proof.
  intros [[p m]|] o client t H; cbn in H.
  - destruct p; inversion H; subst; cbn; eauto.
  - injection H as <-. cbn. eauto.
Qed.
Theorem invalid_denies : forall timeout client t,
  check_authorized (sp_protocol (invalid timeout)) client t = None /\
  forall pq draw req u limit, call pq draw (sp_protocol (invalid timeout)) client t req u limit = (R_unauthorized, false).
Proof. intros. split; reflexivity. Qed.

(** ** C73 *)
Lemma all_some_none : forall A (l : list (option A)), (exists r, all_some l = Some r) <-> ~ In None l.
Proof.
  induction l as [|[a|] l IH]; cbn.
  - split; [intros _ []|eauto].
  - split.
    + intros (r & H). destruct (all_some l) as [r'|]; [|discriminate]. intros [K|K]; [discriminate|]. destruct IH as [IH _]. apply IH; eauto.
    + intros H. destruct IH as [_ IH]. destruct IH as (r & ->); [tauto|]. cbn. eauto.
  - split; [intros (r & H); discriminate|tauto].
Qed.
Lemma all_some_map : forall A (l : list (option A)) r, all_some l = Some r <-> l = map Some r.
Proof.
  induction l as [|[a|] l IH]; cbn; intros r.
  - split; [intros H; injection H as <-; reflexivity|]. destruct r; [reflexivity|discriminate].
  - destruct (all_some l) as [r'|].
    + cbn. split.
      * intros H. injection H as <-. cbn. f_equal. apply IH. reflexivity.
      * destruct r as [|x r]; [discriminate|]. cbn. intros H. injection H as <- H. apply IH in H. congruence.
    + cbn. split; [discriminate|]. destruct r as [|x r]; [discriminate|]. cbn. intros H. injection H as <- H. apply IH in H. discriminate.
  - split; [discriminate|]. destruct r; discriminate.
Qed.
Lemma all_some_forall2 : forall A B (f : A -> option B) l r, all_some (map f l) = Some r <-> Forall2 (fun x y => f x = Some y) l r.
Proof.
  intros A B f. induction l as [|x l IH]; intros r; cbn.
  - split; [intros H; injection H as <-; constructor|]. intros H. inversion H. reflexivity.
  - split.
    + destruct (f x) as [y|] eqn:E; [|discriminate]. destruct (all_some (map f l)) as [r'|]; [|discriminate]. intros H. injection H as <-.
      constructor; [exact E|]. apply IH. reflexivity.
    + intros H. inversion H as [|? y ? r' E H']; subst. rewrite E. apply IH in H'. rewrite H'. reflexivity.
Qed.
Lemma all_some_each : forall A B (f : A -> option B) l, (exists r, all_some (map f l) = Some r) <-> forall x, In x l -> exists y, f x = Some y.
Proof.
  intros A B f l. rewrite all_some_none, in_map_iff. split.
  - intros H x Hx. destruct (f x) eqn:E; [eauto|]. destruct H. eauto.
  - intros H (x & E & Hx). destruct (H x Hx) as (y & Hy). congruence.
Qed.
Lemma forall2_impl : forall A B (P Q : A -> B -> Prop) l r, (forall x y, P x y -> Q x y) -> Forall2 P l r -> Forall2 Q l r.
Proof. intros A B P Q l r H F. induction F; constructor; auto. Qed.

Lemma net_of_iff : forall n, (exists m, net_of n = Some m) <-> an_net n <> None /\ ~ In None (an_except n).
Proof.
  intros n. unfold net_of. destruct (an_net n) as [x|].
  - rewrite <- all_some_none. destruct (all_some (an_except n)) as [r|].
    + split; [intros _; split; [discriminate|eauto]|eauto].
    + split; [intros (m & H); discriminate|intros [_ (r & H)]; discriminate].
  - split; [intros (m & H); discriminate|intros [H _]; congruence].
Qed.
Lemma try_authz_iff : forall a, (exists z, try_authz a = Some z) <-> authz_ok a.
Proof.
  intros a. unfold authz_ok, try_authz.
  assert (E : (exists m, authz_meta a = Some m) <-> match ai_metadata a with Some m => m <> None | None => exists v, has (ai_labels a) (bs "name") v end).
  { unfold authz_meta. destruct (ai_metadata a) as [[[n|g k n]|]|].
    - split; [discriminate|cbn; eauto].
    - split; [discriminate|cbn; eauto].
    - split; [intros (m & H); discriminate|congruence].
    - apply try_new_some. }
  rewrite <- E. clear E. assert (E : (exists z, authz_of (ai_authz a) = Some z) <->
    aa_networks (ai_authz a) <> [] /\ (forall n, In n (aa_networks (ai_authz a)) -> an_net n <> None /\ ~ In None (an_except n)) /\
    exists p, aa_permit (ai_authz a) = Some p /\ p <> P_mesh None).
  { unfold authz_of. destruct (aa_networks (ai_authz a)) as [|n0 ns]; [split; [intros (z & H); discriminate|intros [H _]; congruence]|].
    set (l := n0 :: ns). assert (NN : l <> []) by discriminate. clearbody l.
    assert (Q : (exists r, all_some (map net_of l) = Some r) <-> forall n, In n l -> an_net n <> None /\ ~ In None (an_except n)).
    { rewrite all_some_each. split; intros H n Hn; apply net_of_iff; apply H; exact Hn. }
    rewrite <- Q. clear Q. destruct (all_some (map net_of l)) as [r|].
    - destruct (aa_permit (ai_authz a)) as [p|].
      + split.
        * intros (z & H). split; [exact NN|]. split; [eauto|]. exists p. split; [reflexivity|]. intros ->. discriminate.
        * intros (_ & _ & p' & Hp & N). injection Hp as <-. destruct p as [|[[|]|]]; cbn; eauto. congruence.
      + split; [intros (z & H); discriminate|intros (_ & _ & p & H & _); discriminate].
    - split; [intros (z & H); discriminate|intros (_ & (r & H) & _); discriminate]. }
  destruct (authz_of (ai_authz a)) as [z|]; [destruct (authz_meta a) as [m|]|].
  - split; [|eauto]. intros _. destruct E as [E _]. specialize (E (ex_intro _ z eq_refl)). destruct E as (? & ? & ?). eauto 6.
  - split; [intros (x & H); discriminate|]. intros (_ & _ & _ & m & H). discriminate.
  - split; [intros (x & H); discriminate|]. intros (A & B & C & _). destruct E as [_ E]. apply E. auto.
Qed.
Lemma try_authzs_iff : forall l parents, (exists r, try_authzs l parents = Some r) <-> forall a, In a l -> authz_ok a.
Proof.
  intros l parents. unfold try_authzs. assert (E : (exists r, all_some (map try_authz l) = Some r) <-> forall a, In a l -> authz_ok a).
  { rewrite all_some_each. split; intros H a Ha; apply try_authz_iff; auto. }
  rewrite <- E. destruct (all_some (map try_authz l)); cbn; split; eauto; intros (r & H); discriminate.
Qed.
Lemma try_authzs_admits : forall l parents r client t, try_authzs l parents = Some r ->
  (authorized r client t <-> admitted l client t \/ authorized parents client t).
Proof.
  intros l parents r client t. unfold try_authzs. destruct (all_some (map try_authz l)) as [zs|] eqn:E; [|discriminate].
  intros H. injection H as <-. assert (T : forall a z, try_authz a = Some z -> authz_of (ai_authz a) = Some z).
  { intros a z. unfold try_authz. destruct (authz_of (ai_authz a)); [|discriminate]. destruct (authz_meta a); congruence. }
  unfold authorized at 1. split.
  - intros (z & Hin & C). apply in_app_iff in Hin as [Hin|Hin].
    + left. apply (all_some_in _ _ _ z E) in Hin. apply in_map_iff in Hin as (a & Ha & Hin). exists a. split; [exact Hin|].
      apply (allows_iff _ z); [apply T; exact Ha|]. exists z. split; [left; reflexivity|exact C].
    + right. exists z. auto.
  - intros [(a & Hin & A)|(z & Hin & C)].
    + destruct (all_some_conv _ _ _ E (try_authz a) (in_map _ _ _ Hin)) as (z & Hz).
      apply (allows_iff _ z) in A; [|apply T; exact Hz]. destruct A as (x & [<-|[]] & C). exists z. split; [|exact C].
      apply in_app_iff. left. apply (all_some_in _ _ _ z E). rewrite <- Hz. apply in_map. exact Hin.
    + exists z. split; [apply in_app_iff; right; exact Hin|exact C].
Qed.
Lemma localhost_is : forall client t, ip_wf client -> (authorized [localhost] client t <-> loopback client).
Proof.
  intros client t Hc. pose proof (localhost_exactly [] [localhost] client t eq_refl Hc) as H. rewrite H. unfold loopback. split.
  - intros [->|[->|(a & [] & _)]]; auto.
  - intros [H'|H']; rewrite H'; auto.
Qed.

Lemma try_filter_iff : forall F (u : F) i f, try_filter u i = Some f <-> filter_becomes u i f.
Proof.
  intros F u i f. unfold filter_becomes. destruct i; cbn; split; intros H; try discriminate.
  - injection H as <-. auto.
  - destruct H as [H|[_ ->]]; [discriminate|reflexivity].
  - destruct H as [H|[H _]]; discriminate.
  - injection H as <-. auto.
  - destruct H as [H|[H _]]; [injection H as <-; reflexivity|discriminate].
Qed.
Lemma try_rule_iff : forall M F (u : F) a (r : rule_in M F), (exists x, try_rule u a r = Some x) <-> rule_ok r.
Proof.
  intros M F u a r. unfold try_rule, rule_ok. rewrite <- (all_some_none _ (ri_matches r)).
  assert (E : (exists fs, all_some (map (try_filter u) (ri_filters r)) = Some fs) <-> ~ In A_bad (ri_filters r)).
  { rewrite all_some_each. split.
    - intros H B. destruct (H _ B) as (y & Q). discriminate.
    - intros H [| |f] Hx; cbn; eauto. contradiction. }
  rewrite <- E. destruct (all_some (ri_matches r)) as [ms|]; [destruct (all_some (map _ _)) as [fs|]|].
  - split; eauto.
  - split; [intros (x & H); discriminate|intros (_ & x & H); discriminate].
  - split; [intros (x & H); discriminate|intros ((x & H) & _); discriminate].
Qed.
Lemma try_route_iff : forall M F (u : F) server (r : route_in M F), (exists x, try_route u server r = Some x) <-> route_ok r.
Proof.
  intros M F u server r. unfold try_route, route_ok. rewrite <- (all_some_none _ (ro_hosts r)), <- (try_authzs_iff (ro_authz r) server).
  destruct (all_some (ro_hosts r)) as [hosts|]; [|split; [intros (x & H); discriminate|intros ((x & H) & _); discriminate]].
  destruct (try_authzs (ro_authz r) server) as [a|]; [|split; [intros (x & H); discriminate|intros (_ & (x & H) & _); discriminate]].
  assert (E : (exists rs, all_some (map (try_rule u a) (ro_rules r)) = Some rs) <-> forall ru, In ru (ro_rules r) -> rule_ok ru).
  { rewrite all_some_each. split; intros H x Hx; apply (try_rule_iff M F u a); auto. }
  rewrite <- E. destruct (ro_metadata r) as [[[n|g k n]|]|]; cbn.
  1,2: destruct (all_some (map (try_rule u a) (ro_rules r))) as [rs|]; cbn; split; [eauto 8|eauto|intros (x & H); discriminate|intros (_ & _ & (x & H) & _); discriminate].
  all: split; [intros (x & H); discriminate|intros (_ & _ & _ & k & H); discriminate].
Qed.
Lemma mk_routes_iff : forall M F (u : F) d server (l : list (route_in M F)), (exists x, mk_routes u d server l = Some x) <-> forall r, In r l -> route_ok r.
Proof.
  intros M F u d server [|r0 l]; cbn [mk_routes]; [split; [intros _ r []|eauto]|].
  rewrite all_some_each. split; intros H x Hx; apply (try_route_iff M F u server); auto.
Qed.
Lemma opt_map_iff : forall A B (f : A -> B) o, (exists y, option_map f o = Some y) <-> exists x, o = Some x.
Proof. intros A B f [x|]; cbn; split; eauto; intros (y & H); discriminate. Qed.
Lemma try_protocol_iff : forall p a, rate_ok p = true /\ (exists q, try_protocol p a = Some q) <-> protocol_ok p.
Proof.
  intros p a. destruct p as [routes timeout rate|routes rate|routes rate|routes| |]; cbn [rate_ok try_protocol protocol_ok].
  - assert (E := mk_routes_iff _ _ (F_internal unknown_filter) http_default a routes). fold mk_http in E. rewrite <- E. unfold mk_http. destruct (mk_routes _ _ a routes) as [rs|].
    + destruct timeout; split; intros H.
      * destruct H as [_ (q & H)]. discriminate.
      * destruct H as (_ & (t & H) & _). discriminate.
      * destruct H as [_ (q & H)]. discriminate.
      * destruct H as (_ & (t & H) & _). discriminate.
      * destruct H as [H _]. eauto.
      * destruct H as (_ & _ & H). eauto.
    + split; [intros [_ (q & H)]; discriminate|intros ((q & H) & _); discriminate].
  - pose proof (mk_routes_iff _ _ (F_internal unknown_filter) http_default a routes) as E. change (mk_routes (F_internal unknown_filter) http_default) with mk_http in E.
    rewrite <- E. clear E. destruct (mk_http a routes) as [rs|]; cbn [option_map]; (split; [intros [R (q & H)]; try discriminate H; eauto|intros [(q & H) R]; try discriminate H; eauto]).
  - pose proof (mk_routes_iff _ _ (F_internal unknown_filter) http_default a routes) as E. change (mk_routes (F_internal unknown_filter) http_default) with mk_http in E.
    rewrite <- E. clear E. destruct (mk_http a routes) as [rs|]; cbn [option_map]; (split; [intros [R (q & H)]; try discriminate H; eauto|intros [(q & H) R]; try discriminate H; eauto]).
  - pose proof (mk_routes_iff _ _ (G_internal unknown_filter) grpc_default a routes) as E. change (mk_routes (G_internal unknown_filter) grpc_default) with mk_grpc in E.
    rewrite <- E. clear E. destruct (mk_grpc a routes) as [rs|]; cbn [option_map]; (split; [intros [R (q & H)]; try discriminate H; eauto|intros (q & H); try discriminate H; eauto]).
  - split; eauto.
  - split; eauto.
Qed.
Theorem accepted_iff : forall s, (exists p, try_server s = Some p) <-> server_ok s.
Proof.
  intros s. unfold try_server, server_ok. destruct (si_protocol s) as [p|].
  2: { split; [intros (x & H); discriminate|intros ((p & H & _) & _); discriminate]. }
  rewrite <- (try_authzs_iff (si_authz s) [localhost]). rewrite <- (try_new_some (si_labels s) (bs "policy.linkerd.io") (bs "server")).
  destruct (rate_ok p) eqn:R; cbn [negb].
  - destruct (try_authzs (si_authz s) [localhost]) as [a|].
    + pose proof (try_protocol_iff p a) as P. destruct (try_protocol p a) as [q|].
      * destruct (try_new_with_default _ _ _) as [m|].
        -- split; [|eauto]. intros _. split; [exists p; split; [reflexivity|apply P; eauto]|]. eauto.
        -- split; [intros (x & H); discriminate|intros (_ & _ & m & H); discriminate].
      * split; [intros (x & H); discriminate|]. intros ((p' & Ep & Hp) & _). injection Ep as <-. apply P in Hp as [_ (q & H)]. discriminate.
    + split; [intros (x & H); discriminate|intros (_ & (a & H) & _); discriminate].
  - split; [intros (x & H); discriminate|]. intros ((p' & Ep & Hp) & _). injection Ep as <-. apply (try_protocol_iff p []) in Hp as [Hp _]. congruence.
Qed.

Lemma try_rule_becomes : forall M F (u : F) server route a (i : rule_in M F) r,
  (forall client t, ip_wf client -> (authorized a client t <-> loopback client \/ admitted server client t \/ admitted route client t)) ->
  try_rule u a i = Some r -> rule_becomes u server route i r.
Proof.
  intros M F u server route a i r H. unfold try_rule. destruct (all_some (ri_matches i)) as [ms|] eqn:E1; [|discriminate].
  destruct (all_some (map (try_filter u) (ri_filters i))) as [fs|] eqn:E2; [|discriminate]. intros Q. injection Q as <-.
  split; [apply all_some_map; exact E1|]. split; [|exact H]. cbn. apply all_some_forall2 in E2.
  eapply forall2_impl; [|exact E2]. intros x y. apply try_filter_iff.
Qed.
Lemma try_route_becomes : forall M F (u : F) server a (i : route_in M F) r,
  try_authzs server [localhost] = Some a -> try_route u a i = Some r -> route_becomes u server i r.
Proof.
  intros M F u server a i r Ha. unfold try_route. destruct (all_some (ro_hosts i)) as [hosts|] eqn:E1; [|discriminate].
  destruct (try_authzs (ro_authz i) a) as [a'|] eqn:E2; [|discriminate].
  destruct (match ro_metadata i with Some m => meta_of m | None => None end); [|discriminate].
  destruct (all_some (map (try_rule u a') (ro_rules i))) as [rs|] eqn:E3; [|discriminate]. intros Q. injection Q as <-.
  split; [apply all_some_map; exact E1|]. apply all_some_forall2 in E3. eapply forall2_impl; [|exact E3].
  intros x y. apply try_rule_becomes. intros client t Hc. rewrite (try_authzs_admits _ _ _ client t E2), (try_authzs_admits _ _ _ client t Ha), localhost_is by exact Hc. tauto.
Qed.
Lemma connects : forall server a, try_authzs server [localhost] = Some a -> connections server a.
Proof. intros server a Ha client t Hc. rewrite (try_authzs_admits _ _ _ client t Ha), localhost_is by exact Hc. tauto. Qed.
Lemma mk_routes_becomes : forall M F (u : F) d server a ins (rs : list (route M (route_policy F))),
  (forall a, d a = Route [] [Rule [] (RoutePolicy a [])]) ->
  try_authzs server [localhost] = Some a -> mk_routes u d a ins = Some rs -> routes_become u server ins rs.
Proof.
  intros M F u d server a ins rs Hd Ha. destruct ins as [|i ins]; cbn [mk_routes].
  - intros H. injection H as <-. right. split; [reflexivity|]. exists a. split; [rewrite Hd; reflexivity|]. exact (connects server a Ha).
  - intros H. apply all_some_forall2 in H. left. split; [discriminate|]. eapply forall2_impl; [|exact H].
    intros x y. apply try_route_becomes. exact Ha.
Qed.
Theorem accepted_becomes : forall s p, try_server s = Some p ->
  exists i, si_protocol s = Some i /\ becomes (si_authz s) i (sp_protocol p) /\
  (distinct (si_labels s) -> means (si_labels s) (bs "policy.linkerd.io") (bs "server") (sp_meta p)).
Proof.
  intros s p. unfold try_server. destruct (si_protocol s) as [i|]; [|discriminate]. destruct (negb (rate_ok i)); [discriminate|].
  destruct (try_authzs (si_authz s) [localhost]) as [a|] eqn:Ha; [|discriminate]. destruct (try_protocol i a) as [q|] eqn:Hq; [|discriminate].
  destruct (try_new_with_default (si_labels s) _ _) as [m|] eqn:Hm; [|discriminate]. intros H. injection H as <-. exists i. split; [reflexivity|]. cbn [sp_protocol sp_meta].
  split; [|intros D; apply means_iff; assumption].
  assert (Hh : forall ins rs, mk_http a ins = Some rs -> routes_become http_unknown (si_authz s) ins rs)
    by (intros ins rs; apply mk_routes_becomes; [reflexivity|exact Ha]).
  assert (Hg : forall ins rs, mk_grpc a ins = Some rs -> routes_become grpc_unknown (si_authz s) ins rs)
    by (intros ins rs; apply mk_routes_becomes; [reflexivity|exact Ha]).
  destruct i as [ins timeout rate|ins rate|ins rate|ins| |]; cbn [try_protocol] in Hq.
  - destruct (mk_http a ins) as [rs|] eqn:E; [|discriminate]. destruct timeout; try discriminate. injection Hq as <-.
    apply bc_detect; [apply Hh; exact E|exact (connects _ _ Ha)].
  - destruct (mk_http a ins) as [rs|] eqn:E; [|discriminate]. injection Hq as <-. apply bc_http1, Hh, E.
  - destruct (mk_http a ins) as [rs|] eqn:E; [|discriminate]. injection Hq as <-. apply bc_http2, Hh, E.
  - destruct (mk_grpc a ins) as [rs|] eqn:E; [|discriminate]. injection Hq as <-. apply bc_grpc, Hg, E.
  - injection Hq as <-. apply bc_tls. exact (connects _ _ Ha).
  - injection Hq as <-. apply bc_opaque. exact (connects _ _ Ha).
Qed.

(** Nobody on the same host ins refused. *)
Lemma becomes_found : forall M F S (m : M -> request -> option S) cmp d (u : F) server ins rs req k rp,
  routes_become u server ins rs -> RouteModel.find m cmp d rs req = Some (k, rp) ->
  exists route, (route = [] \/ exists i, In i ins /\ ro_authz i = route) /\
    forall client t, ip_wf client -> (authorized (rp_authorizations rp) client t <-> loopback client \/ admitted server client t \/ admitted route client t).
Proof.
  intros M F S m cmp d u server ins rs req k rp B E. apply find_policy in E as (rt & ru & H1 & H2 & <-).
  destruct B as [[_ B]|[_ (a & -> & B)]].
  - assert (Q : exists i, In i ins /\ route_becomes u server i rt).
    { clear -B H1. induction B; [destruct H1|]. destruct H1 as [<-|H1]; [exists x; split; [left; reflexivity|assumption]|].
      destruct (IHB H1) as (i & Hi & Q). exists i. split; [right; exact Hi|exact Q]. }
    destruct Q as (i & Hi & _ & Q). exists (ro_authz i). split; [eauto|].
    assert (Q' : exists x, rule_becomes u server (ro_authz i) x ru).
    { clear -Q H2. induction Q; [destruct H2|]. destruct H2 as [<-|H2]; eauto. }
    destruct Q' as (x & _ & _ & Q'). exact Q'.
  - destruct H1 as [<-|[]]. destruct H2 as [<-|[]]. exists []. split; [auto|]. cbn. intros client t Hc. rewrite (B client t Hc).
    split; [tauto|]. intros [H|[H|(x & [] & _)]]; tauto.
Qed.
(** Well-formed networks *)
Lemma try_authzs_wf : forall l parents r, try_authzs l parents = Some r -> nets_wf l -> (forall a, In a parents -> authz_wf a) -> forall a, In a r -> authz_wf a.
Proof.
  intros l parents r. unfold try_authzs. destruct (all_some (map try_authz l)) as [zs|] eqn:E; [|discriminate]. intros H. injection H as <-.
  intros W P a Ha. apply in_app_iff in Ha as [Ha|Ha]; [|auto]. apply (all_some_in _ _ _ a E) in Ha. apply in_map_iff in Ha as (x & Hx & Hin).
  assert (T : authz_of (ai_authz x) = Some a).
  { unfold try_authz in Hx. destruct (authz_of (ai_authz x)); [|discriminate]. destruct (authz_meta x); congruence. }
  pose proof (authz_of_some _ _ T) as (_ & _ & _ & _ & Hn). intros n Hn'. apply Hn in Hn' as (m & Hm & Em).
  apply net_of_some in Em as [E1 E2]. destruct (W x m Hin Hm) as [W1 W2]. split; [apply W1; exact E1|]. intros e He. apply W2, E2, He.
Qed.
Lemma localhost_wf : authz_wf localhost.
Proof. intros n [<-|[<-|[]]]; (split; [cbn; split; reflexivity || discriminate|intros e []]). Qed.
Definition routes_in_wf {M F} (l : list (route_in M F)) : Prop := forall r, In r l -> nets_wf (ro_authz r).
Lemma mk_routes_wf : forall M F (u : F) d a ins (rs : list (route M (route_policy F))),
  (forall a, d a = Route [] [Rule [] (RoutePolicy a [])]) -> (forall z, In z a -> authz_wf z) -> routes_in_wf ins ->
  mk_routes u d a ins = Some rs ->
  forall rt ru z, In rt rs -> In ru (rt_rules rt) -> In z (rp_authorizations (ru_policy ru)) -> authz_wf z.
Proof.
  intros M F u d a ins rs Hd Wa Wi H rt ru z H1 H2 H3. destruct ins as [|i0 ins]; cbn [mk_routes] in H.
  - injection H as <-. rewrite Hd in H1. destruct H1 as [<-|[]]. destruct H2 as [<-|[]]. exact (Wa z H3).
  - apply (all_some_in _ _ _ rt H) in H1. apply in_map_iff in H1 as (i & Hi & Hin). unfold try_route in Hi.
    destruct (all_some (ro_hosts i)); [|discriminate]. destruct (try_authzs (ro_authz i) a) as [a'|] eqn:Ea; [|discriminate].
    destruct (match ro_metadata i with Some m => meta_of m | None => None end); [|discriminate].
    destruct (all_some (map (try_rule u a') (ro_rules i))) as [rs'|] eqn:Er; [|discriminate]. injection Hi as <-. cbn in H2.
    apply (all_some_in _ _ _ ru Er) in H2. apply in_map_iff in H2 as (x & Hx & _). unfold try_rule in Hx.
    destruct (all_some (ri_matches x)); [|discriminate]. destruct (all_some (map (try_filter u) (ri_filters x))); [|discriminate]. injection Hx as <-. cbn in H3.
    exact (try_authzs_wf _ _ _ Ea (Wi i Hin) Wa z H3).
Qed.
Lemma accepted_wf : forall s p, try_server s = Some p -> server_nets_wf s -> wf (sp_protocol p) /\ routes_wf (sp_protocol p).
Proof.
  intros s p H [W1 W2]. unfold try_server in H. destruct (si_protocol s) as [i|]; [|discriminate]. destruct (negb (rate_ok i)); [discriminate|].
  destruct (try_authzs (si_authz s) [localhost]) as [a|] eqn:Ha; [|discriminate]. destruct (try_protocol i a) as [q|] eqn:Hq; [|discriminate].
  destruct (try_new_with_default (si_labels s) _ _) as [m|] eqn:Hm; [|discriminate]. injection H as <-. cbn [sp_protocol].
  assert (Wa : forall z, In z a -> authz_wf z).
  { apply (try_authzs_wf _ _ _ Ha W1). intros z [<-|[]]. exact localhost_wf. }
  assert (Hh : forall ins rs, mk_http a ins = Some rs -> (forall l, In l (map ro_authz ins) -> nets_wf l) ->
    forall rt ru z, In rt rs -> In ru (rt_rules rt) -> In z (rp_authorizations (ru_policy ru)) -> authz_wf z).
  { intros ins rs E Wi. eapply mk_routes_wf; [reflexivity|exact Wa| |exact E]. intros r Hr. apply Wi. apply in_map. exact Hr. }
  assert (Hg : forall ins rs, mk_grpc a ins = Some rs -> (forall l, In l (map ro_authz ins) -> nets_wf l) ->
    forall rt ru z, In rt rs -> In ru (rt_rules rt) -> In z (rp_authorizations (ru_policy ru)) -> authz_wf z).
  { intros ins rs E Wi. eapply mk_routes_wf; [reflexivity|exact Wa| |exact E]. intros r Hr. apply Wi. apply in_map. exact Hr. }
  destruct i as [ins timeout rate|ins rate|ins rate|ins| |]; cbn [try_protocol] in Hq; pose proof (fun l => W2 _ l eq_refl) as W; cbn [route_authz] in W.
  - destruct (mk_http a ins) as [rs|] eqn:E; [|discriminate]. destruct timeout; try discriminate. injection Hq as <-. split; [exact Wa|]. exact (Hh ins rs E W).
  - destruct (mk_http a ins) as [rs|] eqn:E; [|discriminate]. injection Hq as <-. split; [intros z []|]. exact (Hh ins rs E W).
  - destruct (mk_http a ins) as [rs|] eqn:E; [|discriminate]. injection Hq as <-. split; [intros z []|]. exact (Hh ins rs E W).
  - destruct (mk_grpc a ins) as [rs|] eqn:E; [|discriminate]. injection Hq as <-. split; [intros z []|]. exact (Hg ins rs E W).
  - injection Hq as <-. split; [exact Wa|exact Logic.I].
  - injection Hq as <-. split; [exact Wa|exact Logic.I].
Qed.
Theorem server_connections : forall s p i client t, try_server s = Some p -> si_protocol s = Some i -> server_nets_wf s -> ip_wf client ->
  ((exists a, check_authorized (sp_protocol p) client t = Some a) <->
   by_connection i /\ (loopback client \/ admitted (si_authz s) client t)).
Proof.
  intros s p i client t H Hi W Hc. destruct (accepted_wf s p H W) as [W1 _]. destruct (accepted_becomes s p H) as (i' & Ei & B & _).
  rewrite Hi in Ei. injection Ei as <-. rewrite (check_allows _ client t W1 Hc). unfold PolicySpec.allows.
  destruct B as [ins t' rs l rate _ B|ins rs rate _|ins rs rate _|ins rs _|l B|l B]; cbn [tcp_authorizations by_connection];
    try (rewrite (B client t Hc); tauto); (split; [intros (x & [] & _)|tauto]).
Qed.
Lemma chosen_admits : forall pq draw req u server i p l r, becomes server i p -> chosen pq draw req u p l r ->
  exists route, (route = [] \/ In route (route_authz i)) /\
    forall client t, ip_wf client -> (authorized l client t <-> loopback client \/ admitted server client t \/ admitted route client t).
Proof.
  intros pq draw req u server i p l r B C.
  assert (H : forall ins rs k rp, routes_become http_unknown server ins rs -> http_find rs req = Some (k, rp) ->
    exists route, (route = [] \/ In route (map ro_authz ins)) /\
    forall client t, ip_wf client -> (authorized (rp_authorizations rp) client t <-> loopback client \/ admitted server client t \/ admitted route client t)).
  { intros ins rs k rp R F. destruct (becomes_found _ _ _ _ _ _ _ _ _ _ _ _ _ R F) as (route & Q & X). exists route. split; [|exact X].
    destruct Q as [Q|(x & Hx & <-)]; [auto|]. right. apply in_map. exact Hx. }
  assert (G : forall ins rs k rp, routes_become grpc_unknown server ins rs -> grpc_find rs req = Some (k, rp) ->
    exists route, (route = [] \/ In route (map ro_authz ins)) /\
    forall client t, ip_wf client -> (authorized (rp_authorizations rp) client t <-> loopback client \/ admitted server client t \/ admitted route client t)).
  { intros ins rs k rp R F. destruct (becomes_found _ _ _ _ _ _ _ _ _ _ _ _ _ R F) as (route & Q & X). exists route. split; [|exact X].
    destruct Q as [Q|(x & Hx & <-)]; [auto|]. right. apply in_map. exact Hx. }
  destruct C as [p routes h m rp r Ep F _|routes h m rp r F _].
  - destruct B as [ins t' rs l rate R _|ins rs rate R|ins rs rate R|ins rs R|l _|l _];
      destruct Ep as [Ep|[Ep|(? & ? & Ep)]]; try discriminate; injection Ep as <-; try subst; cbn [route_authz]; eapply H; eassumption.
  - inversion B as [| | |ins rs R| |]; subst. cbn [route_authz]. eapply G; eassumption.
Qed.
Lemma filtered_denied : forall pq draw req u p l e, chosen pq draw req u p l (inr e) -> e <> R_unauthorized.
Proof.
  intros pq draw req u p l e H. inversion H as [p' routes h m rp r Ep F X|routes h m rp r F X]; subst; clear -X; intros ->.
  - remember (inr R_unauthorized) as r eqn:R. induction X; subst; auto; discriminate.
  - remember (inr R_unauthorized) as r eqn:R. induction X; subst; auto; discriminate.
Qed.
Theorem server_loopback : forall s p client t pq draw req u limit, try_server s = Some p -> server_nets_wf s -> ip_wf client -> loopback client ->
  fst (call pq draw (sp_protocol p) client t req u limit) <> R_unauthorized.
Proof.
  intros s p client t pq draw req u limit H W Hc L E. destruct (accepted_wf s p H W) as [_ W2]. destruct (accepted_becomes s p H) as (i & Ei & B & _).
  pose proof (verdict_call pq draw (sp_protocol p) client t req u limit W2 Hc) as V. destruct V as [|l r C N|l e C A| |]; cbn [fst] in E; try discriminate.
  - destruct (chosen_admits _ _ _ _ _ _ _ _ _ B C) as (route & _ & X). apply N, X; auto.
  - exact (filtered_denied _ _ _ _ _ _ _ C E).
Qed.
Theorem server_forwards : forall s p i client t pq draw req u limit hs, try_server s = Some p -> si_protocol s = Some i -> server_nets_wf s -> ip_wf client ->
  fst (call pq draw (sp_protocol p) client t req u limit) = R_forward hs ->
  loopback client \/ admitted (si_authz s) client t \/ exists l, In l (route_authz i) /\ admitted l client t.
Proof.
  intros s p i client t pq draw req u limit hs H Hi W Hc E. destruct (accepted_wf s p H W) as [_ W2]. destruct (accepted_becomes s p H) as (i' & Ei & B & _).
  rewrite Hi in Ei. injection Ei as <-. apply forwarded_iff in E as (l & C & A & _); [|assumption..].
  destruct (chosen_admits _ _ _ _ _ _ _ _ _ B C) as (route & Q & X). apply X in A as [A|[A|A]]; [auto..| |exact Hc].
  right. right. destruct Q as [->|Q]; [destruct A as (x & [] & _)|eauto].
Qed.
(** A request from the same host or from a client that the server admits is never refused for lack
    of an authorization. *)
Theorem server_admits : forall s p client t pq draw req u limit, try_server s = Some p -> server_nets_wf s -> ip_wf client -> admitted (si_authz s) client t ->
  fst (call pq draw (sp_protocol p) client t req u limit) <> R_unauthorized.
Proof.
  intros s p client t pq draw req u limit H W Hc L E. destruct (accepted_wf s p H W) as [_ W2]. destruct (accepted_becomes s p H) as (i & Ei & B & _).
  pose proof (verdict_call pq draw (sp_protocol p) client t req u limit W2 Hc) as V. destruct V as [|l r C N|l e C A| |]; cbn [fst] in E; try discriminate.
  - destruct (chosen_admits _ _ _ _ _ _ _ _ _ B C) as (route & _ & X). apply N, X; auto.
  - exact (filtered_denied _ _ _ _ _ _ _ C E).
Qed.

(** ** C70 *)
Lemma contains_iff : forall ranges p, contains ranges p = true <-> opaque_port ranges p.
Proof.
  intros ranges p. unfold contains, opaque_port. rewrite existsb_exists. split.
  - intros ([lo hi] & Hin & H). apply andb_true_iff in H as [A B]. cbn in A, B. apply N.leb_le in A, B. exists lo, hi. auto.
  - intros (lo & hi & Hin & A & B). exists (lo, hi). split; [exact Hin|]. cbn. apply andb_true_iff. split; apply N.leb_le; assumption.
Qed.
Lemma range_iff : forall r p, In p (range r) <-> (fst r <= p <= snd r)%N.
Proof.
  intros [lo hi] p. unfold range. cbn [fst snd]. rewrite in_map_iff. split.
  - intros (x & <- & Hx). apply in_seq in Hx. lia.
  - intros H. exists (N.to_nat p). split; [lia|]. apply in_seq. lia.
Qed.
Lemma opaque_iff : forall d o, make_opaque d = Some o -> from_default o = undetected (from_default d).
Proof. intros [[p m]|] o H; cbn in H; [destruct p; inversion H; subst; reflexivity|injection H as <-; reflexivity]. Qed.
Lemma starts_iff : forall c, (exists s, build c = Some s) <->
  match default_of c with
  | Deny => True
  | Allow p => exists l, (exists http t, sp_protocol p = Detect http t l) \/ sp_protocol p = Opaque l
  end.
Proof.
  intros c. assert (E : (exists o, make_opaque (default_of c) = Some o) <-> match default_of c with
    | Deny => True | Allow p => exists l, (exists http t, sp_protocol p = Detect http t l) \/ sp_protocol p = Opaque l end).
  { destruct (default_of c) as [[p m]|]; cbn; [|split; eauto]. destruct p; split; intros H; eauto;
    try (destruct H as (o & H); discriminate); destruct H as (l & [(h & t & H)|H]); discriminate. }
  rewrite <- E. clear E. destruct c as [d ports op|d ports op]; cbn [build default_of]; destruct (make_opaque d); split; eauto; intros (x & H); discriminate.
Qed.

Lemma cached_filter : forall c p q, cached (filter (fun x => negb (N.eqb (fst x) q)) c) p = if N.eqb q p then None else cached c p.
Proof.
  unfold cached. induction c as [|[k v] c IH]; intros p q; cbn [filter List.find fst]; [destruct (N.eqb q p); reflexivity|].
  destruct (N.eqb k q) eqn:E; cbn [negb].
  - rewrite IH. apply N.eqb_eq in E. subst. destruct (N.eqb q p) eqn:F; reflexivity.
  - cbn [List.find fst]. destruct (N.eqb k p) eqn:F.
    + destruct (N.eqb q p) eqn:G; [|reflexivity]. apply N.eqb_eq in F, G. apply N.eqb_neq in E. congruence.
    + apply IH.
Qed.
Lemma cached_insert : forall c k v p, cached (insert c (k, v)) p = if N.eqb k p then Some v else cached c p.
Proof.
  intros c k v p. unfold insert. unfold cached at 1. cbn [List.find fst]. destruct (N.eqb k p) eqn:E; [reflexivity|].
  change (cached (filter (fun x => negb (N.eqb (fst x) k)) c) p = cached c p). rewrite cached_filter, E. reflexivity.
Qed.
Lemma permanent_snoc : forall l k w, with_permanent_from_iter (l ++ [(k, w)]) = insert (with_permanent_from_iter l) (k, (w, true)).
Proof. intros l k w. unfold with_permanent_from_iter. rewrite fold_left_app. reflexivity. Qed.
(** The entry of a key is one of its list, and there is one when there is one in the list. *)
Lemma permanent_in : forall l p w b, cached (with_permanent_from_iter l) p = Some (w, b) -> b = true /\ In (p, w) l.
Proof.
  induction l as [|[k v] l IH] using rev_ind; intros p w b; [discriminate|]. rewrite permanent_snoc, cached_insert.
  destruct (N.eqb k p) eqn:E.
  - intros H. injection H as <- <-. apply N.eqb_eq in E. subst. split; [reflexivity|]. apply in_app_iff. right. left. reflexivity.
  - intros H. apply IH in H as [-> H]. split; [reflexivity|]. apply in_app_iff. auto.
Qed.
Lemma permanent_some : forall l p, In p (map fst l) -> exists w, cached (with_permanent_from_iter l) p = Some (w, true).
Proof.
  induction l as [|[k v] l IH] using rev_ind; intros p; [intros []|]. rewrite permanent_snoc, cached_insert.
  destruct (N.eqb k p) eqn:E; [eauto|]. rewrite map_app, in_app_iff. intros [H|[H|[]]]; [apply IH; exact H|]. cbn in H. apply N.eqb_neq in E. congruence.
Qed.
(** The entries of the second of two lists win. *)
Lemma permanent_app : forall l1 l2 p w b, In p (map fst l2) -> cached (with_permanent_from_iter (l1 ++ l2)) p = Some (w, b) -> In (p, w) l2.
Proof.
  intros l1. induction l2 as [|[k v] l2 IH] using rev_ind; intros p w b; [intros []|].
  rewrite app_assoc, permanent_snoc, cached_insert. destruct (N.eqb k p) eqn:E.
  - intros _ H. injection H as <- <-. apply N.eqb_eq in E. subst. apply in_app_iff. right. left. reflexivity.
  - rewrite map_app, in_app_iff. intros [H|[H|[]]] K; [|cbn in H; apply N.eqb_neq in E; congruence]. apply in_app_iff. left. eapply IH; eauto.
Qed.
Lemma number_in : forall ports k p w, In (p, w) (number k ports) <-> exists i, nth_error ports i = Some p /\ w = k + i.
Proof.
  induction ports as [|q ports IH]; intros k p w; cbn [number In].
  - split; [intros []|]. intros ([|i] & H & _); discriminate.
  - rewrite IH. split.
    + intros [H|(i & H & ->)]; [injection H as -> ->; exists 0; split; [reflexivity|lia]|]. exists (S i). split; [exact H|lia].
    + intros ([|i] & H & ->); [left; cbn in H; injection H as ->; f_equal; lia|]. right. exists i. split; [exact H|lia].
Qed.
Lemma number_fst : forall ports k, map fst (number k ports) = ports.
Proof. induction ports as [|p ports IH]; intros k; cbn; [reflexivity|]. rewrite IH. reflexivity. Qed.

Lemma set_nth_same : forall A (l : list A) n x, n < List.length l -> nth_error (set_nth n x l) n = Some x.
Proof. induction l as [|y l IH]; intros [|n] x H; cbn in *; try lia; [reflexivity|]. apply IH. lia. Qed.
Lemma set_nth_other : forall A (l : list A) n m x, n <> m -> nth_error (set_nth n x l) m = nth_error l m.
Proof. induction l as [|y l IH]; intros [|n] [|m] x H; cbn; try reflexivity; try congruence. apply IH. congruence. Qed.
Lemma set_nth_length : forall A (l : list A) n x, List.length (set_nth n x l) = List.length l.
Proof. induction l as [|y l IH]; intros [|n] x; cbn; try reflexivity. rewrite IH. reflexivity. Qed.
Lemma sent_app : forall w a b, sent w (a ++ b) = sent w a ++ sent w b.
Proof. intros w a b. unfold sent. apply flat_map_app. Qed.

(** *** Discovery *)
Definition first (d : default_policy) (op : list (N * N)) (p : N) : server_policy :=
  if contains op p then undetected (from_default d) else from_default d.
Lemma first_begins : forall d ports op p, begins (Discover d ports op) p (first d op p).
Proof.
  intros d ports op p. unfold first. destruct (contains op p) eqn:E.
  - apply b_opaque. apply contains_iff. exact E.
  - apply b_default. intros H. apply contains_iff in H. congruence.
Qed.
Record inv (d : default_policy) (ports : list N) (op : list (N * N)) (h : list (event * option nat)) (s : store) (owners : list N) : Prop := {
  i_opaque : st_opaque s = op;
  i_timeout : st_timeout s = Some (detect_timeout d);
  i_zero : nth_error (st_values s) 0 = Some (from_default d);
  i_one : nth_error (st_values s) 1 = Some (undetected (from_default d));
  i_len : List.length (st_values s) = 2 + List.length owners;
  i_value : forall w p, nth_error owners w = Some p ->
    nth_error (st_values s) (2 + w) = Some (last (map (received (detect_timeout d)) (sent (2 + w) h)) (first d op p));
  i_sent : forall w, List.length (st_values s) <= w -> sent w h = [];
  i_cached : forall p w b, cached (st_cache s) p = Some (w, b) -> exists w', w = 2 + w' /\ nth_error owners w' = Some p;
  i_given : forall p w, given h p w -> exists w', w = 2 + w' /\ nth_error owners w' = Some p;
  i_kept : forall p, In p ports -> exists w, cached (st_cache s) p = Some (w, true) /\ forall w', given h p w' -> w' = w;
}.
Lemma nth_some : forall A (l : list A) n x d, nth_error l n = Some x -> nth n l d = x.
Proof. induction l as [|y l IH]; intros [|n] x d H; cbn in *; try discriminate; [congruence|]. apply IH. exact H. Qed.
Lemma given_snoc : forall h e o p w, given (h ++ [(e, o)]) p w <-> given h p w \/ (e = Get p /\ o = Some w).
Proof.
  intros h e o p w. unfold given. rewrite in_app_iff. cbn [In]. split; (intros [H|H]; [left; exact H|right]).
  - destruct H as [H|[]]. injection H as -> ->. auto.
  - destruct H as [-> ->]. left. reflexivity.
Qed.
Theorem discover_inv : forall d ports op h s, run (Discover d ports op) h s -> exists owners, inv d ports op h s owners.
Proof.
  intros d ports op h s R. remember (Discover d ports op) as c eqn:Ec. induction R as [s B|h s e s' o R IH St]; subst c.
  - cbn [build] in B. destruct (make_opaque d) as [o|] eqn:Eo; [|discriminate]. injection B as <-.
    pose proof (opaque_iff d o Eo) as Q. exists ports. split; cbn [st_opaque st_timeout st_values st_cache].
    + reflexivity.
    + reflexivity.
    + reflexivity.
    + cbn. rewrite Q. reflexivity.
    + cbn. rewrite map_length. reflexivity.
    + intros w p H. cbn [app plus nth_error]. rewrite nth_error_map, H. cbn. unfold first. destruct (contains op p); [rewrite Q|]; reflexivity.
    + reflexivity.
    + intros p w b H. apply permanent_in in H as [-> H]. apply number_in in H as (i & H & ->). eauto.
    + intros p w [].
    + intros p H. destruct (permanent_some (number 2 ports) p) as (w & E); [rewrite number_fst; exact H|]. exists w. split; [exact E|]. intros w' [].
  - destruct IH as (owners & I). destruct I as [I1 I2 I3 I4 I5 I6 I7 I8 I9 I10]. destruct e as [p|w m|p]; cbn [step] in St.
    + destruct (cached (st_cache s) p) as [[w b]|] eqn:Ec.
      * injection St as <- <-. exists owners. split; try assumption.
        -- intros w' q H. rewrite sent_app. cbn. rewrite app_nil_r. exact (I6 w' q H).
        -- intros w' H. rewrite sent_app, (I7 w' H). reflexivity.
        -- intros q w' H. apply given_snoc in H as [H|[Eq Ew]]; [exact (I9 q w' H)|]. injection Eq as <-. injection Ew as <-. exact (I8 p w b Ec).
        -- intros q Hq. destruct (I10 q Hq) as (w' & Hc & Hw). exists w'. split; [exact Hc|]. intros w'' H.
           apply given_snoc in H as [H|[Eq Ew]]; [exact (Hw w'' H)|]. injection Eq as <-. injection Ew as <-. congruence.
      * rewrite I2 in St. injection St as <- <-. exists (owners ++ [p]). split; cbn [st_opaque st_timeout st_values st_cache].
        -- exact I1.
        -- reflexivity.
        -- rewrite nth_error_app1 by lia. exact I3.
        -- rewrite nth_error_app1 by lia. exact I4.
        -- rewrite !app_length, I5. cbn. lia.
        -- intros w q H. rewrite sent_app. cbn [sent flat_map fst]. rewrite app_nil_r. destruct (Nat.lt_ge_cases w (List.length owners)) as [L|L].
           ++ rewrite nth_error_app1 in H by exact L. rewrite nth_error_app1 by lia. exact (I6 w q H).
           ++ rewrite nth_error_app2 in H by exact L. destruct (w - List.length owners) as [|k] eqn:K; [|destruct k; discriminate].
              cbn in H. injection H as <-. assert (w = List.length owners) by lia. subst w.
              rewrite nth_error_app2 by lia. rewrite I7 by lia. replace (2 + List.length owners - List.length (st_values s)) with 0 by lia.
              cbn [nth_error map last]. f_equal. rewrite I1. unfold first. destruct (contains op p); apply nth_some; assumption.
        -- intros w H. rewrite app_length in H. cbn in H. rewrite sent_app, I7 by lia. reflexivity.
        -- intros q w b. rewrite cached_insert. destruct (N.eqb p q) eqn:E.
           ++ apply N.eqb_eq in E. subst q. intros H. injection H as <- <-. exists (List.length owners). split; [exact I5|].
              rewrite nth_error_app2 by lia. rewrite Nat.sub_diag. reflexivity.
           ++ intros H. destruct (I8 q w b H) as (w' & -> & Hw). exists w'. split; [reflexivity|]. rewrite nth_error_app1; [exact Hw|]. apply nth_error_Some. congruence.
        -- intros q w H. apply given_snoc in H as [H|[Eq Ew]].
           ++ destruct (I9 q w H) as (w' & -> & Hw). exists w'. split; [reflexivity|]. rewrite nth_error_app1; [exact Hw|]. apply nth_error_Some. congruence.
           ++ injection Eq as <-. injection Ew as <-. exists (List.length owners). split; [exact I5|]. rewrite nth_error_app2 by lia. rewrite Nat.sub_diag. reflexivity.
        -- intros q Hq. destruct (I10 q Hq) as (w' & Hc & Hw). exists w'. assert (N.eqb p q = false) as E by (apply N.eqb_neq; congruence).
           rewrite cached_insert, E. split; [exact Hc|]. intros w'' H. apply given_snoc in H as [H|[Eq Ew]]; [exact (Hw w'' H)|].
           injection Eq as <-. rewrite N.eqb_refl in E. discriminate.
    + rewrite I2 in St. destruct (Nat.leb 2 w) eqn:Lw; [|discriminate]. destruct (Nat.ltb w (List.length (st_values s))) eqn:Hw; [|discriminate].
      cbn [andb] in St. injection St as <- <-. apply Nat.leb_le in Lw. apply Nat.ltb_lt in Hw. exists owners. split; cbn [st_opaque st_timeout st_values st_cache]; try assumption.
      * reflexivity.
      * rewrite set_nth_other by lia. exact I3.
      * rewrite set_nth_other by lia. exact I4.
      * rewrite set_nth_length. exact I5.
      * intros w' q H. rewrite sent_app. cbn [sent flat_map fst]. rewrite app_nil_r. destruct (Nat.eqb w (2 + w')) eqn:E.
        -- apply Nat.eqb_eq in E. subst w. rewrite set_nth_same by exact Hw. rewrite map_app. cbn [map]. rewrite last_last. reflexivity.
        -- apply Nat.eqb_neq in E. rewrite set_nth_other by exact E. rewrite app_nil_r. exact (I6 w' q H).
      * intros w' H. rewrite set_nth_length in H. rewrite sent_app, I7 by exact H. cbn [sent flat_map fst]. destruct (Nat.eqb w w') eqn:E; [|reflexivity]. apply Nat.eqb_eq in E. lia.
      * intros q w' H. apply given_snoc in H as [H|[Eq _]]; [exact (I9 q w' H)|discriminate].
      * intros q Hq. destruct (I10 q Hq) as (w' & Hc & Hw'). exists w'. split; [exact Hc|]. intros w'' H. apply given_snoc in H as [H|[Eq _]]; [exact (Hw' w'' H)|discriminate].
    + destruct (cached (st_cache s) p) as [[w [|]]|] eqn:Ec; try discriminate. injection St as <- <-. exists owners. split; cbn [st_opaque st_timeout st_values st_cache]; try assumption.
      * intros w' q H. rewrite sent_app. cbn. rewrite app_nil_r. exact (I6 w' q H).
      * intros w' H. rewrite sent_app, (I7 w' H). reflexivity.
      * intros q w' b. rewrite cached_filter. destruct (N.eqb p q); [discriminate|]. apply I8.
      * intros q w' H. apply given_snoc in H as [H|[Eq _]]; [exact (I9 q w' H)|discriminate].
      * intros q Hq. destruct (I10 q Hq) as (w' & Hc & Hw'). exists w'. rewrite cached_filter.
        destruct (N.eqb p q) eqn:E; [apply N.eqb_eq in E; subst; congruence|]. split; [exact Hc|].
        intros w'' H. apply given_snoc in H as [H|[Eq _]]; [exact (Hw' w'' H)|discriminate].
Qed.

(** *** Fixed policies *)
Record fixed (d : default_policy) (ports : list (N * server_policy)) (op : list (N * N)) (h : list (event * option nat)) (s : store) : Prop := {
  f_timeout : st_timeout s = None;
  f_values : st_values s = [from_default d; undetected (from_default d)] ++ map snd ports;
  f_sent : forall w, sent w h = [];
  f_cached : forall p w b, cached (st_cache s) p = Some (w, b) -> exists x, begins (Fixed d ports op) p x /\ nth_error (st_values s) w = Some x;
  f_given : forall p w, given h p w -> exists x, begins (Fixed d ports op) p x /\ nth_error (st_values s) w = Some x;
  f_kept : forall p, In p (map fst ports) \/ opaque_port op p -> exists w, cached (st_cache s) p = Some (w, true);
}.
Lemma opaque_entries : forall (op : list (N * N)) p w, In (p, w) (flat_map (fun r => map (fun p => (p, 1)) (range r)) op) <-> w = 1 /\ opaque_port op p.
Proof.
  intros op p w. rewrite in_flat_map. unfold opaque_port. split.
  - intros ([lo hi] & Hin & H). apply in_map_iff in H as (q & E & Hq). injection E as <- <-. apply range_iff in Hq. split; [reflexivity|]. exists lo, hi. auto.
  - intros [-> (lo & hi & Hin & H)]. exists (lo, hi). split; [exact Hin|]. apply in_map_iff. exists p. split; [reflexivity|]. apply range_iff. exact H.
Qed.
Theorem fixed_inv : forall d ports op h s, NoDup (map fst ports) -> run (Fixed d ports op) h s -> fixed d ports op h s.
Proof.
  intros d ports op h s ND R. remember (Fixed d ports op) as c eqn:Ec. induction R as [s B|h s e s' o R IH St]; subst c.
  - cbn [build] in B. destruct (make_opaque d) as [o|] eqn:Eo; [|discriminate]. injection B as <-.
    pose proof (opaque_iff d o Eo) as Q. split; cbn [st_timeout st_values st_cache].
    + reflexivity.
    + rewrite Q. reflexivity.
    + reflexivity.
    + intros p w b H. destruct (in_dec N.eq_dec p (map fst ports)) as [I|I].
      * apply permanent_app in H; [|rewrite number_fst; exact I]. apply number_in in H as (i & H & ->). rewrite nth_error_map in H.
        destruct (nth_error ports i) as [[q x]|] eqn:E; [|discriminate]. cbn in H. injection H as ->. exists x.
        split; [apply b_fixed; eapply nth_error_In; exact E|]. cbn. rewrite nth_error_map, E. reflexivity.
      * apply permanent_in in H as [-> H]. apply in_app_iff in H as [H|H].
        -- apply opaque_entries in H as [-> H]. exists (undetected (from_default d)). split; [apply b_fixed_opaque; assumption|]. cbn. rewrite Q. reflexivity.
        -- destruct I. apply (in_map fst) in H. rewrite number_fst in H. exact H.
    + intros p w [].
    + intros p H. apply permanent_some. rewrite map_app, number_fst, in_app_iff. destruct H as [H|H]; [right; exact H|left].
      apply in_map_iff. exists (p, 1). split; [reflexivity|]. apply opaque_entries. auto.
  - destruct IH as [I2 I3 I4 I8 I9 I10]. destruct e as [p|w m|p]; cbn [step] in St.
    + destruct (cached (st_cache s) p) as [[w b]|] eqn:Ec.
      * injection St as <- <-. split; try assumption.
        -- intros w'. rewrite sent_app, I4. reflexivity.
        -- intros q w' H. apply given_snoc in H as [H|[Eq Ew]]; [exact (I9 q w' H)|]. injection Eq as <-. injection Ew as <-. exact (I8 p w b Ec).
      * rewrite I2 in St. injection St as <- <-.
        assert (B : begins (Fixed d ports op) p (from_default d)).
        { apply b_fixed_default; intros H; [destruct (I10 p (or_introl H)) as (w & E)|destruct (I10 p (or_intror H)) as (w & E)]; congruence. }
        split; cbn [st_timeout st_values st_cache]; try assumption; try reflexivity.
        -- intros w. rewrite sent_app, I4. reflexivity.
        -- intros q w b. rewrite cached_insert. destruct (N.eqb p q) eqn:E; [|apply I8]. apply N.eqb_eq in E. subst q. intros H. injection H as <- <-.
           exists (from_default d). split; [exact B|]. rewrite I3. reflexivity.
        -- intros q w H. apply given_snoc in H as [H|[Eq Ew]]; [exact (I9 q w H)|]. injection Eq as <-. injection Ew as <-.
           exists (from_default d). split; [exact B|]. rewrite I3. reflexivity.
        -- intros q Hq. rewrite cached_insert. destruct (N.eqb p q) eqn:E; [|exact (I10 q Hq)]. apply N.eqb_eq in E. subst q. destruct (I10 p Hq) as (w & K). congruence.
    + rewrite I2 in St. discriminate.
    + destruct (cached (st_cache s) p) as [[w [|]]|] eqn:Ec; try discriminate. injection St as <- <-. split; cbn [st_timeout st_values st_cache]; try assumption.
      * intros w'. rewrite sent_app, I4. reflexivity.
      * intros q w' b. rewrite cached_filter. destruct (N.eqb p q); [discriminate|]. apply I8.
      * intros q w' H. apply given_snoc in H as [H|[Eq _]]; [exact (I9 q w' H)|discriminate].
      * intros q Hq. rewrite cached_filter. destruct (N.eqb p q) eqn:E; [apply N.eqb_eq in E; subst; destruct (I10 q Hq) as (w' & K); congruence|]. exact (I10 q Hq).
Qed.

Theorem policy_of_port : forall c h s p w, config_wf c -> run c h s -> given h p w ->
  exists x, begins c p x /\
  read s w = Some (last (map (received (detect_timeout (default_of c))) (sent w h)) x).
Proof.
  intros c h s p w W R G. destruct c as [d ports op|d ports op]; cbn [default_of].
  - destruct (discover_inv d ports op h s R) as (owners & I). destruct (i_given _ _ _ _ _ _ I p w G) as (w' & -> & H).
    exists (first d op p). split; [apply first_begins|]. exact (i_value _ _ _ _ _ _ I w' p H).
  - pose proof (fixed_inv d ports op h s W R) as I. destruct (f_given _ _ _ _ _ I p w G) as (x & B & E). exists x. split; [exact B|].
    rewrite (f_sent _ _ _ _ _ I w). exact E.
Qed.
Lemma detects_for_iff : forall d t, detects_for d t <-> t = detect_timeout d.
Proof.
  intros d t. split.
  - intros H. destruct H as [http t l m| |p H]; try reflexivity. destruct p as [pr m]. destruct pr; try reflexivity.
    exfalso. eapply H. reflexivity.
  - intros ->. destruct d as [[pr m]|]; [|constructor]. destruct pr; try (apply d_other; intros; discriminate). constructor.
Qed.
Theorem policy_of_port_said : forall c h s p w t, config_wf c -> run c h s -> given h p w -> detects_for (default_of c) t ->
  exists x, begins c p x /\ read s w = Some (last (map (received t) (sent w h)) x).
Proof.
  intros c h s p w t W R G D. apply detects_for_iff in D. subst t. exact (policy_of_port c h s p w W R G).
Qed.
Theorem own_watch : forall d ports op h s p q w, run (Discover d ports op) h s -> given h p w -> given h q w -> p = q.
Proof.
  intros d ports op h s p q w R G1 G2. destruct (discover_inv d ports op h s R) as (owners & I).
  destruct (i_given _ _ _ _ _ _ I p w G1) as (w1 & E1 & H1). destruct (i_given _ _ _ _ _ _ I q w G2) as (w2 & E2 & H2).
  assert (w1 = w2) by lia. congruence.
Qed.
Theorem kept_watch : forall d ports op h s p w w', run (Discover d ports op) h s -> In p ports -> given h p w -> given h p w' -> w = w'.
Proof.
  intros d ports op h s p w w' R P G1 G2. destruct (discover_inv d ports op h s R) as (owners & I).
  destruct (i_kept _ _ _ _ _ _ I p P) as (x & _ & Hx). rewrite (Hx w G1), (Hx w' G2). reflexivity.
Qed.
Lemma snoc_inj : forall A (a b : list A) x y, a ++ [x] = b ++ [y] -> a = b /\ x = y.
Proof. intros A a b x y H. apply app_inj_tail in H. exact H. Qed.
Lemma stays : forall c h s, run c h s -> forall p w a b, h = a ++ (Get p, Some w) :: b -> (forall o, ~ In (Evict p, o) b) ->
  exists k, cached (st_cache s) p = Some (w, k).
Proof.
  intros c h s R. induction R as [s B|h s e s' o R IH St]; intros p w a b E N.
  - destruct a; discriminate.
  - destruct b as [|y b _] using rev_ind.
    + apply snoc_inj in E as [_ E]. injection E as -> ->. cbn [step] in St. destruct (cached (st_cache s) p) as [[w' k]|] eqn:Ec.
      * injection St as <- <-. eauto.
      * destruct (st_timeout s); injection St as <- <-; cbn [st_cache]; rewrite cached_insert, N.eqb_refl; eauto.
    + replace (a ++ (Get p, Some w) :: b ++ [y]) with ((a ++ (Get p, Some w) :: b) ++ [y]) in E by (rewrite <- app_assoc; reflexivity).
      apply snoc_inj in E as [-> <-].
      destruct (IH p w a b eq_refl) as (k & Hk); [intros x Hx; apply (N x); apply in_app_iff; left; exact Hx|].
      destruct e as [q|v m|q]; cbn [step] in St.
      * destruct (cached (st_cache s) q) as [[w' k']|] eqn:Ec; [injection St as <- <-; eauto|].
        assert (Q : N.eqb q p = false) by (apply N.eqb_neq; congruence).
        destruct (st_timeout s); injection St as <- <-; cbn [st_cache]; rewrite cached_insert, Q; eauto.
      * destruct (st_timeout s); [|discriminate]. destruct (_ && _); [|discriminate]. injection St as <- <-. eauto.
      * destruct (cached (st_cache s) q) as [[w' [|]]|] eqn:Ec; try discriminate. injection St as <- <-. cbn [st_cache]. rewrite cached_filter.
        destruct (N.eqb q p) eqn:Q; [|eauto]. apply N.eqb_eq in Q. subst q. destruct (N None). apply in_app_iff. right. left. reflexivity.
Qed.
Lemma run_prefix : forall c h s, run c h s -> forall a b, h = a ++ b -> exists s', run c a s'.
Proof.
  intros c h s R. induction R as [s B|h s e s' o R IH St]; intros a b E.
  - destruct a; [|discriminate]. exists s. constructor. exact B.
  - destruct b as [|y b _] using rev_ind.
    + rewrite app_nil_r in E. subst a. exists s'. econstructor; eassumption.
    + rewrite app_assoc in E. apply snoc_inj in E as [-> _]. exact (IH a b eq_refl).
Qed.
Theorem shared_watch : forall c h s a b z p w w', run c h s -> h = a ++ (Get p, Some w) :: b ++ (Get p, Some w') :: z ->
  (forall o, ~ In (Evict p, o) b) -> w = w'.
Proof.
  intros c h s a b z p w w' R E N.
  destruct (run_prefix c h s R (a ++ (Get p, Some w) :: b ++ [(Get p, Some w')]) z) as (s' & R').
  { rewrite E, <- app_assoc. cbn [app]. rewrite <- app_assoc. reflexivity. }
  inversion R' as [s0 B|h0 s0 e s1 o R0 St]; subst; [destruct a; discriminate|].
  replace (a ++ (Get p, Some w) :: b ++ [(Get p, Some w')]) with ((a ++ (Get p, Some w) :: b) ++ [(Get p, Some w')]) in * by (rewrite <- app_assoc; reflexivity).
  match goal with H : _ ++ [_] = _ ++ [_] |- _ => apply snoc_inj in H as [-> Q] end. injection Q as -> ->.
  destruct (stays _ _ _ R0 p w a b eq_refl N) as (k & Hk). cbn [step] in St. rewrite Hk in St. injection St as _ <-. reflexivity.
Qed.
Lemma go_run : forall c es h s h' s', run c h s -> go s es = Some (h', s') -> run c (h ++ h') s'.
Proof.
  intros c. induction es as [|e es IH]; intros h s h' s' R H; cbn [go] in H.
  - injection H as <- <-. rewrite app_nil_r. exact R.
  - destruct (step s e) as [[s1 o]|] eqn:E; [|discriminate]. destruct (go s1 es) as [[h1 s2]|] eqn:G; [|discriminate]. cbn in H. injection H as <- <-.
    replace (h ++ (e, o) :: h1) with ((h ++ [(e, o)]) ++ h1) by (rewrite <- app_assoc; reflexivity).
    eapply IH; [|exact G]. econstructor; eassumption.
Qed.
Theorem received_is : forall t s, (server_ok s -> try_server s = Some (received t s)) /\ (~ server_ok s -> received t s = invalid t).
Proof.
  intros t s. unfold received. pose proof (accepted_iff s) as A. destruct (try_server s) as [p|]; split; intros H; try reflexivity.
  - destruct H. apply A. eauto.
  - apply A in H as (p & H). discriminate.
Qed.
