From Coq Require Import List NArith ZArith Bool Lia ZifyBool ZifyNat ZifyN.
From Verif Require Import Bytes BytesProofs RouteModel RouteProofs RouteMatchProofs FilterModel FilterSpec.
Import ListNotations.
Open Scope N_scope.

Lemma values_get_all n l vs : values n l vs <-> vs = get_all n l.
Proof.
  split.
  - induction 1 as [|v l vs H IH|m v l vs Hm H IH]; [easy| |]; unfold get_all in *; cbn.
    + rewrite beq_refl. cbn. congruence.
    + destruct (beq m n) eqn:E; [apply beq_eq in E; contradiction|]. easy.
  - intros ->. induction l as [|[m v] l IH]; [constructor|]. unfold get_all in *. cbn.
    destruct (beq m n) eqn:E.
    + apply beq_eq in E as ->. now constructor.
    + apply beq_neq in E. now constructor.
Qed.

Lemma get_all_app n a b : get_all n (a ++ b) = get_all n a ++ get_all n b.
Proof. unfold get_all. now rewrite filter_app, map_app. Qed.

Lemma get_all_remove_same n hs : get_all n (hm_remove hs n) = [].
Proof.
  unfold get_all, hm_remove. induction hs as [|[m v] hs IH]; [easy|]. cbn.
  destruct (beq m n) eqn:E; cbn; [easy|]. now rewrite E.
Qed.

Lemma get_all_remove_other n m hs : m <> n -> get_all n (hm_remove hs m) = get_all n hs.
Proof.
  intros Hm. unfold get_all, hm_remove. induction hs as [|[k v] hs IH]; [easy|]. cbn.
  destruct (beq k m) eqn:E; cbn.
  - apply beq_eq in E as ->. apply beq_neq in Hm. now rewrite Hm.
  - destruct (beq k n); cbn; now rewrite IH.
Qed.

Lemma get_all_adds n l hs :
  get_all n (fold_left (fun h nv => hm_append h (fst nv) (snd nv)) l hs) = get_all n hs ++ get_all n l.
Proof.
  revert hs; induction l as [|[m v] l IH]; intros hs; cbn [fold_left].
  - now rewrite app_nil_r.
  - rewrite IH. unfold hm_append. rewrite get_all_app, <- app_assoc. f_equal. cbn [fst snd].
    change ((m, v) :: l) with ([(m, v)] ++ l). now rewrite get_all_app.
Qed.

Lemma get_all_insert_same n v hs : get_all n (hm_insert hs n v) = [v].
Proof.
  unfold hm_insert. rewrite get_all_app, get_all_remove_same. unfold get_all. cbn. now rewrite beq_refl.
Qed.
Lemma get_all_insert_other n m v hs : m <> n -> get_all n (hm_insert hs m v) = get_all n hs.
Proof.
  intros H. unfold hm_insert. rewrite get_all_app, get_all_remove_other by easy.
  unfold get_all at 2. cbn. apply beq_neq in H. rewrite H. apply app_nil_r.
Qed.

Lemma get_all_sets_none n l hs : (forall v, ~ In (n, v) l) ->
  get_all n (fold_left (fun h nv => hm_insert h (fst nv) (snd nv)) l hs) = get_all n hs.
Proof.
  revert hs; induction l as [|[m v] l IH]; intros hs Hl; cbn [fold_left fst snd]; [easy|].
  rewrite IH.
  - apply get_all_insert_other. intros ->. apply (Hl v). now left.
  - intros v' H. apply (Hl v'). now right.
Qed.

Lemma get_all_sets_last n v l hs : last_value n v l ->
  get_all n (fold_left (fun h nv => hm_insert h (fst nv) (snd nv)) l hs) = [v].
Proof.
  intros (b & a & -> & Ha). rewrite fold_left_app. cbn [fold_left fst snd].
  rewrite get_all_sets_none by easy. apply get_all_insert_same.
Qed.

Lemma last_value_dec n l : (exists v, last_value n v l) \/ (forall v, ~ In (n, v) l).
Proof.
  induction l as [|[m v] l IH].
  - right. easy.
  - destruct IH as [[w (b & a & -> & Ha)]|IH].
    + left. exists w, ((m, v) :: b), a. easy.
    + destruct (bytes_eq_dec m n) as [->|Hm].
      * left. exists v, [], l. easy.
      * right. intros w [H|H]; [congruence|]. now apply (IH w).
Qed.

Lemma get_all_removes n l hs :
  get_all n (fold_left hm_remove l hs) = if existsb (fun m => beq m n) l then [] else get_all n hs.
Proof.
  revert hs; induction l as [|m l IH]; intros hs; cbn [fold_left existsb]; [easy|].
  rewrite IH. destruct (existsb _ l) eqn:E; [now rewrite orb_true_r|]. rewrite orb_false_r.
  destruct (beq m n) eqn:Em.
  - apply beq_eq in Em as ->. apply get_all_remove_same.
  - apply beq_neq in Em. now apply get_all_remove_other.
Qed.

Theorem modify_header_values f hs n vs :
  values n (modify_apply f hs) vs <-> expected_values f hs n vs.
Proof.
  rewrite values_get_all. unfold modify_apply. cbv zeta. rewrite get_all_removes.
  unfold expected_values.
  destruct (existsb _ (mh_remove f)) eqn:E.
  - apply existsb_exists in E as (m & Hm & Em). apply beq_eq in Em as ->.
    split; [now left|]. intros [[_ H]|[[H _]|[H _]]]; [easy|contradiction|contradiction].
  - assert (Hn : ~ In n (mh_remove f)).
    { intros H. apply not_true_iff_false in E. apply E. apply existsb_exists. exists n.
      now rewrite beq_refl. }
    destruct (last_value_dec n (mh_set f)) as [[v Hv]|Hset].
    + rewrite (get_all_sets_last _ v) by easy. split.
      * intros ->. right. left. eauto.
      * intros [[H _]|[[_ (w & Hw & ->)]|[_ [H _]]]]; [contradiction| |].
        -- f_equal. pose proof (get_all_sets_last n v (mh_set f) [] Hv) as H1.
           rewrite (get_all_sets_last n w (mh_set f) [] Hw) in H1. now injection H1.
        -- exfalso. destruct Hv as (b & a & Hb & _). apply (H v). rewrite Hb.
           apply in_or_app. right. now left.
    + rewrite get_all_sets_none by easy. rewrite get_all_adds. split.
      * intros ->. right. right. split; [easy|]. split; [easy|].
        exists (get_all n hs), (get_all n (mh_add f)). now rewrite !values_get_all.
      * intros [[H _]|[[_ (w & (b & a & Hb & _) & ->)]|[_ [_ (o & ad & Ho & Had & ->)]]]]; [contradiction| |].
        -- exfalso. apply (Hset w). rewrite Hb. apply in_or_app. right. now left.
        -- rewrite values_get_all in *. congruence.
Qed.

(** ** Redirects *)
Lemma opt_eqb_eq a b : opt_eqb a b = true <-> a = b.
Proof.
  destruct a as [x|], b as [y|]; cbn; try (split; easy).
  rewrite N.eqb_eq. split; congruence.
Qed.

Lemma same_uri_iff a b : uri_eq a b = true <-> same_uri a b.
Proof.
  unfold uri_eq, same_uri. rewrite !andb_true_iff.
  assert (H1 : opt_rel scheme_eq (u_scheme a) (u_scheme b) = true <->
               same_opt (fun x y => lowers x = lowers y) (u_scheme a) (u_scheme b)).
  { destruct (u_scheme a), (u_scheme b); cbn; try (split; easy). apply eq_ignore_case_iff. }
  assert (H2 : opt_rel auth_eq (u_auth a) (u_auth b) = true <->
    same_opt (fun x y => lowers (a_host x) = lowers (a_host y) /\ a_port x = a_port y) (u_auth a) (u_auth b)).
  { destruct (u_auth a), (u_auth b); cbn; try (split; easy). unfold auth_eq.
    rewrite andb_true_iff, opt_eqb_eq. now rewrite eq_ignore_case_iff. }
  assert (H3 : beq (u_path a) (u_path b) = true <-> u_path a = u_path b) by apply beq_eq.
  assert (H4 : opt_rel beq (u_query a) (u_query b) = true <-> u_query a = u_query b).
  { destruct (u_query a), (u_query b); cbn; try (split; easy). rewrite beq_eq. split; congruence. }
  tauto.
Qed.

Lemma port_default scheme p :
  port_if_not_default scheme p = None <-> default_port scheme p.
Proof.
  unfold port_if_not_default, default_port, scheme_eq, eq_ignore_case.
  change (lowers HTTP) with HTTP. change (lowers HTTPS) with HTTPS.
  destruct (beq (lowers scheme) HTTP) eqn:E1.
  - apply beq_eq in E1. rewrite E1. destruct (p =? 80) eqn:E; cbn.
    + apply N.eqb_eq in E. split; auto.
    + apply N.eqb_neq in E. split; [easy|]. intros [[_ H]|[H _]]; [contradiction|discriminate].
  - apply beq_neq in E1. cbn. destruct (beq (lowers scheme) HTTPS) eqn:E2; cbn.
    + apply beq_eq in E2. destruct (p =? 443) eqn:E.
      * apply N.eqb_eq in E. split; auto.
      * apply N.eqb_neq in E. split; [easy|]. intros [[H _]|[_ H]]; contradiction.
    + apply beq_neq in E2. split; [easy|]. intros [[H _]|[H _]]; contradiction.
Qed.

Lemma port_not_default scheme p q :
  port_if_not_default scheme p = Some q -> q = p /\ ~ default_port scheme p.
Proof.
  intros H. split.
  - unfold port_if_not_default in H. destruct (_ && _); [discriminate|].
    destruct (_ && _); [discriminate|]. congruence.
  - rewrite <- port_default. congruence.
Qed.

Lemma redirect_authority_spec r orig scheme a :
  redirect_authority r orig scheme = inl a -> chosen_authority r orig scheme a.
Proof.
  unfold redirect_authority, chosen_authority.
  destruct (rd_authority r) as [[x|h|p]|].
  - intros H; now injection H as <-.
  - unfold u_port. destruct (u_auth orig) as [o|] eqn:Eo; cbn.
    + destruct (a_port o) as [p|] eqn:Ep.
      * destruct (port_if_not_default scheme p) as [q|] eqn:Eq.
        -- apply port_not_default in Eq as [-> Hn]. unfold with_port.
           destruct (a_port h) eqn:Eh; [discriminate|]. intros H; injection H as <-. cbn.
           split; [easy|]. split; [|split].
           ++ intros o' p' E Ep' _. injection E as <-. congruence.
           ++ intros o' p' E Ep' Hd. injection E as <-. assert (p' = p) by congruence. subst. contradiction.
           ++ intros Hno. specialize (Hno o eq_refl). congruence.
        -- apply port_default in Eq. intros H; injection H as <-. split; [easy|]. split; [|split; easy].
           intros o' p' E Ep' Hn. injection E as <-. assert (p' = p) by congruence. subst. contradiction.
      * intros H; injection H as <-. split; [easy|]. split; [|split; easy].
        intros o' p' E Ep'. injection E as <-. congruence.
    + intros H; injection H as <-. split; [easy|]. split; [|split; easy]. discriminate.
  - unfold u_port. destruct (port_if_not_default scheme p) as [q|] eqn:Eq.
    + apply port_not_default in Eq as [-> Hn].
      destruct (u_auth orig) as [o|] eqn:Eo.
      * destruct (opt_eqb (Some p) (a_port o)) eqn:Ep; cbn [negb].
        -- apply opt_eqb_eq in Ep. intros H; injection H as <-. exists o. repeat split; auto; try tauto.
        -- intros H; injection H as <-. exists o. cbn. repeat split; auto; try tauto.
      * destruct (negb _); discriminate.
    + apply port_default in Eq.
      destruct (u_auth orig) as [o|] eqn:Eo; cbn; [|discriminate].
      destruct (a_port o) eqn:Ep; intros H; injection H as <-; exists o; repeat split; auto; tauto.
  - destruct (u_auth orig); [|discriminate]. intros H; now injection H as <-.
Qed.

Lemma pq_of_text_spec t p q : pq_of_text t = (p, q) -> pq_text p q t.
Proof.
  unfold pq_of_text, pq_text. destruct (split_once 63 t) as [[a b]|] eqn:E.
  - apply split_once_some in E as [-> Ha]. intros H; injection H as <- <-. auto.
  - apply split_once_none in E. intros H; injection H as <- <-. now rewrite app_nil_r.
Qed.

Lemma redirect_path_spec valid r orig rm p q :
  redirect_path valid r orig rm = PQ p q ->
  (rd_path r = None /\ p = u_path orig /\ q = u_query orig) \/
  (rd_path r <> None /\ exists t, chosen_text r orig rm t /\ pq_text p q t).
Proof.
  unfold redirect_path, chosen_text. destruct (rd_path r) as [[full|pfx]|].
  - unfold pq_parse. destruct (valid full); [|discriminate].
    destruct (pq_of_text full) as [p' q'] eqn:E. intros H; injection H as <- <-.
    right. split; [easy|]. exists full. split; [easy|]. now apply pq_of_text_spec.
  - destruct (rm_path rm) as [n|n|n]; try discriminate.
    destruct (n <=? len (u_path orig)) eqn:En; [|discriminate]. cbv zeta.
    set (rest := skipn (N.to_nat n) (u_path orig)).
    set (query := match u_query orig with Some q0 => 63 :: q0 | None => [] end).
    unfold pq_parse. destruct (valid _); [|discriminate].
    destruct (pq_of_text _) as [p' q'] eqn:E. intros H; injection H as <- <-.
    right. split; [easy|]. apply pq_of_text_spec in E. eexists. split; [|exact E].
    exists n, (firstn (N.to_nat n) (u_path orig)), rest, query.
    split; [easy|]. split; [now rewrite firstn_skipn|]. split.
    { unfold len in *. rewrite firstn_length. lia. }
    split; [easy|]. destruct rest as [|c rest'] eqn:Er.
    + left. auto.
    + right. unfold starts_with. cbn [strip_prefix]. destruct (47 =? c) eqn:Ec; cbn [negb andb app].
      * apply N.eqb_eq in Ec as <-. left. eauto.
      * apply N.eqb_neq in Ec. right. exists c, rest'. split; [congruence|]. auto.
  - destruct (has_path_and_query orig); [|discriminate]. intros H; injection H as <- <-. auto.
Qed.

Theorem redirect_sound valid r orig rm st loc :
  redirect_apply valid r orig rm = ROk (Some (Redirection st loc)) ->
  ~ same_uri loc orig /\
  st = match rd_status r with Some s => s | None => 301 end /\
  (exists s, u_scheme loc = Some s /\ chosen_scheme r orig s /\
     exists a, u_auth loc = Some a /\ chosen_authority r orig s a) /\
  ((rd_path r = None /\ u_path loc = u_path orig /\ u_query loc = u_query orig) \/
   (rd_path r <> None /\ exists t, chosen_text r orig rm t /\ pq_text (u_path loc) (u_query loc) t)).
Proof.
  unfold redirect_apply.
  set (s := match rd_scheme r with Some s => s | None => _ end).
  destruct (redirect_authority r orig s) as [a|e] eqn:Ea; [|discriminate].
  destruct (redirect_path valid r orig rm) as [p q|e|] eqn:Ep; try discriminate.
  destruct (uri_eq _ orig) eqn:Eu; [discriminate|]. intros H; injection H as <- <-. cbn.
  split; [|split; [easy|split]].
  - intros H. apply same_uri_iff in H. congruence.
  - exists s. split; [easy|]. split.
    + unfold chosen_scheme, s. now destruct (rd_scheme r), (u_scheme orig).
    + exists a. split; [easy|]. now apply redirect_authority_spec.
  - now apply redirect_path_spec in Ep.
Qed.

(** When it yields no location, the request already is at the target. *)
Theorem redirect_none valid r orig rm :
  redirect_apply valid r orig rm = ROk None ->
  exists s a p q, chosen_scheme r orig s /\ chosen_authority r orig s a /\
    ((rd_path r = None /\ p = u_path orig /\ q = u_query orig) \/
     (rd_path r <> None /\ exists t, chosen_text r orig rm t /\ pq_text p q t)) /\
    same_uri (Uri (Some s) (Some a) p q) orig.
Proof.
  unfold redirect_apply.
  set (s := match rd_scheme r with Some s => s | None => _ end).
  destruct (redirect_authority r orig s) as [a|e] eqn:Ea; [|discriminate].
  destruct (redirect_path valid r orig rm) as [p q|e|] eqn:Ep; try discriminate.
  destruct (uri_eq _ orig) eqn:Eu; [|discriminate]. intros _.
  exists s, a, p, q. split.
  { unfold chosen_scheme, s. now destruct (rd_scheme r), (u_scheme orig). }
  split; [now apply redirect_authority_spec|]. split; [now apply redirect_path_spec in Ep|].
  now apply same_uri_iff.
Qed.

(** The only panic. *)
Theorem redirect_panic_iff valid r orig rm :
  redirect_apply valid r orig rm = RPanic ->
  rd_path r = None /\ u_scheme orig = None /\ exists a, u_auth orig = Some a.
Proof.
  unfold redirect_apply.
  destruct (redirect_authority r orig _) as [a|e] eqn:Ea; [|discriminate].
  destruct (redirect_path valid r orig rm) as [p q|e|] eqn:Ep; try discriminate.
  - destruct (uri_eq _ orig); discriminate.
  - intros _. unfold redirect_path, pq_parse in Ep.
    destruct (rd_path r) as [[full|pfx]|].
    + destruct (valid full); [destruct (pq_of_text full)|]; discriminate.
    + destruct (rm_path rm); try discriminate. destruct (_ <=? _); [|discriminate].
      destruct (valid _); [destruct (pq_of_text _)|]; discriminate.
    + unfold has_path_and_query in Ep.
      destruct (u_scheme orig), (u_auth orig); try discriminate. eauto.
Qed.
