From Coq Require Import List NArith ZArith Bool Lia ZifyBool ZifyNat ZifyN.
From Verif Require Import Bytes BytesProofs RouteModel RouteSpec.
Import ListNotations.
Open Scope N_scope.

(** ** Lexicographic comparison *)
Fixpoint lexcmp (a b : list N) : comparison :=
  match a, b with
  | x :: a', y :: b' => then_with (x ?= y) (lexcmp a' b')
  | [], [] => Eq
  | [], _ => Lt
  | _, [] => Gt
  end.

Lemma lexcmp_eq a b : lexcmp a b = Eq <-> a = b.
Proof.
  revert b; induction a as [|x a IH]; intros [|y b]; cbn; try (split; easy).
  destruct (N.compare_spec x y) as [->|Hl|Hl]; cbn.
  - rewrite IH. split; congruence.
  - split; [easy|]. intros H; injection H as -> ->. lia.
  - split; [easy|]. intros H; injection H as -> ->. lia.
Qed.

Lemma lexcmp_lt a b : length a = length b -> (lexcmp a b = Lt <-> lex_lt a b).
Proof.
  revert b; induction a as [|x a IH]; intros [|y b] Hl; try discriminate; cbn.
  - split; [easy|]. inversion 1.
  - injection Hl as Hl. destruct (N.compare_spec x y) as [->|Hxy|Hxy]; cbn.
    + rewrite (IH _ Hl). split.
      * intros H. now constructor 2.
      * inversion 1; subst; [lia|easy].
    + split; [intros _; now constructor|easy].
    + split; [easy|]. inversion 1; subst; lia.
Qed.

Lemma lexcmp_antisym a b : lexcmp b a = CompOpp (lexcmp a b).
Proof.
  revert b; induction a as [|x a IH]; intros [|y b]; cbn; try easy.
  rewrite N.compare_antisym, IH. now destruct (x ?= y).
Qed.

Lemma lex_lt_trans a b c : lex_lt a b -> lex_lt b c -> lex_lt a c.
Proof.
  intros H; revert c; induction H as [x y l m Hxy|x l m H IH]; intros c Hc; inversion Hc; subst.
  - constructor; lia.
  - now constructor.
  - now constructor.
  - constructor 2. now apply IH.
Qed.

Lemma lex_le_lt_trans a b c : lex_le a b -> lex_lt b c -> lex_lt a c.
Proof. intros [->|H] H2; [easy|]. eapply lex_lt_trans; eassumption. Qed.
Lemma lex_lt_le_trans a b c : lex_lt a b -> lex_le b c -> lex_lt a c.
Proof. intros H [<-|H2]; [easy|]. eapply lex_lt_trans; eassumption. Qed.
Lemma lex_le_trans a b c : lex_le a b -> lex_le b c -> lex_le a c.
Proof. intros [->|H] H2; [easy|]. right. eapply lex_lt_le_trans; eassumption. Qed.

Lemma lex_lt_irrefl a : ~ lex_lt a a.
Proof. induction a as [|x a IH]; inversion 1; subst; [lia|auto]. Qed.

Lemma lexcmp_not_gt a b : length a = length b -> lexcmp a b <> Gt -> lex_le a b.
Proof.
  intros Hl H. destruct (lexcmp a b) eqn:E.
  - left. now apply lexcmp_eq.
  - right. now apply lexcmp_lt.
  - easy.
Qed.

Lemma lexcmp_not_lt a b : length a = length b -> lexcmp a b <> Lt -> lex_le b a.
Proof.
  intros Hl H. apply lexcmp_not_gt; [easy|]. rewrite lexcmp_antisym.
  destruct (lexcmp a b); easy.
Qed.

Lemma lex_lt_app_l a b c d : length a = length b -> lex_lt a b -> lex_lt (a ++ c) (b ++ d).
Proof.
  intros Hl H. revert c d. induction H as [x y l m Hxy|x l m H IH]; intros c d; cbn.
  - now constructor.
  - constructor 2. apply IH. now injection Hl.
Qed.
Lemma lex_lt_app_r a c d : lex_lt c d -> lex_lt (a ++ c) (a ++ d).
Proof. intros H. induction a as [|x a IH]; cbn; [easy|]. now constructor 2. Qed.
Lemma lex_le_app_r a c d : lex_le c d -> lex_le (a ++ c) (a ++ d).
Proof. intros [->|H]; [now left|right]. now apply lex_lt_app_r. Qed.

Lemma lexcmp_app a b c d : length a = length b ->
  lexcmp (a ++ c) (b ++ d) = then_with (lexcmp a b) (lexcmp c d).
Proof.
  revert b; induction a as [|x a IH]; intros [|y b] Hl; try discriminate; [easy|].
  cbn. injection Hl as Hl. rewrite (IH _ Hl). now destruct (x ?= y).
Qed.

(** ** max, best, filter_map *)
Section Keyed.
  Context {K : Type} (cmp : K -> K -> comparison) (key : K -> list N) (n : nat).
  Hypothesis key_len : forall x, length (key x) = n.
  Hypothesis key_cmp : forall x y, cmp x y = lexcmp (key x) (key y).

  Lemma cmp_lt x y : cmp x y = Lt -> lex_lt (key x) (key y).
  Proof. rewrite key_cmp. apply lexcmp_lt. now rewrite !key_len. Qed.
  Lemma cmp_not_gt x y : cmp x y <> Gt -> lex_le (key x) (key y).
  Proof. rewrite key_cmp. apply lexcmp_not_gt. now rewrite !key_len. Qed.
  Lemma cmp_not_lt x y : cmp x y <> Lt -> lex_le (key y) (key x).
  Proof. rewrite key_cmp. apply lexcmp_not_lt. now rewrite !key_len. Qed.

  Lemma max_fold l x :
    let m := fold_left (fun a b => match cmp a b with Gt => a | _ => b end) l x in
    (m = x \/ In m l) /\ lex_le (key x) (key m) /\ (forall y, In y l -> lex_le (key y) (key m)).
  Proof.
    revert x; induction l as [|y l IH]; intros x; cbn.
    - split; [now left|]. split; [now left|easy].
    - destruct (cmp x y) eqn:E.
      + destruct (IH y) as (H1 & H2 & H3). repeat split.
        * destruct H1 as [->|H1]; auto.
        * eapply lex_le_trans; [|exact H2]. apply cmp_not_gt. congruence.
        * intros z [<-|Hz]; auto.
      + destruct (IH y) as (H1 & H2 & H3). repeat split.
        * destruct H1 as [->|H1]; auto.
        * eapply lex_le_trans; [|exact H2]. apply cmp_not_gt. congruence.
        * intros z [<-|Hz]; auto.
      + destruct (IH x) as (H1 & H2 & H3). repeat split; auto.
        * destruct H1 as [->|H1]; auto.
        * intros z [<-|Hz]; auto.
          eapply lex_le_trans; [|exact H2]. apply cmp_not_lt. congruence.
  Qed.

  Lemma max_by_some l m : max_by cmp l = Some m ->
    In m l /\ forall y, In y l -> lex_le (key y) (key m).
  Proof.
    destruct l as [|x l]; [discriminate|]. cbn. intros H. injection H as <-.
    destruct (max_fold l x) as (H1 & H2 & H3). split.
    - destruct H1 as [H1|H1]; [left|right]; auto.
    - intros y [<-|Hy]; auto.
  Qed.

  Lemma max_by_none l : max_by cmp l = None <-> l = [].
  Proof. destruct l; cbn; split; easy. Qed.

  Lemma best_fold {P} (l : list (K * P)) x :
    let m := fold_left (fun a b => match cmp (fst a) (fst b) with Lt => b | _ => a end) l x in
    (m = x /\ forall y, In y l -> lex_le (key (fst y)) (key (fst x))) \/
    (exists l1 l2, l = l1 ++ m :: l2 /\ lex_lt (key (fst x)) (key (fst m)) /\
       (forall y, In y l1 -> lex_lt (key (fst y)) (key (fst m))) /\
       (forall y, In y l2 -> lex_le (key (fst y)) (key (fst m)))).
  Proof.
    revert x; induction l as [|y l IH]; intros x; cbn; [left; easy|].
    assert (Hkeep : cmp (fst x) (fst y) <> Lt ->
      let m := fold_left (fun a b => match cmp (fst a) (fst b) with Lt => b | _ => a end) l x in
      (m = x /\ forall z, y = z \/ In z l -> lex_le (key (fst z)) (key (fst x))) \/
      (exists l1 l2, y :: l = l1 ++ m :: l2 /\ lex_lt (key (fst x)) (key (fst m)) /\
         (forall z, In z l1 -> lex_lt (key (fst z)) (key (fst m))) /\
         (forall z, In z l2 -> lex_le (key (fst z)) (key (fst m))))).
    { intros Hc. cbn. apply cmp_not_lt in Hc.
      destruct (IH x) as [[H1 H2]|(l1 & l2 & H1 & H2 & H3 & H4)].
      - left. split; [easy|]. intros z [<-|Hz]; auto.
      - right. exists (y :: l1), l2. cbn. repeat split; auto.
        + now rewrite H1 at 1.
        + intros z [<-|Hz]; auto. eapply lex_le_lt_trans; eassumption. }
    destruct (cmp (fst x) (fst y)) eqn:E; [apply Hkeep; congruence| |apply Hkeep; congruence].
    clear Hkeep. apply cmp_lt in E. right.
    destruct (IH y) as [[H1 H2]|(l1 & l2 & H1 & H2 & H3 & H4)].
    - exists [], l. rewrite H1. cbn. repeat split; auto. easy.
    - exists (y :: l1), l2. cbn. repeat split; auto.
      + now rewrite H1 at 1.
      + eapply lex_lt_trans; eassumption.
      + intros z [<-|Hz]; auto.
  Qed.

  Lemma best_some {P} (l : list (K * P)) m : best cmp l = Some m ->
    exists l1 l2, l = l1 ++ m :: l2 /\
      (forall y, In y l1 -> lex_lt (key (fst y)) (key (fst m))) /\
      (forall y, In y l2 -> lex_le (key (fst y)) (key (fst m))).
  Proof.
    destruct l as [|x l]; [discriminate|]. unfold best. intros H. injection H as <-.
    destruct (best_fold l x) as [[H1 H2]|(l1 & l2 & H1 & H2 & H3 & H4)].
    - exists [], l. rewrite H1. cbn. repeat split; auto. easy.
    - exists (x :: l1), l2. cbn. repeat split; auto.
      + now rewrite H1 at 1.
      + intros z [<-|Hz]; auto.
  Qed.

  Lemma best_none {P} (l : list (K * P)) : best cmp l = None <-> l = [].
  Proof. destruct l; cbn; split; easy. Qed.
End Keyed.

Lemma filter_map_in {A B} (f : A -> option B) l y :
  In y (filter_map f l) <-> exists x, In x l /\ f x = Some y.
Proof.
  induction l as [|x l IH]; cbn.
  - split; [easy|]. now intros (x & [] & _).
  - destruct (f x) as [b|] eqn:E; cbn; rewrite ?IH; split.
    + intros [<-|(z & Hz & Hf)]; eauto.
    + intros (z & [<-|Hz] & Hf); [left; congruence|right; eauto].
    + intros (z & Hz & Hf); eauto.
    + intros (z & [<-|Hz] & Hf); [congruence|eauto].
Qed.

Lemma filter_map_nil {A B} (f : A -> option B) l :
  filter_map f l = [] <-> forall x, In x l -> f x = None.
Proof.
  induction l as [|x l IH]; cbn; [easy|].
  destruct (f x) as [b|] eqn:E; split.
  - easy.
  - intros H. specialize (H x (or_introl eq_refl)). congruence.
  - intros H z [<-|Hz]; [easy|]. now apply IH.
  - intros H. apply IH. auto.
Qed.

Lemma filter_map_split {A B} (f : A -> option B) l l1 y l2 :
  filter_map f l = l1 ++ y :: l2 ->
  exists x1 x x2, l = x1 ++ x :: x2 /\ f x = Some y /\ filter_map f x1 = l1 /\ filter_map f x2 = l2.
Proof.
  revert l1; induction l as [|x l IH]; intros l1 H; cbn in H.
  - destruct l1; discriminate.
  - destruct (f x) as [b|] eqn:E.
    + destruct l1 as [|c l1]; cbn in H; injection H as -> H.
      * exists [], x, l. auto.
      * destruct (IH _ H) as (x1 & z & x2 & -> & Hz & H1 & H2).
        exists (x :: x1), z, x2. cbn. rewrite E. now rewrite H1.
    + destruct (IH _ H) as (x1 & z & x2 & -> & Hz & H1 & H2).
      exists (x :: x1), z, x2. cbn. rewrite E. now rewrite H1.
Qed.

(** ** Generic lookup *)
Definition host_key (h : host_match) : list N :=
  match h with HMSuffix n => [1; n] | HMExact n => [2; n] end.
Definition host_opt_key (h : option host_match) : list N :=
  match h with None => [0; 0] | Some h => host_key h end.

Lemma host_key_cmp x y : host_cmp x y = lexcmp (host_key x) (host_key y).
Proof. destruct x as [a|a], y as [b|b]; cbn; try easy; now destruct (a ?= b). Qed.
Lemma host_key_len x : length (host_key x) = 2%nat.
Proof. now destruct x. Qed.
Lemma host_opt_key_cmp x y :
  opt_cmp host_cmp x y = lexcmp (host_opt_key x) (host_opt_key y).
Proof.
  destruct x as [x|], y as [y|]; cbn [opt_cmp host_opt_key]; try easy.
  - apply host_key_cmp.
  - now destruct x.
  - now destruct y.
Qed.
Lemma host_opt_key_len x : length (host_opt_key x) = 2%nat.
Proof. destruct x as [x|]; [apply host_key_len|easy]. Qed.

Section Lookup.
  Context {M S P : Type}.
  Variable matches : M -> request -> option S.
  Variable scmp : S -> S -> comparison.
  Variable default : S.
  Variable skey : S -> list N.
  Variable n : nat.
  Variable accepts : M -> request -> Prop.
  Variable rank : M -> request -> list N -> Prop.
  Hypothesis skey_len : forall s, length (skey s) = n.
  Hypothesis skey_cmp : forall a b, scmp a b = lexcmp (skey a) (skey b).
  Hypothesis match_some : forall m req s, matches m req = Some s ->
      accepts m req /\ rank m req (skey s).
  Hypothesis match_none : forall m req, matches m req = None -> ~ accepts m req.
  Hypothesis rank_fun : forall m req r r', rank m req r -> rank m req r' -> r = r'.
  Hypothesis host_some : forall m host hm, well_formed_host m ->
      summarize_match m (Some host) = Some hm -> host_accepts m host /\ host_rank m (host_key hm).
  Hypothesis host_none : forall m host, well_formed_host m ->
      summarize_match m (Some host) = None -> ~ host_accepts m host.
  Hypothesis host_rank_fun : forall m r r', host_rank m r -> host_rank m r' -> r = r'.

  Definition rkey (x : option host_match * S) : list N := host_opt_key (fst x) ++ skey (snd x).
  Lemma rkey_len x : length (rkey x) = (2 + n)%nat.
  Proof. unfold rkey. now rewrite app_length, host_opt_key_len, skey_len. Qed.
  Lemma rkey_cmp x y : route_match_cmp scmp x y = lexcmp (rkey x) (rkey y).
  Proof.
    unfold route_match_cmp, rkey. rewrite lexcmp_app by now rewrite !host_opt_key_len.
    now rewrite host_opt_key_cmp, skey_cmp.
  Qed.

  Notation rule_rank' := (@rule_rank M P accepts rank (skey default)).
  Notation applies' := (@applies M P accepts rank (skey default)).

  Lemma rule_summary_some ru req s p :
    rule_summary matches scmp default ru req = Some (s, p) ->
    rule_rank' ru req (skey s) /\ p = ru_policy ru.
  Proof.
    unfold rule_summary. destruct (ru_matches ru) as [|m0 ms] eqn:E.
    - intros H. injection H as <- <-. split; [left; auto|easy].
    - rewrite <- E. destruct (max_by scmp _) as [s'|] eqn:Em; [|discriminate].
      intros H. injection H as -> <-. split; [|easy]. right.
      apply (max_by_some scmp skey n skey_len skey_cmp) in Em as [Hin Hmax].
      apply filter_map_in in Hin as (m & Hm & Hs). split.
      + exists m. apply match_some in Hs as [H1 H2]. auto.
      + intros m' r' Hm' Ha Hr. destruct (matches m' req) as [s'|] eqn:Es.
        * pose proof (match_some _ _ _ Es) as [_ Hr'].
          rewrite (rank_fun _ _ _ _ Hr Hr'). apply Hmax. apply filter_map_in. eauto.
        * now apply match_none in Es.
  Qed.

  Lemma rule_summary_none ru req :
    rule_summary matches scmp default ru req = None -> forall r, ~ rule_rank' ru req r.
  Proof.
    unfold rule_summary. destruct (ru_matches ru) as [|m0 ms] eqn:E; [discriminate|].
    rewrite <- E. destruct (max_by scmp _) as [s'|] eqn:Em; [discriminate|].
    intros _ r [[H _]|[(m & Hm & Ha & Hr) _]]; [congruence|].
    apply max_by_none in Em. rewrite filter_map_nil in Em. apply Em in Hm.
    now apply match_none in Hm.
  Qed.

  Lemma rule_rank_unique ru req r r' : rule_rank' ru req r -> rule_rank' ru req r' -> r = r'.
  Proof.
    intros [[E ->]|[(m & Hm & Ha & Hr) Hmax]] [[E' ->]|[(m' & Hm' & Ha' & Hr') Hmax']].
    - easy.
    - rewrite E in Hm'. easy.
    - rewrite E' in Hm. easy.
    - destruct (Hmax' m r Hm Ha Hr) as [->|H1]; [easy|].
      destruct (Hmax m' r' Hm' Ha' Hr') as [->|H2]; [easy|].
      exfalso. eapply lex_lt_irrefl, lex_lt_trans; eassumption.
  Qed.

  Lemma route_host_some (rt : route M P) req h :
    (forall m, In m (rt_hosts rt) -> well_formed_host m) ->
    route_host rt req = Some h -> route_hosts_rank rt req (host_opt_key h).
  Proof.
    intros Hwf. unfold route_host. destruct (rt_hosts rt) as [|m0 ms] eqn:E.
    - intros H. injection H as <-. left. auto.
    - rewrite <- E in *. destruct (max_by host_cmp _) as [hm|] eqn:Em; [|discriminate].
      intros H. injection H as <-. right.
      apply (max_by_some host_cmp host_key 2 host_key_len host_key_cmp) in Em as [Hin Hmax].
      apply filter_map_in in Hin as (m & Hm & Hs).
      destruct (rq_host req) as [host|] eqn:Eh; [|discriminate].
      exists host. split; [easy|]. split.
      + exists m. pose proof (host_some _ _ _ (Hwf _ Hm) Hs) as [H1 H2]. auto.
      + intros m' r' Hm' Ha Hr. destruct (summarize_match m' (Some host)) as [hm'|] eqn:Es.
        * pose proof (host_some _ _ _ (Hwf _ Hm') Es) as [_ Hr'].
          rewrite (host_rank_fun _ _ _ Hr Hr'). apply Hmax. apply filter_map_in. eauto.
        * now apply host_none in Es; [|auto].
  Qed.

  Lemma route_host_none (rt : route M P) req :
    (forall m, In m (rt_hosts rt) -> well_formed_host m) ->
    route_host rt req = None -> forall r, ~ route_hosts_rank rt req r.
  Proof.
    intros Hwf. unfold route_host. destruct (rt_hosts rt) as [|m0 ms] eqn:E; [discriminate|].
    rewrite <- E in *. destruct (max_by host_cmp _) as [hm|] eqn:Em; [discriminate|].
    intros _ r [[H _]|(host & Hh & (m & Hm & Ha & Hr) & _)]; [congruence|].
    apply max_by_none in Em. rewrite filter_map_nil in Em.
    pose proof (Em _ Hm) as Hn. rewrite Hh in Hn. now apply host_none in Hn; [|auto].
  Qed.

  Lemma route_hosts_rank_unique (rt : route M P) req r r' :
    route_hosts_rank rt req r -> route_hosts_rank rt req r' -> r = r'.
  Proof.
    intros [[E ->]|(h & Eh & (m & Hm & Ha & Hr) & Hmax)]
           [[E' ->]|(h' & Eh' & (m' & Hm' & Ha' & Hr') & Hmax')].
    - easy.
    - rewrite E in Hm'. easy.
    - rewrite E' in Hm. easy.
    - rewrite Eh in Eh'. injection Eh' as <-.
      destruct (Hmax' m r Hm Ha Hr) as [->|H1]; [easy|].
      destruct (Hmax m' r' Hm' Ha' Hr') as [->|H2]; [easy|].
      exfalso. eapply lex_lt_irrefl, lex_lt_trans; eassumption.
  Qed.

  (** A route's summary is the first best of its rules. *)
  Lemma route_summary_some rt req k p :
    (forall m, In m (rt_hosts rt) -> well_formed_host m) ->
    route_summary matches scmp default rt req = Some (k, p) ->
    exists rbefore ru rafter, rt_rules rt = rbefore ++ ru :: rafter /\ ru_policy ru = p /\
      applies' rt ru req (rkey k) /\
      (forall ru' r', In ru' rbefore -> applies' rt ru' req r' -> lex_lt r' (rkey k)) /\
      (forall ru' r', In ru' rafter -> applies' rt ru' req r' -> lex_le r' (rkey k)).
  Proof.
    intros Hwf. unfold route_summary. destruct (route_host rt req) as [h|] eqn:Eh; [|discriminate].
    apply route_host_some in Eh; [|auto].
    destruct (best scmp _) as [[s p']|] eqn:Eb; [|discriminate].
    intros H. injection H as <- <-.
    apply (best_some scmp skey n skey_len skey_cmp) in Eb as (l1 & l2 & El & Hlt & Hle).
    apply filter_map_split in El as (x1 & ru & x2 & Er & Hru & H1 & H2).
    apply rule_summary_some in Hru as [Hru ->].
    exists x1, ru, x2. split; [easy|]. split; [easy|].
    assert (Hcmp : forall ru' r', applies' rt ru' req r' ->
      exists s' p', rule_summary matches scmp default ru' req = Some (s', p') /\
        r' = host_opt_key h ++ skey s').
    { intros ru' r' (h' & s' & Hh' & Hs' & ->).
      rewrite (route_hosts_rank_unique _ _ _ _ Hh' Eh).
      destruct (rule_summary matches scmp default ru' req) as [[s'' p'']|] eqn:Es.
      - exists s'', p''. split; [easy|]. f_equal. apply rule_summary_some in Es as [Es _].
        eapply rule_rank_unique; eassumption.
      - exfalso. eapply rule_summary_none in Es. now apply Es in Hs'. }
    repeat split.
    - exists (host_opt_key h), (skey s). auto.
    - intros ru' r' Hin Ha. apply Hcmp in Ha as (s' & p' & Hs' & ->).
      unfold rkey. cbn. apply lex_lt_app_r. apply (Hlt (s', p')).
      rewrite <- H1. apply filter_map_in. eauto.
    - intros ru' r' Hin Ha. apply Hcmp in Ha as (s' & p' & Hs' & ->).
      unfold rkey. cbn. apply lex_le_app_r. apply (Hle (s', p')).
      rewrite <- H2. apply filter_map_in. eauto.
  Qed.

  Lemma route_summary_none rt req :
    (forall m, In m (rt_hosts rt) -> well_formed_host m) ->
    route_summary matches scmp default rt req = None ->
    forall ru r, In ru (rt_rules rt) -> ~ applies' rt ru req r.
  Proof.
    intros Hwf. unfold route_summary. destruct (route_host rt req) as [h|] eqn:Eh.
    - destruct (best scmp _) as [[s p']|] eqn:Eb; [discriminate|].
      intros _ ru r Hin (h' & s' & _ & Hs & _).
      apply best_none in Eb. rewrite filter_map_nil in Eb.
      apply Eb in Hin. eapply rule_summary_none in Hin. now apply Hin in Hs.
    - intros _ ru r Hin (h' & s' & Hh & _). eapply route_host_none in Eh; [|auto].
      now apply Eh in Hh.
  Qed.

  (** When a route applies through some rule, its summary is at least as high. *)
  Lemma route_summary_upper rt ru req r :
    (forall m, In m (rt_hosts rt) -> well_formed_host m) ->
    In ru (rt_rules rt) -> applies' rt ru req r ->
    exists k p, route_summary matches scmp default rt req = Some (k, p) /\ lex_le r (rkey k).
  Proof.
    intros Hwf Hin Ha. destruct (route_summary matches scmp default rt req) as [[k p]|] eqn:E.
    - exists k, p. split; [easy|].
      apply route_summary_some in E as (x1 & ru0 & x2 & Er & _ & Ha0 & Hlt & Hle); [|auto].
      rewrite Er in Hin. apply in_app_or in Hin as [Hin|[<-|Hin]].
      + right. eapply Hlt; eassumption.
      + left. destruct Ha as (h & s & Hh & Hs & ->), Ha0 as (h' & s' & Hh' & Hs' & ->).
        f_equal; [eapply route_hosts_rank_unique|eapply rule_rank_unique]; eassumption.
      + eapply Hle; eassumption.
    - exfalso. eapply route_summary_none; eassumption.
  Qed.

  Theorem find_first_best (routes : list (route M P)) req k p :
    well_formed routes ->
    find matches scmp default routes req = Some (k, p) ->
    first_best accepts rank (skey default) routes req p.
  Proof.
    intros Hwf. unfold find. intros H.
    apply (best_some _ rkey (2 + n) rkey_len rkey_cmp) in H as (l1 & l2 & El & Hlt & Hle).
    apply filter_map_split in El as (x1 & rt & x2 & Er & Hrt & H1 & H2).
    assert (Hwf1 : forall rt', In rt' routes -> forall m, In m (rt_hosts rt') -> well_formed_host m)
      by (intros; eapply Hwf; eassumption).
    apply route_summary_some in Hrt as (y1 & ru & y2 & Eu & Hp & Ha & Hult & Hule);
      [|apply Hwf1; rewrite Er; apply in_or_app; right; now left].
    exists x1, rt, x2, y1, ru, y2, (rkey k).
    do 4 (split; [easy|]). split; [|split; [easy|split; [easy|]]].
    - intros rt' ru' r' Hrt' Hru' Ha'.
      eapply route_summary_upper in Ha' as (k' & p' & Hk & Hr); [| |exact Hru'].
      + eapply lex_le_lt_trans; [exact Hr|]. apply (Hlt (k', p')).
        rewrite <- H1. apply filter_map_in. eauto.
      + apply Hwf1. rewrite Er. apply in_or_app. now left.
    - intros rt' ru' r' Hrt' Hru' Ha'.
      eapply route_summary_upper in Ha' as (k' & p' & Hk & Hr); [| |exact Hru'].
      + eapply lex_le_trans; [exact Hr|]. apply (Hle (k', p')).
        rewrite <- H2. apply filter_map_in. eauto.
      + apply Hwf1. rewrite Er. apply in_or_app. right. now right.
  Qed.

  Theorem find_none (routes : list (route M P)) req :
    well_formed routes ->
    (find matches scmp default routes req = None <->
     no_rule_applies accepts rank (skey default) routes req).
  Proof.
    intros Hwf. unfold find. rewrite best_none, filter_map_nil. split.
    - intros H rt ru r Hrt Hru Ha. specialize (H _ Hrt).
      eapply route_summary_none in H; [|intros; eapply Hwf; eassumption|exact Hru].
      exact (H Ha).
    - intros H rt Hrt. destruct (route_summary matches scmp default rt req) as [[k p]|] eqn:E; [|easy].
      apply route_summary_some in E as (x1 & ru & x2 & Er & _ & Ha & _);
        [|intros; eapply Hwf; eassumption].
      exfalso. eapply (H rt ru); [exact Hrt| |exact Ha].
      rewrite Er. apply in_or_app. right. now left.
  Qed.
End Lookup.
