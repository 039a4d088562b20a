(** The matchers of the model agree with their declarative specification. *)
From Coq Require Import List NArith ZArith Bool Lia ZifyBool ZifyNat ZifyN.
From Verif Require Import Bytes BytesProofs RouteModel RouteSpec RouteProofs.
Import ListNotations.
Open Scope N_scope.

(** ** Hosts *)
Lemma strip_suffix_ignore_case_some host sfx h :
  strip_suffix_ignore_case host sfx = Some h <->
  exists t, host = h ++ t /\ lowers t = lowers sfx.
Proof.
  unfold strip_suffix_ignore_case. destruct (Nat.leb_spec (length sfx) (length host)) as [Hl|Hl].
  - cbn. destruct (eq_ignore_case _ sfx) eqn:E.
    + apply eq_ignore_case_iff in E. split.
      * intros H. injection H as <-. eexists. split; [|exact E]. now rewrite firstn_skipn.
      * intros (t & -> & Ht). f_equal.
        assert (Hlen : length t = length sfx)
          by (rewrite <- (lowers_length t), Ht; apply lowers_length).
        rewrite app_length, Hlen, Nat.add_sub.
        rewrite firstn_app, Nat.sub_diag, firstn_all. cbn. apply app_nil_r.
    + split; [discriminate|]. intros (t & -> & Ht).
      assert (Hlen : length t = length sfx)
        by (rewrite <- (lowers_length t), Ht; apply lowers_length).
      rewrite app_length, Hlen, Nat.add_sub in E.
      rewrite skipn_app, Nat.sub_diag, skipn_all in E. cbn [app skipn] in E.
      apply eq_ignore_case_iff in Ht. congruence.
  - split; [discriminate|]. intros (t & -> & Ht). exfalso.
    rewrite app_length in Hl.
    assert (Hlen : length t = length sfx)
      by (rewrite <- (lowers_length t), Ht; apply lowers_length).
    lia.
Qed.

Lemma len_app a b : len (a ++ b) = len a + len b.
Proof. unfold len. rewrite app_length. lia. Qed.
Lemma len_cons a b : len (a :: b) = 1 + len b.
Proof. unfold len. cbn [length]. lia. Qed.

Lemma join_snoc c ps p : ps <> [] -> join c (ps ++ [p]) = join c ps ++ c :: p.
Proof.
  induction ps as [|q ps IH]; [easy|]. intros _.
  destruct ps as [|r ps]; [easy|].
  change (join c ((q :: r :: ps) ++ [p])) with (q ++ [c] ++ join c ((r :: ps) ++ [p])).
  rewrite IH by easy. change (join c (q :: r :: ps)) with (q ++ [c] ++ join c (r :: ps)).
  now rewrite <- !app_assoc.
Qed.

Lemma rev_nonempty {A} (l : list A) : l <> [] -> rev l <> [].
Proof. intros H E. apply H. rewrite <- (rev_involutive l), E. reflexivity. Qed.

Lemma strip_labels_some labels host acc n :
  labels <> [] ->
  (strip_labels host labels acc = Some n <->
   n = acc + len (join 46 (rev labels)) + 1 /\
   exists pre, lowers host = lowers (pre ++ 46 :: join 46 (rev labels))).
Proof.
  revert host acc; induction labels as [|l rest IH]; [easy|]. intros host acc _.
  cbn [strip_labels rev].
  destruct rest as [|l2 rest].
  - cbn [rev app join strip_labels]. clear IH.
    destruct (strip_suffix_ignore_case host l) as [h|] eqn:E.
    + apply strip_suffix_ignore_case_some in E as (t & -> & Ht).
      destruct (strip_suffix [46] h) as [h'|] eqn:E2.
      * apply strip_suffix_some in E2 as ->. split.
        -- intros H. injection H as <-. split; [lia|]. exists h'.
           rewrite !lowers_app. cbn. rewrite Ht. now rewrite <- app_assoc.
        -- intros [-> _]. f_equal. lia.
      * split; [discriminate|]. intros [_ (pre & Hp)]. exfalso.
        rewrite !lowers_app in Hp. cbn [lowers map] in Hp. fold (lowers l) in Hp.
        rewrite Ht in Hp.
        change (lower 46 :: lowers l) with ([46] ++ lowers l) in Hp.
        rewrite app_assoc in Hp. apply app_inv_tail in Hp.
        apply map_eq_app in Hp as (a & b & -> & _ & Hb).
        destruct b as [|c [|]]; try discriminate. injection Hb as Hb. apply lower_dot in Hb as ->.
        apply strip_suffix_none in E2. apply E2. eauto.
    + split; [discriminate|]. intros [_ (pre & Hp)]. exfalso.
      rewrite lowers_app in Hp. cbn [lowers map] in Hp. fold (lowers l) in Hp.
      change (lower 46 :: lowers l) with ([46] ++ lowers l) in Hp.
      rewrite app_assoc in Hp. apply map_eq_app in Hp as (a & b & -> & _ & Hb).
      assert (H : strip_suffix_ignore_case (a ++ b) l = Some a)
        by (apply strip_suffix_ignore_case_some; eauto).
      congruence.
  - set (rest' := l2 :: rest) in *.
    assert (Hne : rest' <> []) by easy.
    rewrite join_snoc by now apply rev_nonempty.
    set (J := join 46 (rev rest')) in *.
    destruct (strip_suffix_ignore_case host l) as [h|] eqn:E.
    + apply strip_suffix_ignore_case_some in E as (t & -> & Ht).
      destruct (strip_suffix [46] h) as [h'|] eqn:E2.
      * apply strip_suffix_some in E2 as ->. rewrite (IH h' (acc + (len l + 1)) Hne).
        rewrite len_app, len_cons. split.
        -- intros [-> (pre & Hp)]. split; [lia|]. exists pre.
           rewrite !lowers_app, Hp, Ht, !lowers_app. cbn [lowers map]. fold (lowers (J ++ 46 :: l)).
           rewrite lowers_app. cbn [lowers map]. fold (lowers l) (lowers J).
           rewrite <- !app_assoc. cbn. reflexivity.
        -- intros [-> (pre & Hp)]. split; [lia|]. exists pre.
           rewrite !lowers_app in Hp. cbn [lowers map] in Hp. fold (lowers (J ++ 46 :: l)) in Hp.
           rewrite lowers_app in Hp. cbn [lowers map] in Hp. fold (lowers l) (lowers J) in Hp.
           fold (lowers t) in Hp.
           rewrite Ht in Hp.
           change (lower 46 :: lowers l) with ([lower 46] ++ lowers l) in Hp.
           change (lower 46 :: lowers J ++ [lower 46] ++ lowers l)
             with ((lower 46 :: lowers J) ++ [lower 46] ++ lowers l) in Hp.
           rewrite (app_assoc (lower 46 :: lowers J)) in Hp.
           rewrite (app_assoc (map lower pre)) in Hp.
           apply app_inv_tail in Hp. rewrite app_assoc in Hp. apply app_inv_tail in Hp.
           rewrite lowers_app. exact Hp.
      * split; [discriminate|]. intros [_ (pre & Hp)]. exfalso.
        rewrite !lowers_app in Hp. cbn [lowers map] in Hp. fold (lowers (J ++ 46 :: l)) in Hp.
        rewrite lowers_app in Hp. cbn [lowers map] in Hp. fold (lowers l) (lowers J) in Hp.
        fold (lowers t) in Hp. rewrite Ht in Hp.
        change (lower 46 :: lowers l) with ([lower 46] ++ lowers l) in Hp.
        change (lower 46 :: lowers J ++ [lower 46] ++ lowers l)
          with ((lower 46 :: lowers J) ++ [lower 46] ++ lowers l) in Hp.
        rewrite (app_assoc (lower 46 :: lowers J)) in Hp.
        rewrite (app_assoc (map lower pre)) in Hp.
        apply app_inv_tail in Hp. rewrite app_assoc in Hp.
        apply map_eq_app in Hp as (a & b & -> & _ & Hb).
        destruct b as [|c [|]]; try discriminate. injection Hb as Hb. apply lower_dot in Hb as ->.
        apply strip_suffix_none in E2. apply E2. eauto.
    + split; [discriminate|]. intros [_ (pre & Hp)]. exfalso.
      rewrite !lowers_app in Hp. cbn [lowers map] in Hp. fold (lowers (J ++ 46 :: l)) in Hp.
      rewrite lowers_app in Hp. cbn [lowers map] in Hp. fold (lowers l) (lowers J) in Hp.
      change (lower 46 :: lowers l) with ([lower 46] ++ lowers l) in Hp.
      change (lower 46 :: lowers J ++ [lower 46] ++ lowers l)
        with ((lower 46 :: lowers J) ++ [lower 46] ++ lowers l) in Hp.
      rewrite (app_assoc (lower 46 :: lowers J)) in Hp.
      rewrite (app_assoc (lowers pre)) in Hp.
      apply map_eq_app in Hp as (a & b & -> & _ & Hb).
      assert (H : strip_suffix_ignore_case (a ++ b) l = Some a)
        by (apply strip_suffix_ignore_case_some; eauto).
      congruence.
Qed.

Lemma split_snoc c s : split c (s ++ [c]) = split c s ++ [[]].
Proof.
  induction s as [|x s IH]; cbn; [now rewrite N.eqb_refl|].
  destruct (x =? c); [now rewrite IH|]. rewrite IH.
  pose proof (split_nonempty c s). now destruct (split c s).
Qed.

Lemma undotted_strip_dot h h' : undotted h h' <-> h' = strip_dot h.
Proof.
  unfold strip_dot. destruct (strip_suffix [46] h) as [x|] eqn:E.
  - apply strip_suffix_some in E as ->. split.
    + inversion 1 as [a Ha|a Ha]; subst.
      * now apply app_inv_tail in Ha.
      * exfalso. now apply (Ha x).
    + intros ->. constructor.
  - apply strip_suffix_none in E. split.
    + inversion 1; subst; [|easy]. exfalso. apply E. eauto.
    + intros ->. constructor. intros h'' ->. apply E. eauto.
Qed.

Lemma dotted_dec h : {exists n, h = n ++ [46]} + {forall n, h <> n ++ [46]}.
Proof.
  destruct (strip_suffix [46] h) as [x|] eqn:E.
  - left. apply strip_suffix_some in E. eauto.
  - right. apply strip_suffix_none in E. intros n ->. apply E. eauto.
Qed.

Lemma ends_with_dot h : ends_with [46] h = true <-> exists n, h = n ++ [46].
Proof. apply ends_with_iff. Qed.

Lemma exact_host_iff h host :
  (exists hm, summarize_match (HExact h) (Some host) = Some hm) <-> exact_host_accepts h host.
Proof.
  cbn. unfold exact_host_accepts, same_ignoring_case.
  destruct (ends_with [46] h) eqn:Ed.
  - apply ends_with_dot in Ed as [n Hn]. destruct (eq_ignore_case h host) eqn:E.
    + apply eq_ignore_case_iff in E. split; [|eauto]. intros _. left. eauto.
    + split; [intros [hm H]; discriminate|].
      intros [(h' & -> & H)|[H _]].
      * apply eq_ignore_case_iff in H. congruence.
      * exfalso. eapply H. exact Hn.
  - assert (Hnd : forall n, h <> n ++ [46]).
    { intros n ->. assert (ends_with [46] (n ++ [46]) = true) by (apply ends_with_dot; eauto). congruence. }
    destruct (eq_ignore_case h (strip_dot host)) eqn:E.
    + apply eq_ignore_case_iff in E. split; [|eauto]. intros _. right. split; [easy|].
      exists (strip_dot host). split; [now apply undotted_strip_dot|easy].
    + split; [intros [hm H]; discriminate|].
      intros [(h' & -> & H)|[_ (h' & Hu & H)]].
      * exfalso. now apply (Hnd h').
      * apply undotted_strip_dot in Hu as ->. apply eq_ignore_case_iff in H. congruence.
Qed.

Lemma wildcard_labels name labels : wildcard_of name labels ->
  labels <> [] /\ join 46 (rev labels) = name /\
  ((match labels with [] :: _ => true | _ => false end) = true <-> absolute name).
Proof.
  unfold wildcard_of. intros ->. rewrite rev_involutive, split_join.
  split; [apply rev_nonempty, split_nonempty|]. split; [easy|].
  destruct (rev (split 46 name)) as [|l ls] eqn:E.
  { exfalso. eapply rev_nonempty; [|exact E]. apply split_nonempty. }
  assert (Es : split 46 name = rev ls ++ [l])
    by (rewrite <- (rev_involutive (split 46 name)), E; reflexivity).
  split.
  - intros Hl. destruct l; [|discriminate].
    assert (Hj : join 46 (rev ls ++ [[]]) = name) by (rewrite <- (split_join 46 name), Es; reflexivity).
    destruct (rev ls) as [|p ps] eqn:Er.
    + left. now rewrite <- Hj.
    + right. rewrite join_snoc in Hj by easy. eauto.
  - intros [->|[n ->]].
    + cbn in Es. destruct (rev ls) as [|p ps]; cbn in Es; [now injection Es as <-|].
      injection Es as _ Es. destruct ps; discriminate.
    + rewrite split_snoc in Es. apply app_inj_tail in Es as [_ <-]. easy.
Qed.

Lemma wildcard_host_iff name labels host n :
  wildcard_of name labels ->
  (summarize_match (HSuffix labels) (Some host) = Some (HMSuffix n) <->
   wildcard_host_accepts name host /\ n = len name + 1).
Proof.
  intros Hw. apply wildcard_labels in Hw as (Hne & Hj & Habs).
  unfold summarize_match, wildcard_host_accepts, same_ignoring_case.
  set (a := match labels with [] :: _ => true | _ => false end) in *.
  cbv zeta. set (host' := if a then host else strip_dot host).
  assert (Hsl : (match strip_labels host' labels 0 with
                 | Some n0 => Some (HMSuffix n0) | None => None end = Some (HMSuffix n)) <->
                 n = len name + 1 /\ exists pre, lowers host' = lowers (pre ++ 46 :: name)).
  { pose proof (strip_labels_some labels host' 0) as Hs. rewrite Hj in Hs.
    destruct (strip_labels host' labels 0) as [m|] eqn:E.
    - destruct (proj1 (Hs m Hne) eq_refl) as [Hm Hpre]. split.
      + intros H. injection H as <-. split; [lia|easy].
      + intros [-> _]. repeat f_equal. lia.
    - split; [discriminate|]. intros [Hn Hpre].
      assert (None = Some n) by (apply (Hs n Hne); split; [lia|easy]). discriminate. }
  rewrite Hsl. clear Hsl. subst host'. destruct a.
  - assert (absolute name) by now apply Habs. split.
    + intros [-> (pre & Hp)]. split; [|easy]. left. split; [easy|]. exists pre. exact Hp.
    + intros [[[_ (pre & Hp)]|[Hna _]] ->]; [|contradiction]. split; [easy|]. exists pre. exact Hp.
  - assert (Hna : ~ absolute name) by (rewrite <- Habs; discriminate). split.
    + intros [-> (pre & Hp)]. split; [|easy]. right. split; [easy|].
      exists (strip_dot host). split; [now apply undotted_strip_dot|]. exists pre. exact Hp.
    + intros [[[Ha _]|[_ (h & Hu & pre & Hp)]] ->]; [contradiction|].
      apply undotted_strip_dot in Hu as ->. split; [easy|]. exists pre. exact Hp.
Qed.

Lemma wildcard_of_inj n n' ls : wildcard_of n ls -> wildcard_of n' ls -> n = n'.
Proof.
  unfold wildcard_of. intros -> H. apply (f_equal (@rev bytes)) in H.
  rewrite !rev_involutive in H. now rewrite <- (split_join 46 n), H, split_join.
Qed.

Lemma host_some m host hm : well_formed_host m ->
  summarize_match m (Some host) = Some hm -> host_accepts m host /\ host_rank m (host_key hm).
Proof.
  destruct m as [h|labels]; cbn [well_formed_host host_accepts host_rank].
  - intros _ H. split; [apply exact_host_iff; eauto|].
    cbn in H. destruct (eq_ignore_case _ _); [|discriminate]. now injection H as <-.
  - intros (name & Hw) H.
    assert (exists n, hm = HMSuffix n) as [n ->].
    { cbn in H. destruct (strip_labels _ _ _); [|discriminate]. injection H as <-. eauto. }
    apply (wildcard_host_iff name) in H as [Ha ->]; [|easy]. split; eauto.
Qed.

Lemma host_none m host : well_formed_host m ->
  summarize_match m (Some host) = None -> ~ host_accepts m host.
Proof.
  destruct m as [h|labels]; cbn [well_formed_host host_accepts host_rank].
  - intros _ H Ha. apply exact_host_iff in Ha as [hm Hm]. congruence.
  - intros (name & Hw) H (name' & Hw' & Ha).
    assert (Hx : summarize_match (HSuffix labels) (Some host) = Some (HMSuffix (len name' + 1)))
      by (apply (wildcard_host_iff name'); auto).
    congruence.
Qed.

Lemma host_rank_fun m r r' : host_rank m r -> host_rank m r' -> r = r'.
Proof.
  destruct m as [h|labels]; cbn; [congruence|].
  intros (n & Hn & ->) (n' & Hn' & ->). now rewrite (wildcard_of_inj _ _ _ Hn Hn').
Qed.

(** What [from_str] builds is well formed and means what its text says. *)
Lemma host_from_str_wf s : well_formed_host (host_from_str s).
Proof.
  unfold host_from_str. destruct (strip_prefix [42; 46] s) as [h|]; cbn; [|easy].
  exists h. reflexivity.
Qed.

Lemma host_from_str_wildcard name :
  host_from_str (42 :: 46 :: name) = HSuffix (rev (split 46 name)).
Proof. reflexivity. Qed.

Lemma wildcard_rejects_bare_name name host :
  same_ignoring_case host name -> ~ wildcard_host_accepts name host.
Proof.
  unfold same_ignoring_case. intros Hh H.
  assert (Hlen : length host = length name) by now rewrite <- lowers_length, Hh, lowers_length.
  assert (Hcon : forall h pre, (length h <= length name)%nat ->
            lowers h = lowers (pre ++ [46] ++ name) -> False).
  { intros h pre Hl E. apply (f_equal (@length N)) in E.
    rewrite !lowers_length, !app_length in E. cbn in E. lia. }
  destruct H as [[_ (pre & E)]|[_ (h & Hu & pre & E)]].
  - eapply Hcon; [|exact E]. lia.
  - eapply Hcon; [|exact E]. apply undotted_strip_dot in Hu as ->. unfold strip_dot.
    destruct (strip_suffix [46] host) as [x|] eqn:Ex; [|lia].
    apply strip_suffix_some in Ex. subst host. rewrite app_length in Hlen. cbn in Hlen. lia.
Qed.

(** ** Paths *)
Lemma no_trailing_slash_iff t : no_trailing_slash t <-> (forall r x, t = r ++ [x] -> x <> 47).
Proof.
  split.
  - intros [|p c Hc] r x E.
    + destruct r; discriminate.
    + apply app_inj_tail in E as [_ <-]. easy.
  - intros H. destruct t as [|t0 t1] using rev_ind; [constructor|].
    constructor 2. eapply H. reflexivity.
Qed.

Lemma strips_slashes_trim s t : strips_slashes s t <-> t = trim_end 47 s.
Proof.
  unfold strips_slashes. split.
  - intros [Hn (n & ->)]. symmetry. eapply trim_end_unique; [reflexivity|].
    now apply no_trailing_slash_iff.
  - intros ->. split.
    + apply no_trailing_slash_iff. intros r x. apply trim_end_last.
    + apply trim_end_spec.
Qed.

Lemma prefix_match_iff prefix path :
  (exists pm, match_length (PPrefix prefix) path = Some pm) <-> prefix_accepts prefix path.
Proof.
  cbn. unfold prefix_accepts. destruct (beq prefix [47]) eqn:E.
  - apply beq_eq in E. split; [now left|eauto].
  - apply beq_neq in E. destruct (strip_prefix _ _) as [sfx|] eqn:Es.
    + apply strip_prefix_some in Es. destruct sfx as [|c sfx]; cbn.
      * split; [|eauto]. intros _. right. exists (trim_end 47 prefix), (trim_end 47 path).
        rewrite !strips_slashes_trim. rewrite app_nil_r in Es. auto.
      * unfold starts_with. cbn [strip_prefix]. destruct (47 =? c) eqn:Ec.
        -- split; [|eauto]. intros _. right. apply N.eqb_eq in Ec as <-.
           exists (trim_end 47 prefix), (trim_end 47 path).
           rewrite !strips_slashes_trim. eauto 6.
        -- split; [intros [pm H]; discriminate|].
           intros [H|(p & q & Hp & Hq & H)]; [contradiction|].
           rewrite strips_slashes_trim in *. subst p q. exfalso.
           destruct H as [H|[rest H]]; rewrite Es in H.
           ++ rewrite <- (app_nil_r (trim_end 47 prefix)) in H at 2.
              apply app_inv_head in H. discriminate.
           ++ apply app_inv_head in H. injection H as -> _. discriminate.
    + apply strip_prefix_none in Es. split; [intros [pm H]; discriminate|].
      intros [H|(p & q & Hp & Hq & H)]; [contradiction|].
      rewrite strips_slashes_trim in *. subst p q. exfalso. apply Es.
      destruct H as [->|[rest ->]]; eauto. exists []. now rewrite app_nil_r.
Qed.

Lemma regex_anchored_iff re s : regex_anchored re s = true <-> regex_spans re s.
Proof.
  unfold regex_anchored, regex_spans. destruct (re s) as [[a b]|]; [|split; discriminate].
  rewrite andb_true_iff, !N.eqb_eq. split; [intros [-> ->]; easy|]. intros H. now injection H as -> ->.
Qed.

Lemma path_match_iff m path :
  (exists pm, match_length m path = Some pm) <-> path_accepts m path.
Proof.
  destruct m as [p|p|re]; cbn [path_accepts].
  - cbn. destruct (beq p path) eqn:E.
    + apply beq_eq in E. split; [easy|eauto].
    + apply beq_neq in E. split; [intros [pm H]; discriminate|congruence].
  - apply prefix_match_iff.
  - cbn. destruct (regex_anchored re path) eqn:E.
    + apply regex_anchored_iff in E. split; [easy|eauto].
    + split; [intros [pm H]; discriminate|]. intros H. apply regex_anchored_iff in H. congruence.
Qed.

(** ** Headers and queries *)
Lemma get_all_in n v hs : In v (get_all n hs) <-> In (n, v) hs.
Proof.
  unfold get_all. rewrite in_map_iff. split.
  - intros ([n' v'] & <- & H). apply filter_In in H as [H1 H2]. cbn in *.
    now apply beq_eq in H2 as ->.
  - intros H. exists (n, v). split; [easy|]. apply filter_In. cbn. now rewrite beq_refl.
Qed.

Lemma visible_iff v : forallb visible v = true <-> printable v.
Proof.
  unfold printable. rewrite forallb_forall. unfold visible.
  split; intros H c Hc; specialize (H c Hc); lia.
Qed.

Lemma header_iff m hs : header_is_match m hs = true <-> header_accepts m hs.
Proof.
  destruct m as [n v|n re]; cbn; rewrite existsb_exists.
  - split.
    + intros (x & Hx & E). apply beq_eq in E as ->. now apply get_all_in.
    + intros H. exists v. rewrite get_all_in, beq_refl. auto.
  - split.
    + intros (x & Hx & E). apply filter_In in Hx as [Hx Hv]. exists x.
      rewrite <- get_all_in, <- visible_iff, <- regex_anchored_iff. auto.
    + intros (v & Hv & Hp & Hr). exists v. rewrite filter_In, get_all_in, visible_iff, regex_anchored_iff. auto.
Qed.

Lemma query_iff m q : query_is_match m q = true <-> query_accepts m q.
Proof.
  unfold query_is_match, query_accepts. destruct q as [qs|].
  - rewrite existsb_exists. destruct m as [n v|n re]; split.
    + intros ([a b] & Hx & E). cbn in E. apply andb_true_iff in E as [E1 E2].
      apply beq_eq in E1 as ->. apply beq_eq in E2 as ->. eauto.
    + intros (qs' & E & H). injection E as <-. exists (n, v). cbn. now rewrite !beq_refl.
    + intros ([a b] & Hx & E). cbn in E. apply andb_true_iff in E as [E1 E2].
      apply beq_eq in E1 as ->. apply regex_anchored_iff in E2. eauto 6.
    + intros (qs' & E & v & H & Hr). injection E as <-. exists (n, v). cbn.
      rewrite beq_refl. apply regex_anchored_iff in Hr. now rewrite Hr.
  - split; [discriminate|]. intros (qs & E & _). discriminate.
Qed.

(** ** HTTP matches *)
Definition http_key (s : request_match) : list N :=
  [path_len (rm_path s); rm_headers s; rm_query s; if rm_method s then 1 else 0].

Lemma http_key_len s : length (http_key s) = 4%nat.
Proof. reflexivity. Qed.

Lemma http_key_cmp a b : request_match_cmp a b = lexcmp (http_key a) (http_key b).
Proof.
  unfold request_match_cmp, path_cmp, http_key. cbn [lexcmp].
  do 3 f_equal. destruct (rm_method a), (rm_method b); reflexivity.
Qed.

Lemma path_weight_len m req pm :
  match mr_path m with
  | Some p => match_length p (rq_path req)
  | None => Some (rm_path request_match_default)
  end = Some pm -> path_weight m req (path_len pm).
Proof.
  unfold path_weight. destruct (mr_path m) as [[p|p|re]|]; cbn.
  - destruct (beq p _); [|discriminate]. intros H; now injection H as <-.
  - destruct (beq p [47]) eqn:E.
    + apply beq_eq in E. intros H; injection H as <-. left. auto.
    + apply beq_neq in E. destruct (strip_prefix _ _) as [sfx|]; [|discriminate].
      destruct (_ || _); [|discriminate]. intros H; injection H as <-. right. split; [easy|].
      eexists. split; [now apply strips_slashes_trim|easy].
  - destruct (regex_anchored _ _); [|discriminate]. intros H; now injection H as <-.
  - intros H; now injection H as <-.
Qed.

Lemma path_weight_fun m req w w' : path_weight m req w -> path_weight m req w' -> w = w'.
Proof.
  unfold path_weight. destruct (mr_path m) as [[p|p|re]|]; try congruence.
  intros [[E ->]|[E (q & Hq & ->)]] [[E' ->]|[E' (q' & Hq' & ->)]]; try congruence.
  rewrite strips_slashes_trim in *. congruence.
Qed.

Lemma http_match_some m req s : http_match m req = Some s ->
  http_accepts m req /\ http_rank m req (http_key s).
Proof.
  unfold http_match. cbv zeta.
  destruct (negb match mr_method m with Some x => beq (rq_method req) x | None => true end) eqn:Em;
    [discriminate|].
  destruct (match mr_path m with Some p => _ | None => _ end) as [pm|] eqn:Ep; [|discriminate].
  destruct (forallb _ (mr_headers m)) eqn:Eh; cbn [negb]; [|discriminate].
  destruct (forallb _ (mr_query m)) eqn:Eq; cbn [negb]; [|discriminate].
  intros H. injection H as <-. split.
  - repeat split.
    + intros x Hx. rewrite Hx in Em. apply negb_false_iff, beq_eq in Em. easy.
    + intros p Hp. rewrite Hp in Ep. apply path_match_iff. eauto.
    + intros h Hh. rewrite forallb_forall in Eh. now apply header_iff, Eh.
    + intros q Hq. rewrite forallb_forall in Eq. now apply query_iff, Eq.
  - exists (path_len pm). split; [now apply path_weight_len|].
    unfold http_key. cbn. now destruct (mr_method m).
Qed.

Lemma http_match_none m req : http_match m req = None -> ~ http_accepts m req.
Proof.
  unfold http_match. cbv zeta. intros H (Hm & Hp & Hh & Hq).
  destruct (negb match mr_method m with Some x => beq (rq_method req) x | None => true end) eqn:Em.
  { destruct (mr_method m) as [x|]; [|discriminate]. rewrite (Hm x eq_refl), beq_refl in Em. discriminate. }
  destruct (match mr_path m with Some p => _ | None => _ end) as [pm|] eqn:Ep.
  2:{ destruct (mr_path m) as [p|]; [|discriminate].
      destruct (proj2 (path_match_iff p (rq_path req)) (Hp p eq_refl)) as [pm Hpm]. congruence. }
  assert (Eh : forallb (fun h => header_is_match h (rq_headers req)) (mr_headers m) = true).
  { apply forallb_forall. intros h Hin. now apply header_iff, Hh. }
  assert (Eq : forallb (fun q => query_is_match q (rq_query req)) (mr_query m) = true).
  { apply forallb_forall. intros q Hin. now apply query_iff, Hq. }
  rewrite Eh, Eq in H. discriminate.
Qed.

Lemma http_rank_fun m req r r' : http_rank m req r -> http_rank m req r' -> r = r'.
Proof.
  intros (w & Hw & ->) (w' & Hw' & ->). now rewrite (path_weight_fun _ _ _ _ Hw Hw').
Qed.

(** ** gRPC matches *)
Definition grpc_key (s : grpc_match) : list N := [gm_service s; gm_method s; gm_headers s].
Lemma grpc_key_len s : length (grpc_key s) = 3%nat.
Proof. reflexivity. Qed.
Lemma grpc_key_cmp a b : grpc_match_cmp a b = lexcmp (grpc_key a) (grpc_key b).
Proof.
  unfold grpc_match_cmp, grpc_key. cbn [lexcmp].
  destruct (gm_service a ?= gm_service b); cbn; try easy.
  destruct (gm_method a ?= gm_method b); cbn; try easy.
  now destruct (gm_headers a ?= gm_headers b).
Qed.

Lemma split_cons_inv c s p q ps : split c s = p :: q :: ps ->
  exists s', s = p ++ c :: s' /\ ~ In c p /\ split c s' = q :: ps.
Proof.
  revert p; induction s as [|x s IH]; cbn; intros p H; [discriminate|].
  destruct (x =? c) eqn:E.
  - apply N.eqb_eq in E as ->. injection H as <- H. exists s. auto.
  - destruct (split c s) as [|p' ps'] eqn:Es; [discriminate|]. injection H as <- ->.
    destruct (IH _ eq_refl) as (s' & -> & Hn & Hs'). exists s'. split; [easy|]. split; [|easy].
    intros [->|Hc]; [now rewrite N.eqb_refl in E|contradiction].
Qed.

Lemma rpc_path_split path service method :
  rpc_path path service method <-> exists rest, split 47 path = [] :: service :: method :: rest.
Proof.
  unfold rpc_path. split.
  - intros (Hs & Hm & [->|[rest ->]]); cbn; rewrite split_app_sep by easy.
    + rewrite split_none by easy. eauto.
    + rewrite split_app_sep by easy. eauto.
  - intros [rest H].
    apply split_cons_inv in H as (s1 & -> & _ & H).
    apply split_cons_inv in H as (s2 & -> & Hs & H).
    assert (Hm : ~ In 47 method) by (eapply split_no_sep; rewrite H; now left).
    repeat split; auto. destruct rest as [|r rest].
    + left. assert (Hj := split_join 47 s2). rewrite H in Hj. cbn in Hj. now rewrite <- Hj.
    + right. apply split_cons_inv in H as (s3 & -> & _ & H). cbn. eauto.
Qed.

Lemma grpc_match_some m req s : grpc_match_request m req = Some s ->
  grpc_accepts m req /\ grpc_rank m req (grpc_key s).
Proof.
  unfold grpc_match_request. destruct (beq (rq_method req) POST) eqn:E; cbn [negb]; [|discriminate].
  apply beq_eq in E. unfold rpc_match_length.
  destruct (split 47 (rq_path req)) as [|[|c l] [|sv rest]] eqn:Es; try discriminate.
  destruct (match rpc_service (mg_rpc m) with Some s0 => _ | None => _ end) eqn:E1;
    cbn [negb]; [|discriminate].
  destruct rest as [|me rest]; [discriminate|].
  destruct (match rpc_method (mg_rpc m) with Some s0 => _ | None => _ end) eqn:E2;
    cbn [negb]; [|discriminate].
  destruct (forallb _ (mg_headers m)) eqn:Eh; cbn [negb]; [|discriminate].
  intros H. injection H as <-. split.
  - split; [easy|]. split.
    + exists sv, me. split; [apply rpc_path_split; eauto|]. split; intros x Hx; rewrite Hx in *.
      * symmetry. now apply beq_eq.
      * symmetry. now apply beq_eq.
    + intros h Hh. rewrite forallb_forall in Eh. now apply header_iff, Eh.
  - unfold grpc_rank, grpc_key. cbn. reflexivity.
Qed.

Lemma grpc_match_none m req : grpc_match_request m req = None -> ~ grpc_accepts m req.
Proof.
  unfold grpc_match_request. intros H (Hm & (sv & me & Hp & Hsv & Hme) & Hh).
  rewrite Hm, beq_refl in H. cbn [negb] in H.
  apply rpc_path_split in Hp as [rest Hp]. unfold rpc_match_length in H. rewrite Hp in H.
  assert (E1 : match rpc_service (mg_rpc m) with Some s => beq s sv | None => true end = true).
  { destruct (rpc_service (mg_rpc m)) as [x|]; [|easy]. rewrite (Hsv x eq_refl). apply beq_refl. }
  assert (E2 : match rpc_method (mg_rpc m) with Some s => beq s me | None => true end = true).
  { destruct (rpc_method (mg_rpc m)) as [x|]; [|easy]. rewrite (Hme x eq_refl). apply beq_refl. }
  rewrite E1, E2 in H. cbn [negb] in H.
  assert (Eh : forallb (fun h => header_is_match h (rq_headers req)) (mg_headers m) = true).
  { apply forallb_forall. intros h Hin. now apply header_iff, Hh. }
  rewrite Eh in H. discriminate.
Qed.

Lemma grpc_rank_fun m req r r' : grpc_rank m req r -> grpc_rank m req r' -> r = r'.
Proof. unfold grpc_rank. congruence. Qed.

(** ** Lookup for both kinds of routes *)
Definition http_default_rank : list N := [1; 0; 0; 0].
Definition grpc_default_rank : list N := [0; 0; 0].

Theorem http_find_first_best {P} (routes : list (route match_request P)) req k p :
  well_formed routes -> http_find routes req = Some (k, p) ->
  first_best http_accepts http_rank http_default_rank routes req p.
Proof.
  exact (find_first_best http_match request_match_cmp request_match_default http_key 4
    http_accepts http_rank http_key_len http_key_cmp http_match_some http_match_none http_rank_fun
    host_some host_none host_rank_fun routes req k p).
Qed.
Theorem http_find_none {P} (routes : list (route match_request P)) req :
  well_formed routes ->
  (http_find routes req = None <-> no_rule_applies http_accepts http_rank http_default_rank routes req).
Proof.
  exact (find_none http_match request_match_cmp request_match_default http_key 4
    http_accepts http_rank http_key_len http_key_cmp http_match_some http_match_none http_rank_fun
    host_some host_none host_rank_fun routes req).
Qed.
Theorem grpc_find_first_best {P} (routes : list (route match_grpc P)) req k p :
  well_formed routes -> grpc_find routes req = Some (k, p) ->
  first_best grpc_accepts grpc_rank grpc_default_rank routes req p.
Proof.
  exact (find_first_best grpc_match_request grpc_match_cmp grpc_match_default grpc_key 3
    grpc_accepts grpc_rank grpc_key_len grpc_key_cmp grpc_match_some grpc_match_none grpc_rank_fun
    host_some host_none host_rank_fun routes req k p).
Qed.
Theorem grpc_find_none {P} (routes : list (route match_grpc P)) req :
  well_formed routes ->
  (grpc_find routes req = None <-> no_rule_applies grpc_accepts grpc_rank grpc_default_rank routes req).
Proof.
  exact (find_none grpc_match_request grpc_match_cmp grpc_match_default grpc_key 3
    grpc_accepts grpc_rank grpc_key_len grpc_key_cmp grpc_match_some grpc_match_none grpc_rank_fun
    host_some host_none host_rank_fun routes req).
Qed.

Lemma lex_lt_asym a b : lex_lt a b -> ~ lex_lt b a.
Proof. intros H H2. eapply lex_lt_irrefl, lex_lt_trans; eassumption. Qed.

(** ** Two single-rule routes: the higher rank wins in either order *)
Lemma http_applies_unique {P} (rt : route match_request P) ru req r r' :
  applies http_accepts http_rank http_default_rank rt ru req r ->
  applies http_accepts http_rank http_default_rank rt ru req r' -> r = r'.
Proof.
  intros (h & s & Hh & Hs & ->) (h' & s' & Hh' & Hs' & ->). f_equal.
  - eapply route_hosts_rank_unique; eassumption.
  - eapply (rule_rank_unique request_match_default http_key); eassumption.
Qed.

Theorem http_two_routes {P} (rt1 rt2 : route match_request P) ru1 ru2 req r1 r2 :
  well_formed [rt1; rt2] -> rt_rules rt1 = [ru1] -> rt_rules rt2 = [ru2] ->
  applies http_accepts http_rank http_default_rank rt1 ru1 req r1 ->
  applies http_accepts http_rank http_default_rank rt2 ru2 req r2 ->
  lex_lt r2 r1 ->
  (exists k, http_find [rt1; rt2] req = Some (k, ru_policy ru1)) /\
  (exists k, http_find [rt2; rt1] req = Some (k, ru_policy ru1)).
Proof.
  intros Hwf E1 E2 H1 H2 Hlt.
  assert (Hwf' : well_formed [rt2; rt1]).
  { intros rt m [<-|[<-|[]]] Hm.
    - apply (Hwf rt2); [right; now left|exact Hm].
    - apply (Hwf rt1); [now left|exact Hm]. }
  split.
  - destruct (http_find [rt1; rt2] req) as [[k p]|] eqn:E.
    + exists k. do 2 f_equal. apply http_find_first_best in E; [|easy].
      destruct E as (b & rt & a & rb & ru & ra & r & Er & Eu & <- & Ha & Hb1 & Hb2 & Ha1 & Ha2).
      destruct b as [|x b]; cbn in Er; injection Er as <- Er.
      * rewrite E1 in Eu. destruct rb as [|y rb]; cbn in Eu.
        -- now injection Eu as <- _.
        -- injection Eu as _ Eu. destruct rb; discriminate.
      * destruct b as [|y b]; cbn in Er; injection Er as <- Er; [|destruct b; discriminate].
        exfalso. assert (Hin : lex_lt r1 r).
        { eapply Hb1; [now left| |exact H1]. rewrite E1. now left. }
        rewrite E2 in Eu. destruct rb as [|y rb]; cbn in Eu; [|injection Eu as _ Eu; destruct rb; discriminate].
        injection Eu as <- _. rewrite (http_applies_unique _ _ _ _ _ Ha H2) in Hin.
        eapply lex_lt_irrefl, lex_lt_trans; eassumption.
    + exfalso. apply http_find_none in E; [|easy]. eapply (E rt1 ru1); [now left| |exact H1].
      rewrite E1. now left.
  - destruct (http_find [rt2; rt1] req) as [[k p]|] eqn:E.
    + exists k. do 2 f_equal. apply http_find_first_best in E; [|easy].
      destruct E as (b & rt & a & rb & ru & ra & r & Er & Eu & <- & Ha & Hb1 & Hb2 & Ha1 & Ha2).
      destruct b as [|x b]; cbn in Er; injection Er as <- Er.
      * exfalso. assert (Hin : lex_le r1 r).
        { eapply Ha2; [rewrite <- Er; now left| |exact H1]. rewrite E1. now left. }
        rewrite E2 in Eu. destruct rb as [|y rb]; cbn in Eu; [|injection Eu as _ Eu; destruct rb; discriminate].
        injection Eu as <- _. rewrite (http_applies_unique _ _ _ _ _ Ha H2) in Hin.
        eapply lex_lt_irrefl, lex_lt_le_trans; eassumption.
      * destruct b as [|y b]; cbn in Er; injection Er as <- Er; [|destruct b; discriminate].
        rewrite E1 in Eu. destruct rb as [|y rb]; cbn in Eu.
        -- now injection Eu as <- _.
        -- injection Eu as _ Eu. destruct rb; discriminate.
    + exfalso. apply http_find_none in E; [|easy]. eapply (E rt1 ru1); [right; now left| |exact H1].
      rewrite E1. now left.
Qed.

(** Summaries are recorded as in the specification. *)
Lemma grpc_post_only m req s : grpc_match_request m req = Some s -> rq_method req = POST.
Proof. intros H. apply grpc_match_some in H as [[H _] _]. exact H. Qed.

Lemma http_match_iff m req : (exists s, http_match m req = Some s) <-> http_accepts m req.
Proof.
  destruct (http_match m req) as [s|] eqn:E.
  - apply http_match_some in E as [E _]. split; eauto.
  - apply http_match_none in E. split; [intros [s H]; discriminate|]. now intros H.
Qed.
Lemma grpc_match_iff m req : (exists s, grpc_match_request m req = Some s) <-> grpc_accepts m req.
Proof.
  destruct (grpc_match_request m req) as [s|] eqn:E.
  - apply grpc_match_some in E as [E _]. split; eauto.
  - apply grpc_match_none in E. split; [intros [s H]; discriminate|]. now intros H.
Qed.

Lemma wildcard_text_iff name host :
  (exists hm, summarize_match (host_from_str (42 :: 46 :: name)) (Some host) = Some hm)
  <-> wildcard_host_accepts name host.
Proof.
  rewrite host_from_str_wildcard. split.
  - intros [hm H]. apply host_some in H as [(n & Hn & Ha) _]; [|exists name; reflexivity].
    now rewrite <- (wildcard_of_inj n name _ Hn eq_refl).
  - intros H. eexists. apply (wildcard_host_iff name _ _ (len name + 1) eq_refl). auto.
Qed.

Theorem grpc_specific_wins {P} (m1 m2 : match_grpc) (p1 p2 : P) req :
  grpc_accepts m1 req -> grpc_accepts m2 req -> grpc_more_specific m1 m2 ->
  (exists k, grpc_find [Route [] [Rule [m1] p1; Rule [m2] p2]] req = Some (k, p1)) /\
  (exists k, grpc_find [Route [] [Rule [m2] p2; Rule [m1] p1]] req = Some (k, p1)).
Proof.
  intros H1 H2 Hs.
  apply grpc_match_iff in H1 as [k1 H1]. apply grpc_match_iff in H2 as [k2 H2].
  assert (Hc : grpc_match_cmp k1 k2 = Gt).
  { apply grpc_match_some in H1 as [_ H1]. apply grpc_match_some in H2 as [_ H2].
    unfold grpc_rank, grpc_key in H1, H2. injection H1 as A1 B1 C1. injection H2 as A2 B2 C2.
    unfold grpc_match_cmp. rewrite A1, B1, C1, A2, B2, C2. unfold grpc_more_specific in Hs.
    assert (Hn : forall s, names s -> 0 < olen s).
    { intros s (x & -> & Hx). destruct x; [easy|]. cbn. lia. }
    destruct Hs as [[Hn1 E]|[(E & Hn1 & E')|(E & E' & Hl)]]; rewrite ?E, ?E'; cbn [olen];
      rewrite ?N.compare_refl; cbn [then_with].
    - apply Hn in Hn1. destruct (N.compare_spec (olen (rpc_service (mg_rpc m1))) 0); cbn; try lia; easy.
    - apply Hn in Hn1. destruct (N.compare_spec (olen (rpc_method (mg_rpc m1))) 0); cbn; try lia; easy.
    - apply N.compare_gt_iff. lia. }
  assert (Hc' : grpc_match_cmp k2 k1 = Lt).
  { unfold grpc_match_cmp in *.
    rewrite (N.compare_antisym (gm_service k1)), (N.compare_antisym (gm_method k1)), (N.compare_antisym (gm_headers k1)).
    destruct (gm_service k1 ?= gm_service k2), (gm_method k1 ?= gm_method k2), (gm_headers k1 ?= gm_headers k2);
      cbn in *; congruence. }
  unfold grpc_find, find, route_summary, rule_summary. cbn. rewrite H1, H2. cbn.
  rewrite Hc, Hc'. split; eexists; reflexivity.
Qed.
