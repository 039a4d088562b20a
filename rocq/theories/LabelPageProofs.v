(** The whole page: it can be read, it has the series that are to be shown, and each of them once. *)
From Coq Require Import String List NArith Bool Lia.
From Verif Require Import Bytes BytesProofs NameModel GatewayModel DnsModel EndpointModel PolicyStoreModel HistogramModel
  LabelModel LabelSpec LabelReadProofs LabelProofs LabelOnceProofs.
Import ListNotations.
Open Scope N_scope.

Definition good_family (f : family) : Prop :=
  word (f_name f) = true /\ no_newline (f_help f) /\ no_newline (f_kind f) /\ Forall good_sample (f_samples f).

Lemma good_families fs : Forall good_family fs -> Forall good_line (flat_map family_lines fs).
Proof.
  induction 1 as [|f fs (A & B & C & D) H IH]; [constructor|]. cbn [flat_map]. apply Forall_app. split; [|exact IH].
  constructor; [easy|]. constructor; [easy|]. apply Forall_map. exact D.
Qed.
Lemma samples_lines fs : samples (flat_map family_lines fs) = flat_map f_samples fs.
Proof.
  induction fs as [|f fs IH]; [reflexivity|]. unfold samples in *. cbn [flat_map]. rewrite flat_map_app, IH. f_equal.
  unfold family_lines. cbn [flat_map app]. induction (f_samples f) as [|s ss IHs]; [reflexivity|]. cbn [map flat_map app].
  now rewrite IHs.
Qed.

Ltac nnl := vm_compute; intuition discriminate.
Lemma nnl_const s : existsb (N.eqb 10) s = false -> no_newline s.
Proof.
  intros H I. assert (X : existsb (N.eqb 10) s = true) by (apply existsb_exists; exists 10; now split). congruence.
Qed.

Lemma good_counters {K V} n (pairs : K -> list pair) (get : V -> N) reg :
  word n = true -> Forall (fun e => Forall good (pairs (fst e))) reg -> Forall good_sample (counter_samples n pairs get reg).
Proof. intros W G. apply Forall_map. revert G. apply Forall_impl. intros [k m] G. now split. Qed.

Lemma good_buckets n ls bounds : word (n ++ bs "_bucket") = true -> Forall good ls ->
  forall total counts, Forall good_sample (bucket_samples n ls total bounds counts).
Proof.
  intros W G. induction bounds as [|b bounds IH]; intros total [|c counts]; cbn [bucket_samples]; constructor; [|apply IH].
  split; [exact W|]. cbn [m_labels]. apply Forall_app. split; [exact G|]. constructor; [|constructor].
  apply good_l; [reflexivity|]. destruct b; [apply clean_dec|apply clean_const; reflexivity].
Qed.

Definition word_names (n : bytes) : Prop :=
  word n = true /\ word (n ++ bs "_bucket"%string) = true /\ word (n ++ bs "_count"%string) = true /\ word (n ++ bs "_sum"%string) = true.

Section Http.
  Context {K : Type} (pairs : K -> list pair) (ok : K -> Prop).
  Hypothesis good_pairs : forall k, ok k -> Forall good (pairs k).

  Lemma good_statuses n reg : word_names n -> clean_http ok reg -> Forall good_sample (status_samples n pairs reg).
  Proof.
    intros (W & W1 & W2 & W3) C. unfold clean_http in C. rewrite Forall_forall in *. intros x H.
    apply in_flat_map in H as ([k m] & H1 & H). apply in_flat_map in H as ([st s] & H2 & H).
    apply C in H1 as [O _]. cbn [fst snd] in *.
    assert (G : Forall good (pairs k ++ status_pairs st)) by (apply Forall_app; split; [now apply good_pairs|apply good_status]).
    unfold histogram_samples in H. apply in_app_iff in H as [H|[<-|[<-|[]]]].
    - pose proof (good_buckets n _ LATENCY W1 G 0 (fst (s_latency s))) as B. rewrite Forall_forall in B. now apply B.
    - now split.
    - now split.
  Qed.
  Lemma good_classes n reg : word n = true -> clean_http ok reg -> Forall good_sample (class_samples n pairs reg).
  Proof.
    intros W C. unfold clean_http in C. rewrite Forall_forall in *. intros x H.
    apply in_flat_map in H as ([k m] & H1 & H). apply in_flat_map in H as ([st s] & H2 & H).
    apply in_map_iff in H as ([c v] & <- & H3). apply C in H1 as [O P]. cbn [fst snd] in *.
    rewrite Forall_forall in P. apply P in H2 as [_ P2]. rewrite Forall_forall in P2. apply P2 in H3. cbn [fst snd] in *.
    split; [exact W|]. cbn [m_labels]. apply Forall_app. split; [now apply good_pairs|]. apply Forall_app.
    split; [apply good_status|now apply good_class].
  Qed.
  Lemma good_http prefix lat reg : word (prefixed prefix (bs "request_total")) = true ->
    word_names (prefixed prefix (bs "response_latency_ms")) -> word (prefixed prefix (bs "response_total")) = true ->
    clean_http ok reg -> Forall good_family (http_families pairs prefix lat reg).
  Proof.
    intros W1 W2 W3 C. unfold http_families. destruct reg as [|e reg]; [constructor|]. set (r := e :: reg) in *.
    apply Forall_app. split; [|apply Forall_app; split].
    - constructor; [|constructor]. repeat split; try (apply nnl_const; reflexivity); [exact W1|].
      cbn [f_samples]. apply good_counters; [exact W1|]. unfold clean_http in C. revert C. apply Forall_impl.
      intros [k m] [O _]. now apply good_pairs.
    - destruct lat; constructor; [|constructor].
      split; [exact (proj1 W2)|]. split; [apply nnl_const; reflexivity|]. split; [apply nnl_const; reflexivity|].
      now apply good_statuses.
    - constructor; [|constructor]. repeat split; try (apply nnl_const; reflexivity); [exact W3|]. now apply good_classes.
  Qed.

  (* which samples *)

  Lemma buckets_iff n ls bounds : forall counts t s, List.length counts = List.length bounds ->
    (In s (bucket_samples n ls (t mod 2 ^ 64) bounds counts) <->
     exists i b, nth_error bounds i = Some b /\
       s = Sample (n ++ bs "_bucket") (ls ++ [l "le" (le_text b)])
             (to_f64 ((t + fold_right N.add 0 (firstn (S i) counts)) mod 2 ^ 64))).
  Proof.
    induction bounds as [|b bounds IH]; intros [|c counts] t s L; try discriminate L.
    - split; [easy|]. intros (i & b & H & _). destruct i; discriminate H.
    - cbn [bucket_samples]. unfold counter_add. rewrite N.add_mod_idemp_l by discriminate. cbn [In].
      rewrite (IH counts (t + c) s) by (cbn in L; congruence). split.
      + intros [<-|(i & b' & H & ->)].
        * exists O, b. split; [reflexivity|]. cbn [firstn fold_right]. now rewrite N.add_0_r.
        * exists (S i), b'. split; [exact H|]. cbn [firstn]. cbn [fold_right]. now rewrite N.add_assoc.
      + intros (i & b' & H & ->). destruct i as [|i].
        * left. injection H as ->. cbn [firstn fold_right]. now rewrite N.add_0_r.
        * right. exists i, b'. split; [exact H|]. cbn [firstn]. cbn [fold_right]. now rewrite N.add_assoc.
  Qed.
  Lemma total_is bounds : forall counts t, List.length counts = List.length bounds ->
    bucket_total (t mod 2 ^ 64) bounds counts = (t + fold_right N.add 0 counts) mod 2 ^ 64.
  Proof.
    induction bounds as [|b bounds IH]; intros [|c counts] t L; try discriminate L.
    - cbn [bucket_total fold_right]. now rewrite N.add_0_r.
    - cbn [bucket_total fold_right]. unfold counter_add. rewrite N.add_mod_idemp_l by discriminate.
      rewrite IH by (cbn in L; congruence). now rewrite N.add_assoc.
  Qed.

  Lemma http_iff prefix prefix' lat reg s : (forall n, prefixed prefix n = prefix' ++ n) -> clean_http ok reg ->
    (In s (flat_map f_samples (http_families pairs prefix lat reg)) <->
     http_shown pairs prefix' lat reg (m_name s) (m_labels s) (m_value s)).
  Proof.
    intros P C. unfold clean_http in C. rewrite Forall_forall in C. split.
    - unfold http_families. destruct reg as [|e reg]; [intros []|]. set (r := e :: reg) in *. intros H.
      rewrite !flat_map_app in H. apply in_app_iff in H as [H|H]; [|apply in_app_iff in H as [H|H]].
      + cbn [flat_map f_samples] in H. rewrite app_nil_r in H. apply in_map_iff in H as ([k m] & <- & H).
        cbn [m_name m_labels m_value fst snd]. rewrite P. now apply requests.
      + destruct lat; [|destruct H]. cbn [flat_map f_samples] in H. rewrite app_nil_r in H.
        apply in_flat_map in H as ([k m] & H1 & H). apply in_flat_map in H as ([st x] & H2 & H). cbn [fst snd] in *.
        destruct (C _ H1) as [_ C2]. cbn [snd] in C2. rewrite Forall_forall in C2. destruct (C2 _ H2) as [L _]. cbn [snd] in L.
        unfold histogram_samples in H. apply in_app_iff in H as [H|[<-|[<-|[]]]].
        * change 0 with (0 mod 2 ^ 64) in H. apply buckets_iff in H as (i & b & N & ->); [|exact L].
          cbn [m_name m_labels m_value]. rewrite P, <- !app_assoc. rewrite N.add_0_l.
          exact (latency_bucket pairs prefix' true r k m st x i b eq_refl H1 H2 N).
        * change 0 with (0 mod 2 ^ 64). rewrite total_is by exact L.
          cbn [m_name m_labels m_value]. rewrite P, <- !app_assoc. rewrite N.add_0_l.
          pose proof (latency_count pairs prefix' true r k m st x eq_refl H1 H2) as X.
          unfold up_to in X. rewrite firstn_all2 in X by (rewrite L; reflexivity). exact X.
        * cbn [m_name m_labels m_value]. rewrite P, <- !app_assoc.
          exact (latency_sum pairs prefix' true r k m st x eq_refl H1 H2).
      + cbn [flat_map f_samples] in H. rewrite app_nil_r in H.
        apply in_flat_map in H as ([k m] & H1 & H). apply in_flat_map in H as ([st x] & H2 & H). cbn [fst snd] in *.
        apply in_map_iff in H as ([c v] & <- & H3). cbn [m_name m_labels m_value fst snd]. rewrite P.
        exact (responses pairs prefix' lat r k m st x c v H1 H2 H3).
    - destruct s as [n ls v]. cbn [m_name m_labels m_value]. intros H.
      assert (NE : reg <> []) by (destruct H; intros ->; contradiction).
      unfold http_families. destruct reg as [|e reg]; [easy|]. set (r := e :: reg) in *. rewrite !flat_map_app, !in_app_iff.
      destruct H as [k m H1|k m st x c v H1 H2 H3|k m st x i b LT H1 H2 N|k m st x LT H1 H2|k m st x LT H1 H2].
      + left. cbn [flat_map f_samples]. rewrite app_nil_r. apply in_map_iff. exists (k, m). rewrite P. easy.
      + right; right. cbn [flat_map f_samples]. rewrite app_nil_r. apply in_flat_map. exists (k, m). split; [exact H1|].
        apply in_flat_map. exists (st, x). split; [exact H2|]. apply in_map_iff. exists (c, v). rewrite P. easy.
      + right; left. subst lat. cbn [flat_map f_samples]. rewrite app_nil_r. apply in_flat_map. exists (k, m). split; [exact H1|].
        apply in_flat_map. exists (st, x). split; [exact H2|]. unfold histogram_samples. apply in_app_iff. left.
        destruct (C _ H1) as [_ C2]. cbn [snd] in C2. rewrite Forall_forall in C2. destruct (C2 _ H2) as [L _]. cbn [fst snd] in *.
        change 0 with (0 mod 2 ^ 64). apply buckets_iff; [exact L|]. exists i, b. split; [exact N|].
        rewrite P, <- !app_assoc, N.add_0_l. reflexivity.
      + right; left. subst lat. cbn [flat_map f_samples]. rewrite app_nil_r. apply in_flat_map. exists (k, m). split; [exact H1|].
        apply in_flat_map. exists (st, x). split; [exact H2|]. unfold histogram_samples. apply in_app_iff. right. left.
        destruct (C _ H1) as [_ C2]. cbn [snd] in C2. rewrite Forall_forall in C2. destruct (C2 _ H2) as [L _]. cbn [fst snd] in *.
        change 0 with (0 mod 2 ^ 64) at 1. rewrite total_is by exact L. rewrite P, <- !app_assoc, N.add_0_l.
        unfold up_to. rewrite firstn_all2 by (rewrite L; reflexivity). reflexivity.
      + right; left. subst lat. cbn [flat_map f_samples]. rewrite app_nil_r. apply in_flat_map. exists (k, m). split; [exact H1|].
        apply in_flat_map. exists (st, x). split; [exact H2|]. unfold histogram_samples. apply in_app_iff. right. right. left.
        cbn [fst snd]. rewrite P, <- !app_assoc. reflexivity.
  Qed.

  (* once *)
  Context {I : Type} (look : K -> I).
  Hypothesis pairs_inj : forall k k', pairs k = pairs k' -> look k = look k'.
  Hypothesis pairs_free : forall k, status_free (pairs k).

  Lemma once_counters {V} n (get : V -> N) (reg : list (K * V)) : NoDup (map (fun e => look (fst e)) reg) ->
    NoDup (map series (counter_samples n pairs get reg)).
  Proof.
    intros D. unfold counter_samples. rewrite map_map. apply (nodup_map_key (fun e => look (fst e))); [exact D|].
    intros [k m] [k' m'] _ _ E. cbn [fst series] in *. unfold series in E. cbn [m_name m_labels] in E. injection E as E. now apply pairs_inj.
  Qed.

  Lemma series_flat {A} (f : A -> list sample) xs : map series (flat_map f xs) = flat_map (fun x => map series (f x)) xs.
  Proof. induction xs as [|x xs IH]; [reflexivity|]. cbn [flat_map]. now rewrite map_app, IH. Qed.

  Lemma bucket_series n ls bounds : forall counts t, List.length counts = List.length bounds ->
    map series (bucket_samples n ls t bounds counts) = map (fun b => (n ++ bs "_bucket", ls ++ [l "le" (le_text b)])) bounds.
  Proof.
    induction bounds as [|b bounds IH]; intros [|c counts] t L; try discriminate L; [reflexivity|].
    cbn [bucket_samples map]. rewrite IH by (cbn in L; congruence). reflexivity.
  Qed.
  Lemma bucket_in n ls bounds : forall counts t x, In x (map series (bucket_samples n ls t bounds counts)) ->
    exists b, x = (n ++ bs "_bucket", ls ++ [l "le" (le_text b)]).
  Proof.
    induction bounds as [|b bounds IH]; intros [|c counts] t x H; try destruct H as [].
    - exists b. easy.
    - eapply IH. eassumption.
  Qed.

  Lemma le_nodup : NoDup (map le_text LATENCY).
  Proof.
    assert (B : forall xs : list bytes, (fix nd xs := match xs with [] => true | x :: xs => negb (existsb (beq x) xs) && nd xs end) xs = true -> NoDup xs).
    { induction xs as [|x xs IH]; intros H; [constructor|]. apply andb_true_iff in H as [H1 H2]. constructor; [|now apply IH].
      intros J. rewrite negb_true_iff in H1. assert (X : existsb (beq x) xs = true) by (apply existsb_exists; exists x; split; [exact J|apply beq_refl]).
      congruence. }
    apply B. vm_compute. reflexivity.
  Qed.

  Lemma nodup_app {A} (a b : list A) : NoDup a -> NoDup b -> (forall x, In x a -> ~ In x b) -> NoDup (a ++ b).
  Proof.
    induction 1 as [|x a N D IH]; intros B X; [exact B|]. cbn [app]. constructor.
    - rewrite in_app_iff. intros [H|H]; [easy|]. apply (X x); [now left|exact H].
    - apply IH; [exact B|]. intros y Y. apply X. now right.
  Qed.

  Lemma name_apart (n a b : bytes) : List.length a <> List.length b -> n ++ a <> n ++ b.
  Proof. intros A E. apply app_inv_head in E. congruence. Qed.

  Lemma histogram_once n ls h : List.length (fst h) = List.length LATENCY -> NoDup (map series (histogram_samples n ls h)).
  Proof.
    intros L. unfold histogram_samples. rewrite map_app, bucket_series by exact L.
    apply nodup_app.
    - apply (nodup_map_key le_text); [exact le_nodup|]. intros a b _ _ E. injection E as E. apply app_inj_tail in E as [_ E].
      now injection E.
    - cbn [map]. unfold series. cbn [m_name m_labels]. constructor.
      + intros [E|[]]. injection E as E. revert E. now apply name_apart.
      + constructor; [easy|constructor].
    - intros x H. apply in_map_iff in H as (b & <- & _). cbn [map]. unfold series. cbn [m_name m_labels].
      intros [E|[E|[]]]; apply (f_equal fst) in E; cbn [fst] in E; revert E; now apply name_apart.
  Qed.
  Lemma histogram_same n ls ls' h h' x : In x (map series (histogram_samples n ls h)) ->
    In x (map series (histogram_samples n ls' h')) -> ls = ls'.
  Proof.
    unfold histogram_samples. rewrite !map_app, !in_app_iff. cbn [map]. unfold series at 2 3 5 6. cbn [m_name m_labels].
    assert (N1 : n ++ bs "_bucket" <> n ++ bs "_count") by now apply name_apart.
    assert (N2 : n ++ bs "_bucket" <> n ++ bs "_sum") by now apply name_apart.
    intros [H|H] [H'|H'].
    - apply bucket_in in H as [b ->]. apply bucket_in in H' as [b' E]. injection E as E. now apply app_inj_tail in E.
    - exfalso. apply bucket_in in H as [b ->]. destruct H' as [E|[E|[]]]; apply (f_equal fst) in E; cbn [fst] in E; congruence.
    - exfalso. apply bucket_in in H' as [b ->]. destruct H as [E|[E|[]]]; apply (f_equal fst) in E; cbn [fst] in E; congruence.
    - destruct H as [<-|[<-|[]]], H' as [E|[E|[]]]; apply (f_equal snd) in E; cbn [snd] in E; congruence.
  Qed.

  Lemma once_statuses n reg : clean_http ok reg -> apart_http look reg -> NoDup (map series (status_samples n pairs reg)).
  Proof.
    intros C [D A]. unfold clean_http in C. rewrite Forall_forall in C, A. unfold status_samples. rewrite series_flat.
    apply (nodup_flat_map (fun e => look (fst e))); [exact D| |].
    - intros [k m] H. cbn [fst snd]. destruct (C _ H) as [_ C2]. destruct (A _ H) as [D2 _]. cbn [snd] in *. rewrite Forall_forall in C2.
      rewrite series_flat. apply (nodup_flat_map fst); [exact D2| |].
      + intros [st s] H2. cbn [fst snd]. apply histogram_once. now apply (C2 (st, s)).
      + intros [st s] [st' s'] x _ _ X X'. cbn [fst snd] in *. pose proof (histogram_same _ _ _ _ _ _ X X') as E.
        now apply status_inj in E.
    - intros [k m] [k' m'] x _ _ X X'. cbn [fst snd] in *. rewrite series_flat in X, X'.
      apply in_flat_map in X as ([st s] & _ & X). apply in_flat_map in X' as ([st' s'] & _ & X'). cbn [fst snd] in *.
      pose proof (histogram_same _ _ _ _ _ _ X X') as E. apply status_inj in E as [E _]; try apply pairs_free. now apply pairs_inj.
  Qed.

  Lemma once_classes n reg : apart_http look reg -> NoDup (map series (class_samples n pairs reg)).
  Proof.
    intros [D A]. rewrite Forall_forall in A. unfold class_samples. rewrite series_flat.
    assert (L3 : forall c, List.length (class_pairs c) = 3%nat) by (intros []; reflexivity).
    assert (SP : forall k st c k' st' c', pairs k ++ status_pairs st ++ class_pairs c = pairs k' ++ status_pairs st' ++ class_pairs c' ->
      pairs k = pairs k' /\ st = st' /\ class_pairs c = class_pairs c').
    { intros k st c k' st' c' E. rewrite !app_assoc in E. apply app_same_length in E as [E1 E2]; [|now rewrite !L3].
      apply status_inj in E1 as [E1 E3]; try apply pairs_free. easy. }
    apply (nodup_flat_map (fun e => look (fst e))); [exact D| |].
    - intros [k m] H. cbn [fst snd]. destruct (A _ H) as [D2 A2]. cbn [snd] in *. rewrite Forall_forall in A2.
      rewrite series_flat. apply (nodup_flat_map fst); [exact D2| |].
      + intros [st s] H2. cbn [fst snd]. destruct (A2 _ H2) as [D3 A3]. cbn [fst snd] in *. rewrite Forall_forall in A3.
        rewrite map_map. apply (nodup_map_key fst); [exact D3|]. intros [c v] [c' v'] I1 I2 E. cbn [fst] in *.
        unfold series in E. cbn [m_name m_labels] in E. injection E as E. apply SP in E as (_ & _ & E).
        apply (class_inj st); [exact E|exact (A3 _ I1)|exact (A3 _ I2)].
      + intros [st s] [st' s'] x _ _ X X'. cbn [fst snd] in *. rewrite map_map in X, X'.
        apply in_map_iff in X as ([c v] & <- & _). apply in_map_iff in X' as ([c' v'] & E & _).
        unfold series in E. cbn [m_name m_labels fst] in E. injection E as E. apply SP in E as (_ & E & _). congruence.
    - intros [k m] [k' m'] x _ _ X X'. cbn [fst snd] in *. rewrite series_flat in X, X'.
      apply in_flat_map in X as ([st s] & _ & X). apply in_flat_map in X' as ([st' s'] & _ & X'). cbn [fst snd] in *.
      rewrite map_map in X, X'. apply in_map_iff in X as ([c v] & <- & _). apply in_map_iff in X' as ([c' v'] & E & _).
      unfold series in E. cbn [m_name m_labels fst] in E. injection E as E. apply SP in E as (E & _). symmetry. now apply pairs_inj.
  Qed.

  Definition once (f : family) : Prop := NoDup (map series (f_samples f)).
  Lemma once_http prefix lat reg : clean_http ok reg -> apart_http look reg -> Forall once (http_families pairs prefix lat reg).
  Proof.
    intros C A. unfold http_families. destruct reg as [|e reg]; [constructor|]. set (r := e :: reg) in *.
    apply Forall_app. split; [|apply Forall_app; split].
    - constructor; [|constructor]. apply once_counters. exact (proj1 A).
    - destruct lat; constructor; [|constructor]. now apply once_statuses.
    - constructor; [|constructor]. now apply once_classes.
  Qed.

  (* the names *)
  Lemma named_http prefix lat reg : Forall (fun f => Forall (named_for f) (f_samples f)) (http_families pairs prefix lat reg).
  Proof.
    unfold http_families. destruct reg as [|e reg]; [constructor|]. set (r := e :: reg) in *.
    apply Forall_app. split; [|apply Forall_app; split].
    - constructor; [|constructor]. cbn [f_samples]. apply Forall_map, Forall_forall. intros x _. left. split; [now left|reflexivity].
    - destruct lat; constructor; [|constructor]. cbn [f_samples]. apply Forall_forall. intros x H.
      apply in_flat_map in H as ([k m] & _ & H). apply in_flat_map in H as ([st s] & _ & H). cbn [fst snd] in *. right.
      split; [reflexivity|]. cbn [f_name]. unfold histogram_samples in H. apply in_app_iff in H as [H|[<-|[<-|[]]]]; [|right; now left|now right; right].
      left. apply (in_map series) in H. apply bucket_in in H as [b E]. now apply (f_equal fst) in E.
    - constructor; [|constructor]. cbn [f_samples]. apply Forall_forall. intros x H.
      apply in_flat_map in H as ([k m] & _ & H). apply in_flat_map in H as ([st s] & _ & H). apply in_map_iff in H as ([c v] & <- & _).
      left. split; [now left|reflexivity].
  Qed.
End Http.

Section Display.
  Variable show_sock : sock -> bytes.
  Variable show_ip : list N -> bytes.
  Hypothesis clean_sock : forall a, clean (show_sock a).
  Hypothesis clean_ip : forall a, clean (show_ip a).

  Notation ep := (endpoint_pairs show_sock show_ip).
  Notation kp := (key_pairs show_sock show_ip).

  Lemma good_all c : clean_counted c -> Forall good_family (families show_sock show_ip c).
  Proof.
    intros (A & B & C & D & E & F & G). unfold families. repeat (apply Forall_app; split).
    - apply (good_http _ clean_endpoint); try reflexivity; [|repeat split; reflexivity|exact A]. intros k. now apply good_endpoint.
    - apply (good_http _ clean_route); try reflexivity; [|repeat split; reflexivity|exact B]. exact good_route.
    - unfold retry_families. destruct (g_retry c) as [|e reg]; [constructor|]. set (r := e :: reg) in *.
      constructor; [|constructor]. repeat split; try (apply nnl_const; reflexivity). cbn [f_samples].
      rewrite Forall_forall in *. intros x H. apply in_flat_map in H as ([k m] & H1 & H). apply C in H1. cbn [fst snd] in *.
      apply good_route in H1. destruct H as [<-|[<-|[]]]; (split; [reflexivity|]); cbn [m_labels]; [exact H1|].
      apply Forall_app. split; [exact H1|]. repeat constructor; cbn; try discriminate; apply clean_const; reflexivity.
    - apply (good_http _ clean_route); try reflexivity; [|repeat split; reflexivity|exact D]. exact good_route.
    - apply (good_http _ clean_control); try reflexivity; [|repeat split; reflexivity|exact E]. intros k. now apply good_control.
    - unfold transport_families. destruct (g_transport c) as [|e reg]; [constructor|]. set (r := e :: reg) in *.
      assert (P : Forall (fun e => Forall good (kp (fst e))) r).
      { revert F. apply Forall_impl. intros [k m] [F _]. now apply good_key. }
      repeat (constructor; [repeat split; try (apply nnl_const; reflexivity); cbn [f_samples];
        first [apply good_counters; [reflexivity|exact P] | idtac]|]); try constructor.
      rewrite Forall_forall in *. intros x H. apply in_flat_map in H as ([k m] & H1 & H). pose proof (P _ H1) as P1. apply F in H1 as [_ F1].
      cbn [fst snd] in *. apply in_map_iff in H as ([e' n] & <- & H). rewrite Forall_forall in F1. apply F1 in H. cbn [fst] in H.
      split; [reflexivity|]. cbn [m_labels]. apply Forall_app. split; [exact P1|]. constructor; [|constructor].
      apply good_l; [reflexivity|]. cbn [fst]. destruct e'; [exact H|constructor].
    - unfold export_families. repeat (constructor; [repeat split; try (apply nnl_const; reflexivity); repeat constructor|]); constructor.
    - unfold stack_families. destruct (g_stack c) as [|e reg]; [constructor|]. set (r := e :: reg) in *.
      assert (P : Forall (fun e => Forall good (stack_pairs (fst e))) r).
      { revert G. apply Forall_impl. intros [k m] G. now apply good_stack. }
      assert (Q : forall ready get, clean ready -> Forall good_sample (ready_samples ready get r)).
      { intros ready get R. apply good_counters; [reflexivity|]. revert P. apply Forall_impl. intros e' P. apply Forall_app. split; [exact P|].
        constructor; [|constructor]. now apply good_l. }
      constructor; [repeat split; try (apply nnl_const; reflexivity); apply good_counters; [reflexivity|exact P]|].
      constructor; [repeat split; try (apply nnl_const; reflexivity); apply good_counters; [reflexivity|exact P]|].
      constructor; [|constructor; [repeat split; try (apply nnl_const; reflexivity); apply good_counters; [reflexivity|exact P]|constructor]].
      split; [reflexivity|]. split; [apply nnl_const; reflexivity|]. split; [apply nnl_const; reflexivity|]. cbn [f_samples].
      apply Forall_app. split; [|apply Forall_app; split]; apply Q, clean_const; reflexivity.
  Qed.

  Lemma page_read c : clean_counted c ->
    read (report show_sock show_ip c) = Some (flat_map family_lines (families show_sock show_ip c)).
  Proof. intros C. rewrite text_report. apply read_page, good_families, good_all, C. Qed.

  Lemma page_iff c s : clean_counted c ->
    (In s (flat_map f_samples (families show_sock show_ip c)) <-> shown show_sock show_ip c (m_name s) (m_labels s) (m_value s)).
  Proof.
    intros (A & B & C & D & E & F & G). unfold families. rewrite !flat_map_app, !in_app_iff.
    rewrite (http_iff ep clean_endpoint [] [] true) by (try exact A; reflexivity).
    rewrite (http_iff route_pairs clean_route (bs "route") (bs "route_") true) by (try exact B; reflexivity).
    rewrite (http_iff route_pairs clean_route (bs "route_actual") (bs "route_actual_") false) by (try exact D; reflexivity).
    rewrite (http_iff (control_pairs show_sock) clean_control (bs "control") (bs "control_") true) by (try exact E; reflexivity).
    split.
    - intros [H|[H|[H|[H|[H|[H|[H|H]]]]]]].
      + now apply of_endpoint.
      + now apply of_route.
      + unfold retry_families in H. destruct (g_retry c) as [|e reg] eqn:R; [destruct H|]. cbn [flat_map f_samples] in H.
        rewrite app_nil_r in H. change (_ ++ flat_map _ reg) with (flat_map (fun e0 : route_labels * (N * N) =>
          [Sample (prefixed (bs "route") (bs "retryable_total")) (route_pairs (fst e0)) (to_f64 (fst (snd e0)));
           Sample (prefixed (bs "route") (bs "retryable_total")) (route_pairs (fst e0) ++ [l "skipped" (bs "no_budget")]) (to_f64 (snd (snd e0)))])
          (e :: reg)) in H. rewrite <- R in H.
        apply in_flat_map in H as ([k m] & H1 & [<-|[<-|[]]]); [now apply of_retryable|now apply of_no_budget].
      + now apply of_actual.
      + now apply of_control.
      + unfold transport_families in H. destruct (g_transport c) as [|e reg] eqn:R; [destruct H|]. rewrite <- R in H.
        cbn [flat_map f_samples] in H. rewrite !in_app_iff in H.
        destruct H as [H|[H|[H|[H|[H|[]]]]]].
        1-4: apply in_map_iff in H as ([k m] & <- & H); cbn [fst snd m_name m_labels m_value].
        * now apply of_opened.
        * now apply of_open.
        * now apply of_read.
        * now apply of_written.
        * apply in_flat_map in H as ([k m] & H1 & H). apply in_map_iff in H as ([x n] & <- & H). eapply of_closed; eassumption.
      + destruct H as [<-|[<-|[<-|[]]]]; [apply of_streams|apply of_exports|apply of_spans].
      + unfold stack_families in H. destruct (g_stack c) as [|e reg] eqn:R; [destruct H|]. rewrite <- R in H.
        cbn [flat_map f_samples] in H. rewrite !in_app_iff in H. unfold ready_samples in H.
        destruct H as [H|[H|[[H|[H|H]]|[H|[]]]]]; apply in_map_iff in H as ([k m] & <- & H); cbn [fst snd m_name m_labels m_value].
        * now apply of_created.
        * now apply of_dropped.
        * now apply of_ready.
        * now apply of_not_ready.
        * now apply of_failed.
        * now apply of_millis.
    - assert (TR : forall k m, In (k, m) (g_transport c) -> exists e reg, g_transport c = e :: reg)
        by (intros k m H; destruct (g_transport c); [easy|eauto]).
      assert (ST : forall k m, In (k, m) (g_stack c) -> exists e reg, g_stack c = e :: reg)
        by (intros k m H; destruct (g_stack c); [easy|eauto]).
      destruct s as [n ls v]. cbn [m_name m_labels m_value]. intros H.
      destruct H as [n ls v H|n ls v H|n ls v H|n ls v H|k m H|k m H|k m H|k m H|k m H|k m H|k m x n H H2| | | |k m H|k m H|k m H|k m H|k m H|k m H].
      + now left.
      + right. now left.
      + do 3 right. now left.
      + do 4 right. now left.
      + right; right; left. unfold retry_families. destruct (g_retry c) as [|e reg]; [easy|]. set (r := e :: reg) in *.
        cbn [flat_map f_samples]. rewrite app_nil_r. apply in_flat_map. exists (k, m). split; [exact H|]. now left.
      + right; right; left. unfold retry_families. destruct (g_retry c) as [|e reg]; [easy|]. set (r := e :: reg) in *.
        cbn [flat_map f_samples]. rewrite app_nil_r. apply in_flat_map. exists (k, m). split; [exact H|]. right. now left.
      + do 5 right. left. destruct (TR _ _ H) as (e & reg & R). rewrite R in H |- *. unfold transport_families. cbv iota. set (r := e :: reg) in *.
        cbn [flat_map f_samples]. rewrite !in_app_iff. left. apply in_map_iff. now exists (k, m).
      + do 5 right. left. destruct (TR _ _ H) as (e & reg & R). rewrite R in H |- *. unfold transport_families. cbv iota. set (r := e :: reg) in *.
        cbn [flat_map f_samples]. rewrite !in_app_iff. right. left. apply in_map_iff. now exists (k, m).
      + do 5 right. left. destruct (TR _ _ H) as (e & reg & R). rewrite R in H |- *. unfold transport_families. cbv iota. set (r := e :: reg) in *.
        cbn [flat_map f_samples]. rewrite !in_app_iff. right; right; left. apply in_map_iff. now exists (k, m).
      + do 5 right. left. destruct (TR _ _ H) as (e & reg & R). rewrite R in H |- *. unfold transport_families. cbv iota. set (r := e :: reg) in *.
        cbn [flat_map f_samples]. rewrite !in_app_iff. do 3 right. left. apply in_map_iff. now exists (k, m).
      + do 5 right. left. destruct (TR _ _ H) as (e & reg & R). rewrite R in H |- *. unfold transport_families. cbv iota. set (r := e :: reg) in *.
        cbn [flat_map f_samples]. rewrite !in_app_iff. do 4 right. left. apply in_flat_map. exists (k, m). split; [exact H|].
        apply in_map_iff. now exists (x, n).
      + do 6 right. left. now left.
      + do 6 right. left. right. now left.
      + do 6 right. left. right. right. now left.
      + do 7 right. destruct (ST _ _ H) as (e & reg & R). rewrite R in H |- *. unfold stack_families. cbv iota. set (r := e :: reg) in *.
        cbn [flat_map f_samples]. rewrite !in_app_iff. left. apply in_map_iff. now exists (k, m).
      + do 7 right. destruct (ST _ _ H) as (e & reg & R). rewrite R in H |- *. unfold stack_families. cbv iota. set (r := e :: reg) in *.
        cbn [flat_map f_samples]. rewrite !in_app_iff. right. left. apply in_map_iff. now exists (k, m).
      + do 7 right. destruct (ST _ _ H) as (e & reg & R). rewrite R in H |- *. unfold stack_families. cbv iota. set (r := e :: reg) in *.
        cbn [flat_map f_samples]. rewrite !in_app_iff. right. right. left. left. apply in_map_iff. now exists (k, m).
      + do 7 right. destruct (ST _ _ H) as (e & reg & R). rewrite R in H |- *. unfold stack_families. cbv iota. set (r := e :: reg) in *.
        cbn [flat_map f_samples]. rewrite !in_app_iff. right. right. left. right. left. apply in_map_iff. now exists (k, m).
      + do 7 right. destruct (ST _ _ H) as (e & reg & R). rewrite R in H |- *. unfold stack_families. cbv iota. set (r := e :: reg) in *.
        cbn [flat_map f_samples]. rewrite !in_app_iff. right. right. left. right. right. apply in_map_iff. now exists (k, m).
      + do 7 right. destruct (ST _ _ H) as (e & reg & R). rewrite R in H |- *. unfold stack_families. cbv iota. set (r := e :: reg) in *.
        cbn [flat_map f_samples]. rewrite !in_app_iff. right. right. right. left. apply in_map_iff. now exists (k, m).
  Qed.

  Lemma page_named c : Forall (fun f => Forall (named_for f) (f_samples f)) (families show_sock show_ip c).
  Proof.
    assert (CS : forall {K V} n h k pairs (get : V -> N) (reg : list (K * V)), k = bs "counter" \/ k = bs "gauge" ->
      Forall (named_for (Family n h k (counter_samples n pairs get reg))) (counter_samples n pairs get reg)).
    { intros K V n h k pairs get reg Hk. apply Forall_map, Forall_forall. intros e _. left. now split. }
    unfold families. repeat (apply Forall_app; split); try apply named_http.
    - unfold retry_families. destruct (g_retry c) as [|e reg]; [constructor|]. constructor; [|constructor]. set (r := e :: reg).
      apply Forall_forall. intros x H. apply in_flat_map in H as ([k m] & _ & [<-|[<-|[]]]); left; (split; [now left|reflexivity]).
    - unfold transport_families. destruct (g_transport c) as [|e reg]; [constructor|]. set (r := e :: reg).
      do 4 (constructor; [apply CS; first [now left | now right]|]). constructor; [|constructor].
      apply Forall_forall. intros x H. apply in_flat_map in H as ([k m] & _ & H). apply in_map_iff in H as ([y n] & <- & _).
      left. split; [now left|reflexivity].
    - unfold export_families. repeat (constructor; [repeat constructor|]); constructor.
    - unfold stack_families. destruct (g_stack c) as [|e reg]; [constructor|]. set (r := e :: reg).
      do 2 (constructor; [apply CS; now left|]). constructor; [|constructor; [apply CS; now left|constructor]].
      apply Forall_forall. cbn [f_samples]. intros x H. rewrite !in_app_iff in H. unfold ready_samples, counter_samples in H.
      destruct H as [H|[H|H]]; apply in_map_iff in H as (y & <- & _); left; (split; [now left|reflexivity]).
  Qed.

  Definition distinctb : list bytes -> bool :=
    fix nd xs := match xs with [] => true | x :: xs => negb (existsb (beq x) xs) && nd xs end.
  Lemma distinctb_nodup xs : distinctb xs = true -> NoDup xs.
  Proof.
    induction xs as [|x xs IH]; intros H; [constructor|]. apply andb_true_iff in H as [H1 H2]. constructor; [|now apply IH].
    intros J. rewrite negb_true_iff in H1.
    assert (X : existsb (beq x) xs = true) by (apply existsb_exists; exists x; split; [exact J|apply beq_refl]). congruence.
  Qed.
  Lemma page_names c : NoDup (map f_name (families show_sock show_ip c)).
  Proof.
    unfold families. rewrite !map_app.
    assert (H : forall {K} (pairs : K -> list pair) p lat reg,
      map f_name (http_families pairs p lat reg) = match reg with [] => [] | _ => map f_name (http_families (fun _ : unit => []) p lat [(tt, HttpMetrics 0 [])]) end).
    { intros K pairs p lat [|e reg]; [reflexivity|]. destruct lat; reflexivity. }
    assert (R : map f_name (retry_families route_pairs (bs "route") (g_retry c)) = match g_retry c with [] => [] | _ => [bs "route_retryable_total"] end)
      by (destruct (g_retry c); reflexivity).
    assert (T : map f_name (transport_families show_sock show_ip (g_transport c)) = match g_transport c with [] => []
      | _ => [bs "tcp_open_total"; bs "tcp_open_connections"; bs "tcp_read_bytes_total"; bs "tcp_write_bytes_total"; bs "tcp_close_total"] end)
      by (destruct (g_transport c); reflexivity).
    assert (S : map f_name (stack_families (g_stack c)) = match g_stack c with [] => []
      | _ => [bs "stack_create_total"; bs "stack_drop_total"; bs "stack_poll_total"; bs "stack_poll_total_ms"] end)
      by (destruct (g_stack c); reflexivity).
    rewrite !H, R, T, S. apply distinctb_nodup.
    destruct (g_endpoint c), (g_route c), (g_retry c), (g_actual c), (g_control c), (g_transport c), (g_stack c); vm_compute; reflexivity.
  Qed.

  Hypothesis sock_inj : forall a b, show_sock a = show_sock b -> a = b.

  Lemma page_families_once c : clean_counted c -> apart show_sock c -> Forall once (families show_sock show_ip c).
  Proof.
    intros (A & B & C & D & E & F & G) (A' & B' & C' & D' & E' & F' & F2 & G'). unfold families. repeat (apply Forall_app; split).
    - apply (once_http ep clean_endpoint in_text_endpoint); try assumption; [|intros; apply free_endpoint].
      intros k k'. now apply endpoint_inj.
    - apply (once_http route_pairs clean_route in_text_route); try assumption; [exact route_inj|exact free_route].
    - unfold retry_families. destruct (g_retry c) as [|e reg]; [constructor|]. set (r := e :: reg) in *. constructor; [|constructor].
      unfold once. cbn [f_samples]. rewrite series_flat. apply (nodup_flat_map (fun e => in_text_route (fst e))); [exact C'| |].
      + intros [k m] _. cbn [map fst]. unfold series. cbn [m_name m_labels]. constructor; [|constructor; [easy|constructor]].
        intros [X|[]]. apply (f_equal snd) in X; cbn [snd] in X. apply (f_equal (@List.length _)) in X. rewrite app_length in X. cbn in X. lia.
      + assert (FR : forall k, no_key (bs "skipped") (route_pairs k)) by (intros k; apply nk_route; now right).
        intros [k m] [k' m'] x _ _ X X'. cbn [fst snd map] in *. unfold series in X, X'. cbn [m_name m_labels] in X, X'.
        destruct X as [<-|[<-|[]]], X' as [X|[X|[]]]; apply (f_equal snd) in X; cbn [snd] in X.
        * apply eq_sym, route_inj. exact X.
        * exfalso. specialize (FR k). rewrite <- X in FR. apply Forall_app in FR as [_ FR]. inversion FR as [|? ? Y]. now apply Y.
        * exfalso. specialize (FR k'). rewrite X in FR. apply Forall_app in FR as [_ FR]. inversion FR as [|? ? Y]. now apply Y.
        * apply app_inj_tail in X as [X _]. symmetry. now apply route_inj.
    - apply (once_http route_pairs clean_route in_text_route); try assumption; [exact route_inj|exact free_route].
    - apply (once_http (control_pairs show_sock) clean_control (in_text_control show_sock)); try assumption; [|intros; apply free_control].
      intros k k'. now apply control_inj.
    - assert (KI : forall k k', kp k = kp k' -> in_text_key k = in_text_key k') by (intros k k'; now apply key_inj).
      unfold transport_families. destruct (g_transport c) as [|e reg]; [constructor|]. set (r := e :: reg) in *.
      do 4 (constructor; [apply (once_counters kp in_text_key KI); exact F'|]). constructor; [|constructor].
      unfold once. cbn [f_samples]. rewrite series_flat. apply (nodup_flat_map (fun e => in_text_key (fst e))); [exact F'| |].
      + intros [k m] H. cbn [fst snd]. rewrite map_map. rewrite Forall_forall in F2. destruct (F2 _ H) as [H1 H2]. cbn [snd] in *.
        rewrite Forall_forall in H2. apply (nodup_map_key fst); [exact H1|]. intros [x n] [x' n'] I1 I2 X. unfold series in X.
        cbn [m_name m_labels fst] in *. injection X as X. apply app_inj_tail in X as [_ X]. injection X as X.
        apply H2 in I1, I2. cbn [fst] in *. destruct x, x'; cbn [eos_text] in X; first [congruence | (subst; exfalso; first [now apply I1 | now apply I2])].
      + intros [k m] [k' m'] x _ _ X X'. cbn [fst snd] in *. rewrite map_map in X, X'.
        apply in_map_iff in X as (y & <- & _). apply in_map_iff in X' as (y' & X & _). unfold series in X. cbn [m_name m_labels] in X.
        injection X as X. apply app_inj_tail in X as [X _]. symmetry. now apply KI.
    - unfold export_families. repeat (constructor; [repeat constructor; easy|]); constructor.
    - assert (NS : NoDup (map (fun e : stack_labels * stack_metrics => fst e) (g_stack c))) by exact G'.
      unfold stack_families. destruct (g_stack c) as [|e reg]; [constructor|]. set (r := e :: reg) in *.
      assert (SI : forall k k', stack_pairs k = stack_pairs k' -> (fun k => k) k = (fun k => k) k') by (intros k k'; apply stack_inj).
      do 2 (constructor; [apply (once_counters stack_pairs (fun k => k) SI); exact NS|]).
      constructor; [|constructor; [apply (once_counters stack_pairs (fun k => k) SI); exact NS|constructor]].
      unfold once. cbn [f_samples]. rewrite !map_app. unfold ready_samples.
      assert (RI : forall w k k', stack_pairs k ++ [l "ready" w] = stack_pairs k' ++ [l "ready" w] -> (fun k => k) k = (fun k => k) k').
      { intros w k k' X. apply app_inj_tail in X as [X _]. now apply stack_inj. }
      assert (IN : forall w (get : stack_metrics -> N) x, In x (map series (counter_samples (bs "stack_poll_total") (fun k => stack_pairs k ++ [l "ready" w]) get r)) ->
        exists k, snd x = stack_pairs k ++ [l "ready" w]).
      { intros w get x X. unfold counter_samples in X. rewrite map_map in X. apply in_map_iff in X as ([k m] & <- & _). now exists k. }
      apply nodup_app; [|apply nodup_app|].
      + apply (once_counters (fun k => stack_pairs k ++ [l "ready" (bs "true")]) (fun k => k) (RI _)). exact NS.
      + apply (once_counters (fun k => stack_pairs k ++ [l "ready" (bs "false")]) (fun k => k) (RI _)). exact NS.
      + apply (once_counters (fun k => stack_pairs k ++ [l "ready" (bs "error")]) (fun k => k) (RI _)). exact NS.
      + intros x X Y. apply IN in X as [k X]. apply IN in Y as [k' Y]. rewrite X in Y. apply app_inj_tail in Y as [_ Y]. discriminate Y.
      + intros x X Y. apply IN in X as [k X]. apply in_app_iff in Y as [Y|Y]; apply IN in Y as [k' Y]; rewrite X in Y;
          apply app_inj_tail in Y as [_ Y]; discriminate Y.
  Qed.

  (** the name of the family, from that of a series *)
  Definition owner (n : bytes) : bytes :=
    match strip_suffix (bs "_bucket"%string) n with
    | Some o => o
    | None => match strip_suffix (bs "_count"%string) n with
              | Some o => o
              | None => match strip_suffix (bs "_sum"%string) n with Some o => o | None => n end
              end
    end.
  Lemma strip_suffix_app p s : strip_suffix p (s ++ p) = Some s.
  Proof. unfold strip_suffix. rewrite rev_app_distr, strip_prefix_app. cbn [option_map]. now rewrite rev_involutive. Qed.
  Lemma owned f s : owner (f_name f) = f_name f -> named_for f s -> owner (m_name s) = f_name f.
  Proof.
    intros O [[_ ->]|[_ [->|[->| ->]]]]; [exact O| | |]; unfold owner.
    - now rewrite strip_suffix_app.
    - assert (X : strip_suffix (bs "_bucket") (f_name f ++ bs "_count") = None)
        by (unfold strip_suffix; rewrite rev_app_distr; reflexivity).
      now rewrite X, strip_suffix_app.
    - assert (X : strip_suffix (bs "_bucket") (f_name f ++ bs "_sum") = None)
        by (unfold strip_suffix; rewrite rev_app_distr; reflexivity).
      assert (Y : strip_suffix (bs "_count") (f_name f ++ bs "_sum") = None)
        by (unfold strip_suffix; rewrite rev_app_distr; reflexivity).
      now rewrite X, Y, strip_suffix_app.
  Qed.
  Lemma owners c : Forall (fun f => owner (f_name f) = f_name f) (families show_sock show_ip c).
  Proof.
    assert (H : forall {K} (pairs : K -> list pair) p lat reg,
      owner (prefixed p (bs "request_total")) = prefixed p (bs "request_total") ->
      owner (prefixed p (bs "response_latency_ms")) = prefixed p (bs "response_latency_ms") ->
      owner (prefixed p (bs "response_total")) = prefixed p (bs "response_total") ->
      Forall (fun f => owner (f_name f) = f_name f) (http_families pairs p lat reg)).
    { intros K pairs p lat [|e reg] X Y Z; [constructor|]. unfold http_families. destruct lat; repeat constructor; assumption. }
    unfold families. repeat (apply Forall_app; split); try (apply H; reflexivity).
    - destruct (g_retry c); repeat constructor.
    - destruct (g_transport c); repeat constructor.
    - repeat constructor.
    - destruct (g_stack c); repeat constructor.
  Qed.

  Lemma page_once c : clean_counted c -> apart show_sock c -> NoDup (map series (flat_map f_samples (families show_sock show_ip c))).
  Proof.
    intros C A. rewrite series_flat. apply (nodup_flat_map f_name).
    - apply page_names.
    - pose proof (page_families_once c C A) as O. rewrite Forall_forall in O. exact O.
    - pose proof (page_named c) as NM. pose proof (owners c) as OW. rewrite Forall_forall in NM, OW.
      assert (X : forall f x, In f (families show_sock show_ip c) -> In x (map series (f_samples f)) -> owner (fst x) = f_name f).
      { intros f x F X. apply in_map_iff in X as (s & <- & S). apply owned; [now apply OW|]. specialize (NM f F).
        rewrite Forall_forall in NM. now apply NM. }
      intros f g x F G I1 I2. rewrite <- (X f x), <- (X g x); easy.
  Qed.
End Display.
