From Coq Require Import String List NArith Bool Lia ZifyBool ZifyNat ZifyN.
From Verif Require Import Bytes BytesProofs NameModel NameSpec NameProofs TransportModel FilterModel TraceModel EndpointModel
  DnsModel ProfileModel GatewayModel GatewaySpec.
From Verif Require RouteModel AuthzModel AuthzSpec PolicyModel Http1Model ConnectModel ConnectSpec ConnectProofs
  DiscoverModel DiscoverSpec DiscoverProofs FilterSpec FilterProofs.
Import ListNotations.
Open Scope N_scope.

(** ** Loops *)

Lemma join_cons c a b l : join c (a :: b :: l) = a ++ c :: join c (b :: l).
Proof. reflexivity. Qed.

Lemma params_split v ps : params v ps <-> split 59 v = ps.
Proof.
  split.
  - intros (-> & N & F). induction ps as [|a ps IH]; [contradiction|].
    inversion F as [|? ? A F']; subst. destruct ps as [|b ps].
    + exact (split_none 59 a A).
    + rewrite join_cons, split_app_sep by exact A. f_equal. apply IH; [discriminate|exact F'].
  - intros <-. split; [symmetry; apply split_join|]. split; [apply split_nonempty|].
    apply Forall_forall. intros p H. exact (split_no_sep _ _ _ H).
Qed.
Lemma by_no_eq : ~ In 61 (bs "by"%string).
Proof. cbv. intros [H|[H|[]]]; discriminate. Qed.
Lemma by_eq r : bs "by="%string ++ r = bs "by"%string ++ 61 :: r.
Proof. reflexivity. Qed.
Lemma is_by_iff p : is_by p <-> exists vs, split 61 p = bs "by"%string :: vs.
Proof.
  split.
  - intros [->|(r & ->)].
    + exists []. reflexivity.
    + rewrite by_eq, split_app_sep by exact by_no_eq. eexists. reflexivity.
  - intros (vs & E). pose proof (split_join 61 p) as J. rewrite E in J. destruct vs as [|w vs].
    + left. symmetry. exact J.
    + right. exists (join 61 (w :: vs)). rewrite by_eq, <- join_cons. symmetry. exact J.
Qed.
Lemma by_value_iff p s : by_value p s <-> exists vs, split 61 p = bs "by"%string :: s :: vs.
Proof.
  split.
  - intros (r & -> & S & R). rewrite by_eq, split_app_sep by exact by_no_eq.
    destruct R as [->|(r' & ->)].
    + rewrite app_nil_r, split_none by exact S. exists []. reflexivity.
    + rewrite split_app_sep by exact S. eexists. reflexivity.
  - intros (vs & E). pose proof (split_join 61 p) as J. rewrite E in J.
    assert (S : ~ In 61 s) by (apply (split_no_sep 61 p); rewrite E; right; left; reflexivity).
    rewrite join_cons, <- by_eq in J. destruct vs as [|w vs].
    + exists []. cbn [join] in J. rewrite app_nil_r. auto.
    + exists (61 :: join 61 (w :: vs)). rewrite join_cons in J. split; [symmetry; exact J|].
      split; [exact S|]. right. eexists. reflexivity.
Qed.
Lemma fwd_by_in_iff kvs s : fwd_by_in kvs = Some s <->
  exists pre p post, kvs = pre ++ p :: post /\ (forall x, In x pre -> ~ is_by x) /\ by_value p s.
Proof.
  induction kvs as [|kv kvs IH]; cbn [fwd_by_in].
  { split; [discriminate|]. intros ([|? ?] & p & post & E & _); discriminate. }
  destruct (split 61 kv) as [|k vs] eqn:E; [destruct (split_nonempty _ _ E)|].
  destruct (beq k (bs "by"%string)) eqn:B.
  - apply beq_eq in B. subst k. assert (IB : is_by kv) by (apply is_by_iff; eexists; exact E). split.
    + intros H. destruct vs as [|w vs]; [discriminate|]. injection H as ->.
      exists [], kv, kvs. split; [reflexivity|]. split; [intros ? []|]. apply by_value_iff. eexists. exact E.
    + intros (pre & p & post & F & N & V). destruct pre as [|x pre].
      * injection F as <- <-. apply by_value_iff in V as (vs' & V). rewrite E in V. injection V as ->. reflexivity.
      * injection F as <- _. destruct (N kv (or_introl eq_refl) IB).
  - assert (IB : ~ is_by kv).
    { intros H. apply is_by_iff in H as (vs' & H). rewrite E in H. injection H as -> _. rewrite beq_refl in B. discriminate. }
    rewrite IH. split.
    + intros (pre & p & post & -> & N & V). exists (kv :: pre), p, post. split; [reflexivity|].
      split; [|exact V]. intros x [<-|H]; [exact IB|exact (N x H)].
    + intros (pre & p & post & F & N & V). destruct pre as [|x pre].
      * injection F as <- <-. destruct IB. apply is_by_iff. apply by_value_iff in V as (vs' & V). eexists. exact V.
      * injection F as <- ->. exists pre, p, post. split; [reflexivity|]. split; [|exact V].
        intros y H. apply N. right. exact H.
Qed.
Lemma fwd_by_iff v s : fwd_by v = Some s <-> says_by v s.
Proof.
  unfold fwd_by, says_by. rewrite fwd_by_in_iff. split.
  - intros (pre & p & post & E & N & V). exists pre, p, post. split; [apply params_split; exact E|]. auto.
  - intros (pre & p & post & E & N & V). exists pre, p, post. split; [apply params_split; exact E|]. auto.
Qed.

Lemma in_get_all n v hs : In v (RouteModel.get_all n hs) <-> In (n, v) hs.
Proof.
  unfold RouteModel.get_all. rewrite in_map_iff. split.
  - intros ([m w] & <- & H). apply filter_In in H as [H B]. cbn in B. apply beq_eq in B. subst m. exact H.
  - intros H. exists (n, v). split; [reflexivity|]. apply filter_In. split; [exact H|]. apply beq_refl.
Qed.
Lemma seen_iff i hs : seen_before i hs = true <-> went_through i hs.
Proof.
  unfold seen_before, went_through. rewrite existsb_exists. split.
  - intros (v & H & B). apply in_get_all in H. exists v. split; [exact H|].
    destruct (to_str v) as [t|] eqn:T; [|discriminate]. apply (ConnectProofs.to_str_text Some) in T as [-> T].
    split; [exact T|]. destruct (fwd_by v) as [b|] eqn:F; [|discriminate].
    apply fwd_by_iff in F. apply beq_eq in B. subst b. exact F.
  - intros (v & H & T & S). exists v. split; [apply in_get_all; exact H|].
    assert (E : to_str v = Some v) by (apply (ConnectProofs.to_str_text Some); auto). rewrite E.
    apply fwd_by_iff in S. rewrite S. apply beq_refl.
Qed.

Lemma id_to_str_text i : id_to_str i = id_text i.
Proof. destruct i; reflexivity. Qed.
Lemma loop_iff l c a v hs : http_gateway l c a v hs = Loop <-> c = l \/ went_through l hs.
Proof.
  unfold http_gateway. destruct (ConnectModel.id_eqb c l) eqn:E.
  - apply ConnectProofs.id_eqb_eq in E. split; auto.
  - assert (N : c <> l).
    { intros H. apply ConnectProofs.id_eqb_eq in H. rewrite H in E. discriminate. }
    unfold gateway_call. destruct (seen_before l hs) eqn:S.
    + apply seen_iff in S. split; auto.
    + split.
      * destruct (negb _); [discriminate|]. destruct v; try discriminate; destruct (negb _); discriminate.
      * intros [H|H]; [contradiction|]. apply seen_iff in H. congruence.
Qed.

(** What is written *)
Lemma undotted_id n t : undotted n t -> without_trailing_dot n = t.
Proof. exact (undotted_unique n t). Qed.
Lemma id_written_display i : proper i -> id_written i (id_display i).
Proof. destruct i as [n|u]; cbn; [apply dns_name_undotted|reflexivity]. Qed.
Lemma authority_written a : dns_name (na_name a) -> authority_text a (as_http_authority a).
Proof.
  intros D. unfold authority_text, as_http_authority, name_addr_to_string.
  exists (without_trailing_dot (na_name a)). split; [apply dns_name_undotted; exact D|].
  destruct (N.eqb_spec (na_port a) 80); [left|right]; auto.
Qed.
Lemma itself_written l c a : proper l -> proper c -> dns_name (na_name a) ->
  says_itself l c a (forwarded_value l c (as_http_authority a)).
Proof.
  intros L C A. exists (id_display l), (id_display c), (as_http_authority a).
  split; [apply id_written_display; exact L|]. split; [apply id_written_display; exact C|].
  split; [apply authority_written; exact A|reflexivity].
Qed.

(** Readable texts *)
Lemma readable_app a b : readable (a ++ b) <-> readable a /\ readable b.
Proof. apply Forall_app. Qed.
Lemma readable_label l : label l -> readable l.
Proof.
  intros (_ & _ & H & _). apply Forall_forall. intros b B. apply H in B.
  unfold letter, digit, hyphen, underscore in B. lia.
Qed.
Lemma readable_dotted ls : Forall label ls -> readable (dotted ls).
Proof.
  unfold dotted. induction ls as [|l ls IH]; intros F; [constructor|]. inversion F as [|? ? A B]; subst.
  destruct ls as [|m ls]; [exact (readable_label l A)|]. rewrite join_cons. apply readable_app.
  split; [exact (readable_label l A)|]. constructor; [unfold dot; lia|]. exact (IH B).
Qed.
Lemma readable_dns n : dns_name n -> readable n.
Proof.
  intros (_ & ls & l & A & B & _ & H). assert (R : readable (dotted (ls ++ [l]))).
  { apply readable_dotted. apply Forall_app. split; [exact A|]. constructor; [exact B|constructor]. }
  destruct H as [->| ->]; [exact R|]. apply readable_app. split; [exact R|]. constructor; [unfold dot; lia|constructor].
Qed.
Lemma trim_prefix c n : exists r, n = trim_end c n ++ r.
Proof.
  unfold trim_end. assert (H : forall s, exists r, s = r ++ drop_while_eq c s).
  { induction s as [|x s [r IH]]; [exists []; reflexivity|]. cbn [drop_while_eq].
    destruct (x =? c); [exists (x :: r); cbn; f_equal; exact IH|exists []; reflexivity]. }
  destruct (H (rev n)) as [r E]. exists (rev r).
  rewrite <- rev_app_distr, <- E. symmetry. apply rev_involutive.
Qed.
Lemma readable_undot n : readable n -> readable (without_trailing_dot n).
Proof.
  intros R. destruct (trim_prefix 46 n) as [r E]. unfold without_trailing_dot. rewrite E in R. apply readable_app in R. tauto.
Qed.
Lemma readable_display i : readable (id_text i) -> readable (id_display i).
Proof. destruct i; cbn; [apply readable_undot|auto]. Qed.
Lemma readable_dec n : readable (to_dec n).
Proof.
  apply Forall_forall. intros b B. pose proof (to_dec_digits n) as D. rewrite forallb_forall in D. apply D in B.
  unfold is_digit in B. lia.
Qed.
Lemma readable_authority a : dns_name (na_name a) -> readable (as_http_authority a).
Proof.
  intros D. unfold as_http_authority, name_addr_to_string. apply readable_dns in D. apply readable_undot in D.
  destruct (na_port a =? 80); [exact D|]. apply readable_app. split; [exact D|].
  apply readable_app. split; [constructor; [lia|constructor]|apply readable_dec].
Qed.
Lemma readable_fwd l c h : readable (id_text l) -> readable (id_text c) -> readable h -> readable (forwarded_value l c h).
Proof.
  intros L C H. unfold forwarded_value. apply readable_display in L. apply readable_display in C.
  assert (K : forall s, forallb (fun b => (32 <=? b) && (b <=? 126)) (bs s) = true -> readable (bs s)).
  { intros s F. apply Forall_forall. intros b B. rewrite forallb_forall in F. apply F in B. lia. }
  repeat (apply readable_app; split); auto; apply K; reflexivity.
Qed.
Lemma readable_ok v : readable v -> header_value_ok v = true.
Proof.
  intros R. unfold header_value_ok. apply forallb_forall. intros b B. unfold readable in R. rewrite Forall_forall in R.
  apply R in B. lia.
Qed.
Lemma readable_text v : readable v -> ConnectSpec.text v.
Proof. apply Forall_impl. intros b. lia. Qed.
Lemma proper_readable i : proper i -> readable (id_text i).
Proof. destruct i; cbn; [apply readable_dns|auto]. Qed.

Lemma not_panicked l c a v hs : readable (id_text l) -> readable (id_text c) -> dns_name (na_name a) ->
  http_gateway l c a v hs <> Panicked.
Proof.
  intros L C A. unfold http_gateway. destruct (ConnectModel.id_eqb c l); [discriminate|].
  unfold gateway_call. destruct (seen_before l hs); [discriminate|].
  apply readable_authority in A. rewrite (readable_ok _ (readable_fwd l c _ L C A)), (readable_ok _ A). cbn [negb].
  destruct v; discriminate.
Qed.

(** What a passed request carries *)
Lemma passed_inv l c a v hs hs' : http_gateway l c a v hs = Passed hs' ->
  c <> l /\ ~ went_through l hs /\
  hs' = (let h := hm_append hs FORWARDED (forwarded_value l c (as_http_authority a)) in
         match v with Http1Model.Http_10 | Http1Model.Http_11 => hm_insert h HOST (as_http_authority a) | _ => h end).
Proof.
  intros H. assert (N : ~ (c = l \/ went_through l hs)) by (rewrite <- (loop_iff l c a v); congruence).
  split; [tauto|]. split; [tauto|]. revert H. unfold http_gateway.
  destruct (ConnectModel.id_eqb c l); [discriminate|]. unfold gateway_call.
  destruct (seen_before l hs); [discriminate|]. destruct (negb _); [discriminate|].
  destruct v; try destruct (negb _); try discriminate; intros H; injection H as <-; reflexivity.
Qed.
Lemma in_insert n v hs m w : In (m, w) (hm_insert hs n v) <-> m <> n /\ In (m, w) hs \/ m = n /\ w = v.
Proof.
  unfold hm_insert, hm_remove. rewrite in_app_iff, filter_In. cbn [In fst snd]. split.
  - intros [[H B]|[H|[]]].
    + left. split; [|exact H]. intros ->. rewrite beq_refl in B. discriminate.
    + injection H as -> ->. auto.
  - intros [[N H]|[-> ->]]; [left|right; left; reflexivity]. split; [exact H|].
    destruct (beq m n) eqn:B; [|reflexivity]. apply beq_eq in B. contradiction.
Qed.
Lemma forwarded_kept l c a v hs hs' : http_gateway l c a v hs = Passed hs' ->
  forall w, In (FORWARDED, w) hs' <-> In (FORWARDED, w) hs \/ w = forwarded_value l c (as_http_authority a).
Proof.
  intros H w. apply passed_inv in H as (_ & _ & ->). cbv zeta.
  assert (G : In (FORWARDED, w) (hm_append hs FORWARDED (forwarded_value l c (as_http_authority a))) <->
              In (FORWARDED, w) hs \/ w = forwarded_value l c (as_http_authority a)).
  { unfold hm_append. rewrite in_app_iff. cbn [In]. split; intros [X|X]; auto.
    - destruct X as [X|[]]. injection X as <-. auto.
    - subst w. auto. }
  assert (N : FORWARDED <> HOST) by discriminate.
  destruct v; rewrite ?in_insert, ?G; tauto.
Qed.

Lemma says_itself_by l c h : plain l ->
  says_by (forwarded_value l c h) (id_text l).
Proof.
  intros (R & S & E & D). assert (T : id_display l = id_text l).
  { destruct l as [n|u]; cbn; [|reflexivity]. apply undotted_unique. split; [left; reflexivity|].
    intros r X. exact (D n r eq_refl X). }
  unfold forwarded_value. rewrite T.
  apply fwd_by_iff. unfold fwd_by.
  assert (X : bs "by=" ++ id_text l ++ bs ";for=" ++ id_display c ++ bs ";host=" ++ h ++ bs ";proto=https" =
    (bs "by=" ++ id_text l) ++ 59 :: (bs "for=" ++ id_display c ++ bs ";host=" ++ h ++ bs ";proto=https")).
  { rewrite <- app_assoc. reflexivity. }
  rewrite X, split_app_sep.
  - cbn [fwd_by_in]. rewrite by_eq, split_app_sep by exact by_no_eq. rewrite beq_refl.
    rewrite split_none by exact E. reflexivity.
  - intros H. apply in_app_or in H as [H|H]; [|contradiction]. cbv in H.
    destruct H as [H|[H|[H|[]]]]; discriminate.
Qed.

Lemma stamped_by l c a v hs hs' : plain l -> readable (id_text c) -> dns_name (na_name a) ->
  http_gateway l c a v hs = Passed hs' -> went_through l hs'.
Proof.
  intros L C A H. exists (forwarded_value l c (as_http_authority a)).
  split; [apply (forwarded_kept _ _ _ _ _ _ H); right; reflexivity|].
  split; [|apply says_itself_by; exact L].
  apply readable_text. apply readable_fwd; [apply L|exact C|apply readable_authority; exact A].
Qed.
Lemma went_kept i hs hs' : (forall v, In (bs "forwarded"%string, v) hs -> In (bs "forwarded"%string, v) hs') ->
  went_through i hs -> went_through i hs'.
Proof. intros K (v & H & T & S). exists v. auto. Qed.
Lemma went_text i j hs : id_text i = id_text j -> went_through i hs -> went_through j hs.
Proof. intros E (v & H & T & S). exists v. rewrite <- E. auto. Qed.

Lemma journey_marks gs hs : journey gs hs -> forall g, In g gs -> went_through g hs.
Proof.
  induction 1 as [hs|gs hs hs' J IH K|gs hs g c a v hs' J IH P R D H]; intros x X.
  - destruct X.
  - exact (went_kept _ _ _ K (IH x X)).
  - apply in_app_or in X as [X|[<-|[]]].
    + apply (went_kept _ hs); [|exact (IH x X)]. intros w W. apply (forwarded_kept _ _ _ _ _ _ H). left. exact W.
    + exact (stamped_by _ _ _ _ _ _ P R D H).
Qed.
Lemma journey_once gs hs : journey gs hs -> NoDup (map id_text gs).
Proof.
  induction 1 as [hs|gs hs hs' J IH K|gs hs g c a v hs' J IH P R D H].
  - constructor.
  - exact IH.
  - rewrite map_app. cbn [map]. apply NoDup_rev in IH.
    rewrite <- (rev_involutive (map id_text gs ++ _)). apply NoDup_rev. rewrite rev_app_distr. cbn [rev app].
    constructor; [|exact IH]. intros X. apply in_rev in X. apply in_map_iff in X as (x & E & X).
    apply passed_inv in H as (_ & N & _). apply N. apply (went_text x g _ E). exact (journey_marks _ _ J x X).
Qed.
Lemma journey_bounded gs hs ids : journey gs hs -> incl (map id_text gs) ids -> (length gs <= length ids)%nat.
Proof.
  intros J I. rewrite <- (map_length id_text). apply NoDup_incl_length; [|exact I]. exact (journey_once _ _ J).
Qed.

(** ** Headers *)

Lemma stamped_ok l c a v hs hs' : proper l -> proper c -> dns_name (na_name a) ->
  http_gateway l c a v hs = Passed hs' -> stamped l c a v hs hs'.
Proof.
  intros L C A H n vs vs' V V'. apply FilterProofs.values_get_all in V. apply FilterProofs.values_get_all in V'.
  apply passed_inv in H as (_ & _ & ->). cbv zeta in V'.
  set (f := forwarded_value l c (as_http_authority a)) in *.
  assert (S : says_itself l c a f) by (apply itself_written; assumption).
  assert (U : authority_text a (as_http_authority a)) by (apply authority_written; exact A).
  assert (G : RouteModel.get_all n (hm_append hs FORWARDED f) = vs ++ (if beq FORWARDED n then [f] else [])).
  { unfold hm_append. rewrite FilterProofs.get_all_app, V. f_equal. unfold RouteModel.get_all. cbn [filter fst].
    destruct (beq FORWARDED n); reflexivity. }
  change (bs "forwarded"%string) with FORWARDED. change (bs "host"%string) with HOST.
  assert (G1 : n <> FORWARDED -> RouteModel.get_all n (hm_append hs FORWARDED f) = vs).
  { intros N. rewrite G. destruct (beq FORWARDED n) eqn:B; [apply beq_eq in B; congruence|apply app_nil_r]. }
  assert (G2 : RouteModel.get_all FORWARDED (hm_append hs FORWARDED f) = RouteModel.get_all FORWARDED hs ++ [f]).
  { unfold hm_append. rewrite FilterProofs.get_all_app. reflexivity. }
  assert (NE : HOST <> FORWARDED) by discriminate.
  assert (W : is_http1 v \/ ~ is_http1 v).
  { unfold is_http1. destruct v; try (left; auto; fail); right; intros [E|E]; discriminate. }
  split; [|split].
  - intros ->. exists f. split; [exact S|].
    destruct v; rewrite ?FilterProofs.get_all_insert_other in V' by exact NE; rewrite G2 in V'; congruence.
  - intros -> W'. exists (as_http_authority a). split; [exact U|].
    destruct W' as [->| ->]; rewrite FilterProofs.get_all_insert_same in V'; exact V'.
  - intros N N'. destruct (beq n HOST) eqn:B.
    + apply beq_eq in B. specialize (N' B).
      assert (V2 : vs' = RouteModel.get_all n (hm_append hs FORWARDED f)).
      { destruct v; try exact V'; destruct N'; unfold is_http1; auto. }
      rewrite V2. exact (G1 N).
    + assert (NH : HOST <> n) by (intros <-; rewrite beq_refl in B; discriminate).
      destruct v; rewrite ?FilterProofs.get_all_insert_other in V' by exact NH; rewrite V'; exact (G1 N).
Qed.

(** ** Discovery *)

Lemma serves_iff allow a : dns_name (na_name a) -> suffixes allow ->
  name_match allow (na_name a) = true <-> serves allow a.
Proof. intros D S. exact (name_match_iff allow (na_name a) D S). Qed.

Lemma resolved_ok {P W} allow a (pr : option P + DiscoverModel.error) (po : W + DiscoverModel.error) p s :
  dns_name (na_name a) -> suffixes allow ->
  gateway_resolved allow a pr po = inl (p, s) <->
  serves allow a /\ known pr po p /\
  ((exists w, po = inl w /\ s = DiscoverModel.From_control w) \/
   (exists e, po = inr e /\ s = DiscoverModel.From_profile)).
Proof.
  intros D S. unfold gateway_resolved, known. rewrite <- (serves_iff allow a D S).
  destruct (name_match allow (na_name a)); cbn [negb].
  2:{ split; [discriminate|]. intros (X & _). discriminate. }
  destruct pr as [[q|]|e].
  2,3: split; [discriminate|]; intros (_ & (X & _) & _); discriminate.
  destruct po as [w|e].
  - split.
    + intros E. injection E as -> <-. split; [reflexivity|]. split; [split; [reflexivity|discriminate]|].
      left. exists w. auto.
    + intros (_ & (E & _) & [(w' & F & ->)|(e & F & _)]); [|discriminate]. injection E as ->. injection F as <-. reflexivity.
  - pose proof (DiscoverProofs.not_served_iff e) as NS.
    destruct (_ || _).
    + split.
      * intros E. injection E as -> <-. split; [reflexivity|]. split; [split; [reflexivity|]|].
        -- intros e' F. injection F as <-. apply NS. reflexivity.
        -- right. exists e. auto.
      * intros (_ & (E & _) & [(w' & F & _)|(e' & F & ->)]); [discriminate|]. injection E as ->. reflexivity.
    + split; [discriminate|]. intros (_ & (_ & K) & _). specialize (K e eq_refl). apply NS in K. discriminate.
Qed.
Lemma resolved_invalid {P W} allow a (pr : option P + DiscoverModel.error) (po : W + DiscoverModel.error) :
  dns_name (na_name a) -> suffixes allow ->
  gateway_resolved allow a pr po = inr Domain_invalid <-> ~ serves allow a \/ pr = inl None.
Proof.
  intros D S. unfold gateway_resolved. rewrite <- (serves_iff allow a D S).
  destruct (name_match allow (na_name a)); cbn [negb].
  2:{ split; [intros _; left; discriminate|reflexivity]. }
  destruct pr as [[q|]|e].
  - split; [|intros [X|X]; [destruct X; reflexivity|discriminate]].
    destruct po; [discriminate|]. destruct (_ || _); discriminate.
  - split; [right; reflexivity|reflexivity].
  - split; [discriminate|]. intros [X|X]; [destruct X; reflexivity|discriminate].
Qed.
Lemma resolved_failed {P W} allow a (pr : option P + DiscoverModel.error) (po : W + DiscoverModel.error) e :
  dns_name (na_name a) -> suffixes allow ->
  gateway_resolved allow a pr po = inr (Lookup_failed e) <->
  serves allow a /\ (pr = inr e \/ (exists p, pr = inl (Some p)) /\ po = inr e /\ ~ DiscoverSpec.not_served e).
Proof.
  intros D S. unfold gateway_resolved. rewrite <- (serves_iff allow a D S).
  destruct (name_match allow (na_name a)); cbn [negb].
  2:{ split; [discriminate|]. intros (X & _). discriminate. }
  destruct pr as [[q|]|e'].
  - destruct po as [w|e']; [split; [discriminate|intros (_ & [X|(_ & X & _)]); discriminate]|].
    pose proof (DiscoverProofs.not_served_iff e') as NS. destruct (_ || _).
    + split; [discriminate|]. intros (_ & [X|(_ & X & Y)]); [discriminate|]. injection X as ->.
      destruct Y. apply NS. reflexivity.
    + split.
      * intros E. injection E as ->. split; [reflexivity|]. right. split; [eauto|]. split; [reflexivity|].
        intros X. apply NS in X. discriminate.
      * intros (_ & [X|(_ & X & Y)]); [discriminate|]. injection X as ->. reflexivity.
  - split; [discriminate|]. intros (_ & [X|((p & X) & _)]); discriminate.
  - split.
    + intros E. injection E as ->. auto.
    + intros (_ & [X|((p & X) & _)]); [injection X as ->; reflexivity|discriminate].
Qed.
Lemma asked_only allow a q : dns_name (na_name a) -> suffixes allow -> In q (asked allow a) ->
  serves allow a /\ (q = Ask_profile a \/ q = Ask_policy a).
Proof.
  intros D S. unfold asked. rewrite <- (serves_iff allow a D S).
  destruct (name_match allow (na_name a)); [|intros []]. intros [<-|[<-|[]]]; auto.
Qed.

(** ** Requests *)

Lemma routes_ok p r : mk_routes p = Some r <-> routes_to p r.
Proof.
  unfold mk_routes. split.
  - destruct (p_addr p) as [a|] eqn:A.
    + intros E. injection E as <-. constructor. exact A.
    + destruct (p_end p) as [[a md]|] eqn:E; [|discriminate]. intros F. injection F as <-. constructor; assumption.
  - intros [a A|a md A E]; rewrite A; [reflexivity|]. rewrite E. reflexivity.
Qed.
Lemma spoken_iff v v' : variant_of v = Some v' <-> spoken v v'.
Proof.
  unfold spoken, is_http1. destruct v; cbn [variant_of]; split; intros E; try discriminate;
    repeat match goal with
           | H : Some _ = Some _ |- _ => injection H as <-
           | H : _ \/ _ |- _ => destruct H
           | H : _ /\ _ |- _ => destruct H
           | H : _ = _ |- _ => discriminate H
           end; subst; auto.
Qed.
Lemma request_sent l c a r p v routes v' hs' : http_request l c a r p v = Sent routes v' hs' <->
  exists hs, r = PolicyModel.R_forward hs /\ routes_to p routes /\ spoken v v' /\ http_gateway l c a v hs = Passed hs'.
Proof.
  unfold http_request. split.
  - destruct r as [hs| | | | | | | | |]; try discriminate.
    destruct (mk_routes p) as [x|] eqn:M; [|discriminate]. destruct (variant_of v) as [y|] eqn:V; [|discriminate].
    destruct (http_gateway l c a v hs) as [| |z] eqn:G; try discriminate.
    intros E. injection E as -> -> ->. exists hs. split; [reflexivity|]. split; [apply routes_ok; exact M|].
    split; [apply spoken_iff; exact V|exact G].
  - intros (hs & -> & R & V & G). apply routes_ok in R. apply spoken_iff in V. rewrite R, V, G. reflexivity.
Qed.
Lemma direct_iff tls remote local h n port c proto chk :
  ConnectModel.direct tls remote local h = ConnectModel.Gateway n port c proto chk <->
  asks_for tls h c (NameAddr n port) /\ proto = h_protocol h /\ chk = local.
Proof.
  unfold ConnectModel.direct, ConnectModel.client_info_of, asks_for, ConnectModel.header_negotiated, ConnectModel.switch.
  cbn [na_name na_port]. change ConnectSpec.header_protocol with ConnectModel.PROTOCOL. split.
  - destruct tls as [[[ci|] np|sni]|]; try discriminate.
    cbn [ConnectModel.c_alpn ConnectModel.c_local ConnectModel.c_id]. destruct np as [np|]; [|discriminate].
    destruct (beq np ConnectModel.PROTOCOL) eqn:B; [|discriminate]. apply beq_eq in B. subst np.
    destruct (h_name h) as [m|]; [|destruct (h_protocol h); discriminate].
    intros E. injection E as -> <- -> <- <-. auto.
  - intros ((-> & N & <-) & -> & ->). cbn [ConnectModel.c_alpn ConnectModel.c_local ConnectModel.c_id].
    rewrite beq_refl, N. reflexivity.
Qed.
Lemma switch_some pr : protocol_switch pr <> None <-> pr <> None.
Proof. destruct pr as [[|]|]; cbn; split; congruence. Qed.

Section Through.
Variables (allow : list suffix) (local_id : id) (config : DiscoverModel.config) (policies : sock -> PolicyModel.protocol)
  (get_profile : name_addr -> option profile + DiscoverModel.error)
  (get_policy : name_addr -> DiscoverModel.client_policy + DiscoverModel.error)
  (ip_of : sock -> AuthzModel.ip) (pq_valid : bytes -> bool) (draw : nat -> bool) (limit : bool).
Notation through := (request_through allow local_id policies get_profile get_policy ip_of pq_valid draw limit).
Notation verdict remote local c req u :=
  (fst (PolicyModel.call pq_valid draw (policies local) (ip_of remote)
          (AuthzModel.Established (Some (authz_id c))) req u limit)).

Lemma through_sent tls remote local h req u v r v' hs' :
  suffixes allow -> (forall n, h_name h = Some n -> dns_name n) ->
  through tls remote local h req u v = Sent r v' hs' <->
  exists c a p hs, asks_for tls h c a /\ h_protocol h <> None /\ serves allow a /\
    known (get_profile a) (get_policy a) p /\ verdict remote local c req u = PolicyModel.R_forward hs /\
    routes_to p r /\ spoken v v' /\ http_gateway local_id c a v hs = Passed hs'.
Proof.
  intros S D. unfold request_through. split.
  - destruct (ConnectModel.direct tls remote local h) as [| | | |n port c proto chk] eqn:E; try discriminate.
    apply direct_iff in E as (A & -> & ->). destruct (protocol_switch (h_protocol h)) eqn:PS; [|discriminate].
    assert (P : h_protocol h <> None) by (apply switch_some; congruence). cbv zeta.
    assert (DN : dns_name n) by (apply D; apply A).
    destruct (gateway_resolved allow _ _ _) as [[p s]|e] eqn:G; [|discriminate].
    apply resolved_ok in G as (SV & K & _); [|exact DN|exact S].
    intros H. apply request_sent in H as (hs & R & RT & V & G). exists c, (NameAddr n port), p, hs. auto 10.
  - intros (c & a & p & hs & A & P & SV & K & R & RT & V & G).
    assert (E : ConnectModel.direct tls remote local h = ConnectModel.Gateway (na_name a) (na_port a) c (h_protocol h) local).
    { apply direct_iff. destruct a. auto. }
    rewrite E. apply switch_some in P. destruct (protocol_switch (h_protocol h)); [|contradiction].
    cbv zeta. assert (EA : NameAddr (na_name a) (na_port a) = a) by (destruct a; reflexivity). rewrite EA.
    assert (DN : dns_name (na_name a)) by (apply D; apply A).
    destruct (gateway_resolved allow a (get_profile a) (get_policy a)) as [[q s]|e] eqn:G'.
    + apply resolved_ok in G' as (_ & K' & _); [|exact DN|exact S].
      assert (q = p) by (destruct K as [K _], K' as [K' _]; congruence). subst q.
      apply request_sent. exists hs. auto.
    + exfalso. destruct (get_policy a) as [w|e'] eqn:W.
      * assert (X : gateway_resolved allow a (get_profile a) (inl (A := DiscoverModel.client_policy) w) =
                    inl (p, DiscoverModel.From_control w)).
        { apply resolved_ok; [exact DN|exact S|]. split; [exact SV|]. split; [exact K|]. left. eauto. }
        congruence.
      * assert (X : gateway_resolved allow a (get_profile a) (inr (A := DiscoverModel.client_policy) e') =
                    inl (p, DiscoverModel.From_profile)).
        { apply resolved_ok; [exact DN|exact S|]. split; [exact SV|]. split; [exact K|]. right. eauto. }
        congruence.
Qed.
(** Whether, for whom and where to a request is sent *)
Lemma through_iff tls remote local h req u v r v' :
  suffixes allow -> (forall n, h_name h = Some n -> dns_name n) -> proper local_id ->
  (forall c np, tls = Some (ConnectModel.Established (Some c) np) -> proper c) ->
  (exists hs', through tls remote local h req u v = Sent r v' hs') <->
  exists c a p hs, asks_for tls h c a /\ h_protocol h <> None /\ serves allow a /\
    known (get_profile a) (get_policy a) p /\ verdict remote local c req u = PolicyModel.R_forward hs /\
    routes_to p r /\ spoken v v' /\ c <> local_id /\ ~ went_through local_id hs.
Proof.
  intros S D L C. split.
  - intros (hs' & H). apply through_sent in H as (c & a & p & hs & A & P & SV & K & R & RT & V & G); [|exact S|exact D].
    apply passed_inv in G as (N & W & _). exists c, a, p, hs. auto 12.
  - intros (c & a & p & hs & A & P & SV & K & R & RT & V & N & W).
    destruct (http_gateway local_id c a v hs) as [| |hs'] eqn:G.
    + apply loop_iff in G. tauto.
    + exfalso. revert G. apply not_panicked; [apply proper_readable; exact L| |apply D; apply A].
      apply proper_readable. destruct A as (T & _). exact (C _ _ T).
    + exists hs'. apply through_sent; [exact S|exact D|]. exists c, a, p, hs. auto 12.
Qed.
Lemma through_stamped tls remote local h req u v r v' hs' :
  suffixes allow -> (forall n, h_name h = Some n -> dns_name n) -> proper local_id ->
  (forall c np, tls = Some (ConnectModel.Established (Some c) np) -> proper c) ->
  through tls remote local h req u v = Sent r v' hs' ->
  exists c a hs, asks_for tls h c a /\ verdict remote local c req u = PolicyModel.R_forward hs /\
    stamped local_id c a v hs hs'.
Proof.
  intros S D L C H. apply through_sent in H as (c & a & p & hs & A & P & SV & K & R & RT & V & G); [|exact S|exact D].
  exists c, a, hs. split; [exact A|]. split; [exact R|]. apply stamped_ok; [exact L| |apply D; apply A|exact G].
  destruct A as (T & _). exact (C _ _ T).
Qed.
Lemma through_never_crashes tls remote local h req u v :
  (forall n, h_name h = Some n -> dns_name n) -> proper local_id ->
  (forall c np, tls = Some (ConnectModel.Established (Some c) np) -> proper c) ->
  through tls remote local h req u v <> Crashed.
Proof.
  intros D L C. unfold request_through.
  destruct (ConnectModel.direct tls remote local h) as [| | | |n port c proto chk] eqn:E; try discriminate.
  apply direct_iff in E as (A & -> & ->). destruct (protocol_switch _); [|discriminate]. cbv zeta.
  destruct (gateway_resolved allow _ _ _) as [[p s]|e]; [|discriminate].
  unfold http_request. destruct (verdict remote local c req u); try discriminate.
  destruct (mk_routes p); [|discriminate]. destruct (variant_of v); [|discriminate].
  destruct (http_gateway local_id c (NameAddr n port) v hs) eqn:G; try discriminate.
  exfalso. revert G. apply not_panicked; [apply proper_readable; exact L| |apply D; apply A].
  apply proper_readable. destruct A as (T & _). exact (C _ _ T).
Qed.

(** ** Opaque connections *)

Notation opaque := (connection_through allow config policies get_profile get_policy ip_of).
Notation authorized remote local c :=
  (PolicyModel.check_authorized (policies local) (ip_of remote) (AuthzModel.Established (Some (authz_id c))) <> None).

Lemma leads a p policy s :
  (exists w, policy = inl w /\ s = DiscoverModel.From_control w) \/ (exists e, policy = inr e /\ s = DiscoverModel.From_profile) ->
  opaque_leads a p policy (DiscoverModel.routes_from_discovery (Name a) (Some p) (policy_of config p s)).
Proof.
  intros S. unfold DiscoverModel.routes_from_discovery.
  set (rest := fun pa : option name_addr => match DiscoverModel.routes_from_policy (Name a) (policy_of config p s) with
     | Some r => DiscoverModel.By_policy r (DiscoverModel.routes_from_policy (Name a))
     | None => DiscoverModel.Panics end).
  assert (R : ~ DiscoverSpec.splits p -> forall pa, opaque_leads a p policy (rest pa)).
  { intros NS pa. unfold rest. clear rest. destruct S as [(w & -> & ->)|(e & -> & ->)]; cbn [policy_of].
    - destruct (DiscoverModel.routes_from_policy (Name a) w) as [r|] eqn:E.
      + assert (O : exists x, opaque_part w x /\ at_address a w x r).
        { unfold DiscoverModel.routes_from_policy in E. unfold opaque_part, at_address.
          destruct (DiscoverModel.cp_protocol w) eqn:C; try discriminate; injection E as <-; eexists; split;
            [right; do 3 eexists; reflexivity|reflexivity|left; reflexivity|reflexivity]. }
        destruct O as (x & O & AT). apply (Leads_policy a p _ w x); auto.
        * intros q. exact (proj2 (DiscoverProofs.no_opaque (Name a) q)).
        * intros q y Q. eexists. split; [exact (DiscoverProofs.routes_from_policy_iff (Name a) q y Q)|reflexivity].
      + apply (Leads_to_panic a p _ w); auto. exact (proj1 (DiscoverProofs.no_opaque (Name a) w) E).
    - unfold gateway_synthesis. destruct (p_end p) as [[s md]|] eqn:PE.
      + cbn -[DiscoverSpec.leads_to]. eapply (Leads_endpoint a p _ e s md); auto; try reflexivity.
        split; [reflexivity|]. split; [reflexivity|]. eexists. split; reflexivity.
      + cbn. eapply (Leads_nowhere a p _ e); auto; reflexivity. }
  destruct (p_addr p) as [n|] eqn:PA.
  - unfold DiscoverModel.has_targets. destruct (p_targets p) as [|t ts] eqn:T.
    + apply (R (fun '(conj _ X) => X T) (Some n)).
    + apply (Leads_split a p policy n); auto.
      * split; congruence.
      * apply DiscoverProofs.split_targets.
      * intros q. eexists. split; [reflexivity|apply DiscoverProofs.split_targets].
  - apply (R (fun '(conj X _) => X PA) None).
Qed.
Lemma connection_follows tls remote local h f :
  suffixes allow -> (forall n, h_name h = Some n -> dns_name n) ->
  opaque tls remote local h = O_follows f ->
  exists c a p, asks_for tls h c a /\ h_protocol h = None /\ serves allow a /\
    known (get_profile a) (get_policy a) p /\ authorized remote local c /\ opaque_leads a p (get_policy a) f.
Proof.
  intros S D. unfold connection_through.
  destruct (ConnectModel.direct tls remote local h) as [| | | |n port c proto chk] eqn:E; try discriminate.
  apply direct_iff in E as (A & -> & ->). destruct (protocol_switch (h_protocol h)) eqn:PS; [discriminate|].
  assert (P : h_protocol h = None) by (destruct (h_protocol h) as [[|]|]; [discriminate|discriminate|reflexivity]).
  cbv zeta. assert (DN : dns_name n) by (apply D; apply A).
  destruct (gateway_resolved allow _ _ _) as [[p s]|e] eqn:G; [|discriminate].
  apply resolved_ok in G as (SV & K & SS); [|exact DN|exact S].
  destruct (PolicyModel.check_authorized _ _ _) eqn:AU; [|discriminate].
  intros H. injection H as <-. exists c, (NameAddr n port), p.
  split; [exact A|]. split; [exact P|]. split; [exact SV|]. split; [exact K|].
  split; [congruence|]. apply leads. exact SS.
Qed.
Lemma connection_iff tls remote local h :
  suffixes allow -> (forall n, h_name h = Some n -> dns_name n) ->
  (exists f, opaque tls remote local h = O_follows f) <->
  exists c a p, asks_for tls h c a /\ h_protocol h = None /\ serves allow a /\
    known (get_profile a) (get_policy a) p /\ authorized remote local c.
Proof.
  intros S D. split.
  - intros (f & H). apply connection_follows in H as (c & a & p & H); [|exact S|exact D]. exists c, a, p. tauto.
  - intros (c & a & p & A & P & SV & K & AU).
    assert (DN : dns_name (na_name a)) by (apply D; apply A).
    assert (E : ConnectModel.direct tls remote local h = ConnectModel.Gateway (na_name a) (na_port a) c (h_protocol h) local).
    { apply direct_iff. destruct a. auto. }
    unfold connection_through. rewrite E, P. cbn [protocol_switch]. cbv zeta.
    assert (EA : NameAddr (na_name a) (na_port a) = a) by (destruct a; reflexivity). rewrite EA.
    assert (G : exists s, gateway_resolved allow a (get_profile a) (get_policy a) = inl (p, s)).
    { destruct (get_policy a) as [w|e] eqn:W.
      - eexists. apply resolved_ok; [exact DN|exact S|]. split; [exact SV|]. split; [exact K|]. left. eauto.
      - eexists. apply resolved_ok; [exact DN|exact S|]. split; [exact SV|]. split; [exact K|]. right. eauto. }
    destruct G as (s & ->). destruct (PolicyModel.check_authorized _ _ _); [|contradiction]. eexists. reflexivity.
Qed.
End Through.

(** HTTP requests are not routed by the policies of the control plane. *)
Lemma policy_unused allow l policies gp pol pol' ip pq dr lim tls remote local h req u v :
  (forall a, (exists w, pol a = inl w) /\ exists w, pol' a = inl w) ->
  request_through allow l policies gp pol ip pq dr lim tls remote local h req u v =
  request_through allow l policies gp pol' ip pq dr lim tls remote local h req u v.
Proof.
  intros E. unfold request_through. destruct (ConnectModel.direct tls remote local h) as [| | | |n port c proto chk]; try reflexivity.
  destruct (protocol_switch proto); [|reflexivity]. cbv zeta. destruct (E (NameAddr n port)) as ((w & ->) & (w' & ->)).
  unfold gateway_resolved. destruct (negb _); [reflexivity|].
  destruct (gp _) as [[p|]|e]; reflexivity.
Qed.
(** Routes follow the profile. *)
Lemma routes_follow p init es r :
  routes_to p init -> ~ In DiscoverModel.Dropped es -> routes_to (DiscoverSpec.holds p es) r ->
  DiscoverModel.f_value (DiscoverModel.follow mk_routes p init (es ++ [DiscoverModel.Polled])) = r.
Proof. intros I D R. apply DiscoverProofs.follows; [apply routes_ok; exact I|exact D|apply routes_ok; exact R]. Qed.

Lemma synthesis_to c p s md : p_end p = Some (s, md) ->
  DiscoverSpec.all_to (gateway_synthesis c p) (DiscoverModel.c_timeout c) (DiscoverModel.Forward s md).
Proof.
  intros E. unfold gateway_synthesis. rewrite E.
  exact (DiscoverProofs.for_backend _ _ (DiscoverModel.Backend _ _ (DiscoverModel.Forward s md))).
Qed.
Lemma synthesis_none c p : p_end p = None -> all_fails (gateway_synthesis c p).
Proof.
  intros E. unfold gateway_synthesis. rewrite E. unfold all_fails, invalid. cbn [DiscoverModel.cp_protocol DiscoverModel.cp_backends].
  do 4 eexists. split; [reflexivity|]. split; [split; reflexivity|]. split; [reflexivity|]. cbn [fst].
  split; intros req; destruct (DiscoverProofs.any_found (DiscoverModel.RoutePolicy (DiscoverModel.Default_meta (bs "invalid"%string))
    [INTERNAL_ERROR] 0 DiscoverModel.Empty) req) as [x X]; eexists _, _; (split; [exact X|split; reflexivity]).
Qed.

Lemma known_as c ids sfx : AuthzSpec.meets (AuthzModel.Tls_authenticated ids sfx) (AuthzModel.Established (Some (authz_id c))) <->
  match c with
  | Dns name => In name ids \/ exists s before, In s sfx /\ name = before ++ s
  | Uri uri => In uri ids
  end.
Proof.
  cbn. split; [intros (i & [= <-] & H); destruct c; exact H|]. intros H. eexists. split; [reflexivity|]. destruct c; exact H.
Qed.
