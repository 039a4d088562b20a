From Coq Require Import String List Arith NArith ZArith QArith Bool Lia ZifyBool ZifyN.
From Verif Require Import Bytes BytesProofs NameModel EndpointModel EndpointSpec EndpointProofs ClassifyModel RegexModel ProfileModel ProfileSpec RegexProofs.
From Verif Require DistributeModel DistributeProofs.
Import ListNotations.
Open Scope N_scope.

(** ** Lists *)

Lemma every_in l : every l <-> forall p, In p l -> p.
Proof.
  induction l as [|a l IH].
  - split; [intros _ p []|intros _; exact I].
  - change (every (a :: l)) with (a /\ every l). rewrite IH. split.
    + intros [A B] p [<-|J]; [exact A|exact (B p J)].
    + intro H; split; [apply H; left; reflexivity|intros p J; apply H; right; exact J].
Qed.
Lemma some_in l : some l <-> exists p, In p l /\ p.
Proof.
  induction l as [|a l IH].
  - split; [intros []|intros (p & [] & _)].
  - change (some (a :: l)) with (a \/ some l). rewrite IH. split.
    + intros [A|(p & J & P)]; [exists a; split; [left; reflexivity|exact A]|exists p; split; [right; exact J|exact P]].
    + intros (p & [<-|J] & P); [left; exact P|right; exists p; split; trivial].
Qed.
Lemma every_map {A} (P : A -> Prop) l : every (map P l) <-> forall x, In x l -> P x.
Proof.
  rewrite every_in. split.
  - intros H x I. apply H. apply in_map. exact I.
  - intros H p I. apply in_map_iff in I. destruct I as (x & <- & I). auto.
Qed.
Lemma some_map {A} (P : A -> Prop) l : some (map P l) <-> exists x, In x l /\ P x.
Proof.
  rewrite some_in. split.
  - intros (p & I & Q). apply in_map_iff in I. destruct I as (x & <- & I). eauto.
  - intros (x & I & Q). exists (P x). split; [apply in_map; exact I|exact Q].
Qed.

Lemma filter_map_in {A B} (f : A -> option B) l y : In y (filter_map f l) <-> exists x, In x l /\ f x = Some y.
Proof.
  induction l as [|a l IH]; cbn.
  - split; [intros []|intros (x & [] & _)].
  - destruct (f a) eqn:E; cbn; rewrite ?IH.
    + split.
      * intros [<-|(x & I & F)]; [exists a|exists x]; split; auto.
      * intros (x & [<-|I] & F); [left; congruence|right; eauto].
    + split.
      * intros (x & I & F). exists x; split; auto.
      * intros (x & [<-|I] & F); [congruence|eauto].
Qed.
Lemma filter_map_kept {A B} (f : A -> option B) (R : A -> B -> Prop) l : (forall a b, f a = Some b <-> R a b) -> kept R l (filter_map f l).
Proof.
  intro H. induction l as [|a l IH]; cbn; [constructor|].
  destruct (f a) eqn:E.
  - constructor; [apply H; exact E|exact IH].
  - constructor; [|exact IH]. intros b Q. apply H in Q. congruence.
Qed.

Lemma first_skip {A} (P : A -> Prop) a l x : ~ P a -> (first_that P (a :: l) x <-> first_that P l x).
Proof.
  intro N. split.
  - intros (u & v & E & Q & F). destruct u as [|y u]; cbn in E; inversion E; subst; [contradiction|].
    exists u, v. repeat split; trivial. intros z I. apply F. right. exact I.
  - intros (u & v & -> & Q & F). exists (a :: u), v. repeat split; trivial. intros z [<-|I]; auto.
Qed.
Lemma first_here {A} (P : A -> Prop) a l x : P a -> (first_that P (a :: l) x <-> x = a).
Proof.
  intro Y. split.
  - intros (u & v & E & Q & F). destruct u as [|y u]; cbn in E; inversion E; subst; [reflexivity|].
    exfalso. apply (F y); [left; reflexivity|exact Y].
  - intros ->. exists [], l. repeat split; trivial. intros z [].
Qed.
Lemma first_nil {A} (P : A -> Prop) x : ~ first_that P [] x.
Proof. intros (u & v & E & _). destruct u; discriminate. Qed.

(** ** White space *)

Lemma drop_spaces_spec s : exists a, s = a ++ drop_spaces s /\ (forall c, In c a -> is_space c = true) /\
  (forall c r, drop_spaces s = c :: r -> is_space c = false).
Proof.
  induction s as [|c s (a & E & A & B)]; cbn [drop_spaces].
  - exists []. repeat split; [intros c []|discriminate].
  - destruct (is_space c) eqn:Sp.
    + exists (c :: a). repeat split; [cbn; f_equal; exact E|intros x [<-|I]; auto|exact B].
    + exists []. repeat split; [intros x []|]. intros x r H. inversion H; subst. exact Sp.
Qed.
Lemma drop_spaces_app a s : (forall c, In c a -> is_space c = true) -> (forall c r, s = c :: r -> is_space c = false) -> drop_spaces (a ++ s) = s.
Proof.
  intros A B. induction a as [|c a IH]; cbn.
  - destruct s as [|c s]; trivial. cbn. rewrite (B c s eq_refl). reflexivity.
  - rewrite (A c (or_introl eq_refl)). apply IH. intros x I. apply A. right. exact I.
Qed.
Lemma stripped_trim s core : stripped s core <-> core = trim s.
Proof.
  split.
  - intros (a & b & -> & A & B & F & L). unfold trim.
    destruct core as [|x core].
    + cbn [app]. assert (E : drop_spaces (a ++ b) = []).
      { clear F L. induction a as [|c a IH]; cbn.
        - induction b as [|c b IH]; trivial. cbn. rewrite (B c (or_introl eq_refl)). apply IH. intros y I. apply B. right. exact I.
        - rewrite (A c (or_introl eq_refl)). apply IH. intros y I. apply A. right. exact I. }
      rewrite E. reflexivity.
    + rewrite drop_spaces_app; trivial.
      * rewrite rev_app_distr, drop_spaces_app.
        -- symmetry. apply rev_involutive.
        -- intros c I. apply B. apply in_rev. exact I.
        -- intros c r E. apply (L c (rev r)). rewrite <- (rev_involutive (x :: core)), E. reflexivity.
      * intros c r E. inversion E; subst. exact (F c core eq_refl).
  - intros ->. unfold trim. destruct (drop_spaces_spec s) as (a & E & A & F).
    destruct (drop_spaces_spec (rev (drop_spaces s))) as (b & E' & B & L).
    exists a, (rev b).
    assert (E2 : drop_spaces s = rev (drop_spaces (rev (drop_spaces s))) ++ rev b).
    { rewrite <- rev_app_distr, <- E'. symmetry. apply rev_involutive. }
    repeat split; trivial.
    + rewrite <- E2. exact E.
    + intros c I. apply B. apply in_rev. exact I.
    + intros c r Q. rewrite Q in E2. apply (F c (r ++ rev b)). rewrite E2. reflexivity.
    + intros c r Q. apply (L c (rev r)). rewrite <- (rev_involutive (drop_spaces _)), Q, rev_app_distr. reflexivity.
Qed.

Lemma starts94 s : starts_with [94] s = true <-> exists r, s = [94] ++ r.
Proof. apply starts_with_iff. Qed.
Lemma ends36 s : ends_with [36] s = true <-> exists r, s = r ++ [36].
Proof. apply ends_with_iff. Qed.

Lemma anchored_parts regex : anchored regex =
  (if starts_with [94] (trim regex) then [] else [94]) ++ trim regex ++ (if ends_with [36] (trim regex) then [] else [36]).
Proof.
  unfold anchored. destruct (starts_with [94] (trim regex)) eqn:A, (ends_with [36] (trim regex)) eqn:B; trivial.
  rewrite app_nil_r. reflexivity.
Qed.
Lemma pattern_iff regex t : pattern regex t <-> t = anchored regex.
Proof.
  rewrite anchored_parts. split.
  - intros (core & h & l & S & -> & H & L). apply stripped_trim in S. subst core.
    destruct (starts_with [94] (trim regex)) eqn:A; destruct (ends_with [36] (trim regex)) eqn:B;
      pose proof (starts94 (trim regex)) as SA; pose proof (ends36 (trim regex)) as SB; rewrite A in SA; rewrite B in SB;
      destruct H as [[-> X]|[-> X]]; destruct L as [[-> Y]|[-> Y]]; trivial; exfalso; intuition congruence.
  - intros ->. exists (trim regex), (if starts_with [94] (trim regex) then [] else [94]), (if ends_with [36] (trim regex) then [] else [36]).
    split; [apply stripped_trim; reflexivity|]. split; [reflexivity|]. split.
    + destruct (starts_with [94] (trim regex)) eqn:A; [left|right]; (split; [reflexivity|]); rewrite <- starts94; congruence.
    + destruct (ends_with [36] (trim regex)) eqn:A; [left|right]; (split; [reflexivity|]); rewrite <- ends36; congruence.
Qed.

(** ** Conditions on requests *)

Section Req.
Variable P : pb_req -> Prop.
Hypothesis P0 : P Q_unset.
Hypothesis P1 : forall ms, (forall m, In m ms -> P m) -> P (Q_all ms).
Hypothesis P2 : forall ms, (forall m, In m ms -> P m) -> P (Q_any ms).
Hypothesis P3 : forall m, P m -> P (Q_not m).
Hypothesis P4 : forall r, P (Q_path r).
Hypothesis P5 : forall t, P (Q_method t).
Fixpoint req_ind (c : pb_req) : P c :=
  let all := fix all (ms : list pb_req) : forall m, In m ms -> P m :=
    match ms with
    | [] => fun m J => False_ind (P m) J
    | x :: ms => fun m J => match J with or_introl E => eq_ind x P (req_ind x) m E | or_intror K => all ms m K end
    end in
  match c with
  | Q_unset => P0
  | Q_all ms => P1 ms (all ms)
  | Q_any ms => P2 ms (all ms)
  | Q_not m => P3 m (req_ind m)
  | Q_path r => P4 r
  | Q_method t => P5 t
  end.
End Req.

Section Conv.
Variable method_of : pb_method -> option bytes.
Variable re_ok : bytes -> bool.
Variable re_match : bytes -> bytes -> bool.
Notation conv := (convert_req_match method_of re_ok).
Notation usable := (usable method_of re_ok).
Notation holds := (holds method_of re_ok re_match).

Lemma usable_iff c : usable c <-> exists m, conv c = Some m.
Proof.
  induction c using req_ind; cbn [ProfileSpec.usable convert_req_match].
  - split; [intros []|intros [m H]; discriminate].
  - split; [intros _; eauto|trivial].
  - split; [intros _; eauto|trivial].
  - rewrite IHc. split; intros [m H]; destruct (conv c); eauto; discriminate.
  - split.
    + intros (t & Q & O). apply pattern_iff in Q. subst t. rewrite O. eauto.
    + intros [m H]. destruct (re_ok (anchored r)) eqn:O; [|discriminate]. exists (anchored r). split; [apply pattern_iff; reflexivity|exact O].
  - split.
    + intros (m & n & -> & E). rewrite E. eauto.
    + intros [x H]. destruct t as [m|]; [|discriminate]. destruct (method_of m) eqn:E; [|discriminate]. eauto.
Qed.

Lemma conv_holds c : forall m q, conv c = Some m -> (req_is_match re_match m q = true <-> holds c q).
Proof.
  induction c using req_ind; intros x q E; cbn [ProfileSpec.holds convert_req_match] in *.
  - discriminate.
  - inversion E; subst. cbn [req_is_match]. rewrite forallb_forall, every_map. split.
    + intros F m I U. apply usable_iff in U. destruct U as [m' U]. apply (H m I m' q U). apply F. apply filter_map_in. eauto.
    + intros F y I. apply filter_map_in in I. destruct I as (m & I & U). apply (H m I y q U). apply F; trivial. apply usable_iff. eauto.
  - inversion E; subst. cbn [req_is_match]. rewrite existsb_exists, some_map. split.
    + intros (y & I & M). apply filter_map_in in I. destruct I as (m & I & U). exists m. repeat split; trivial; [apply usable_iff; eauto|apply (H m I y q U); exact M].
    + intros (m & I & U & Ho). apply usable_iff in U. destruct U as [y U]. exists y. split; [apply filter_map_in; eauto|apply (H m I y q U); exact Ho].
  - destruct (conv c) as [y|] eqn:C; [|discriminate]. inversion E; subst. cbn [req_is_match].
    rewrite negb_true_iff. specialize (IHc y q eq_refl). destruct (req_is_match re_match y q).
    + split; [discriminate|]. intro N. exfalso. apply N. apply IHc. reflexivity.
    + split; [|reflexivity]. intros _ Ho. apply IHc in Ho. discriminate.
  - destruct (re_ok (anchored r)); [|discriminate]. inversion E; subst. cbn [req_is_match]. split.
    + intro M. exists (anchored r). split; [apply pattern_iff; reflexivity|exact M].
    + intros (t & T & M). apply pattern_iff in T. subst t. exact M.
  - destruct t as [m|]; [|discriminate]. destruct (method_of m) as [n|] eqn:M; [|discriminate]. inversion E; subst. cbn [req_is_match].
    rewrite beq_eq. split.
    + intros <-. exists m. split; trivial.
    + intros (m' & Q & R). inversion Q; subst. congruence.
Qed.

Theorem plain_meaning : forall c q, sound method_of re_ok c -> usable c /\ (holds c q <-> says method_of re_ok re_match c q).
Proof.
  induction c using req_ind; intros q S; cbn [ProfileSpec.usable ProfileSpec.holds sound says] in *.
  - contradiction.
  - split; trivial. rewrite every_map in S. rewrite !every_map. split.
    + intros F m I. destruct (H m I q (S m I)) as [U E]. apply E. auto.
    + intros F m I _. destruct (H m I q (S m I)) as [U E]. apply E. auto.
  - split; trivial. rewrite every_map in S. rewrite !some_map. split.
    + intros (m & I & U & Ho). exists m. split; trivial. apply (H m I q (S m I)). exact Ho.
    + intros (m & I & Ho). exists m. destruct (H m I q (S m I)) as [U E]. repeat split; trivial. apply E. exact Ho.
  - destruct (IHc q S) as [U E]. split; trivial. rewrite E. tauto.
  - split; trivial. tauto.
  - split; trivial. tauto.
Qed.

(** ** Routes *)

Lemma applies_iff q o : applies method_of re_ok re_match q o <->
  exists c m, pr_condition o = Some c /\ conv c = Some m /\ req_is_match re_match m q = true.
Proof.
  split.
  - intros (c & E & U & Ho). apply usable_iff in U. destruct U as [m U]. exists c, m. repeat split; trivial. apply (conv_holds c m q U). exact Ho.
  - intros (c & m & E & C & M). exists c. repeat split; trivial; [apply usable_iff; eauto|apply (conv_holds c m q C); exact M].
Qed.

Lemma routed {K} (g : route -> K) b dflt q : forall os,
  exists k, route_for_request re_match (map (fun r => (fst r, g (snd r))) (filter_map (fun o => convert_route method_of re_ok o b) os) ++ [(M_default, dflt)]) q = Some k /\
  ((exists o m r, first_that (applies method_of re_ok re_match q) os o /\ convert_route method_of re_ok o b = Some (m, r) /\ k = g r) \/
   ((forall o, In o os -> ~ applies method_of re_ok re_match q o) /\ k = dflt)).
Proof.
  induction os as [|o os IH]; cbn [filter_map map app route_for_request].
  - exists dflt. split; [reflexivity|]. right. split; [intros o []|reflexivity].
  - assert (D : (exists m r, convert_route method_of re_ok o b = Some (m, r) /\ req_is_match re_match m q = true /\ applies method_of re_ok re_match q o) \/
                (~ applies method_of re_ok re_match q o /\ forall m r, convert_route method_of re_ok o b = Some (m, r) -> req_is_match re_match m q = false)).
    { unfold convert_route. destruct (pr_condition o) as [c|] eqn:C.
      - destruct (conv c) as [m|] eqn:M.
        + destruct (req_is_match re_match m q) eqn:Q.
          * left. do 2 eexists. split; [reflexivity|]. split; [exact Q|]. apply applies_iff. eauto.
          * right. split; [|intros m' r' E; inversion E; subst; exact Q]. rewrite applies_iff. intros (c' & m' & E & E' & Q'). congruence.
        + right. split; [|intros; discriminate]. rewrite applies_iff. intros (c' & m' & E & E' & Q'). congruence.
      - right. split; [|intros; discriminate]. rewrite applies_iff. intros (c' & m' & E & E' & Q'). congruence. }
    destruct D as [(m & r & C & Q & A)|[N F]].
    + rewrite C. cbn [map app route_for_request fst snd]. rewrite Q. exists (g r). split; [reflexivity|]. left. exists o, m, r.
      split; [apply first_here; trivial|]. split; trivial.
    + destruct IH as (k & E & R). exists k. split.
      * destruct (convert_route method_of re_ok o b) as [[m r]|] eqn:C; [|exact E]. cbn [map app route_for_request fst snd]. rewrite (F m r eq_refl). exact E.
      * destruct R as [(o' & m & r & T & C & Kk)|[A Kk]].
        -- left. exists o', m, r. repeat split; trivial. apply first_skip; trivial.
        -- right. split; [|exact Kk]. intros x [<-|I]; auto.
Qed.
End Conv.

(** ** Conditions on responses *)

Section Rsp.
Variable P : pb_rsp -> Prop.
Hypothesis P0 : P S_unset.
Hypothesis P1 : forall ms, (forall m, In m ms -> P m) -> P (S_all ms).
Hypothesis P2 : forall ms, (forall m, In m ms -> P m) -> P (S_any ms).
Hypothesis P3 : forall m, P m -> P (S_not m).
Hypothesis P4 : forall a b, P (S_status a b).
Fixpoint rsp_ind (c : pb_rsp) : P c :=
  let all := fix all (ms : list pb_rsp) : forall m, In m ms -> P m :=
    match ms with
    | [] => fun m J => False_ind (P m) J
    | x :: ms => fun m J => match J with or_introl E => eq_ind x P (rsp_ind x) m E | or_intror K => all ms m K end
    end in
  match c with
  | S_unset => P0
  | S_all ms => P1 ms (all ms)
  | S_any ms => P2 ms (all ms)
  | S_not m => P3 m (rsp_ind m)
  | S_status a b => P4 a b
  end.
End Rsp.

Lemma status_iff n m : status_from_u16 n = Some m <-> m = n /\ 100 <= n < 1000.
Proof.
  unfold status_from_u16. destruct ((100 <=? n) && (n <? 1000)) eqn:E.
  - split; [intro H; inversion H; subst; split; [reflexivity|lia]|intros [-> _]; reflexivity].
  - split; [discriminate|lia].
Qed.

Lemma rsp_conv_list ms : (forall m, In m ms -> rsp_usable m <-> exists x, convert_rsp_match m = Some x) ->
  (some (map rsp_usable ms) <-> filter_map convert_rsp_match ms <> []).
Proof.
  intro H. rewrite some_map. split.
  - intros (m & I & U). apply (H m I) in U. destruct U as [x U]. intro E.
    assert (J : In x (filter_map convert_rsp_match ms)) by (apply filter_map_in; eauto). rewrite E in J. exact J.
  - intro N. destruct (filter_map convert_rsp_match ms) as [|x l] eqn:E; [congruence|].
    assert (J : In x (filter_map convert_rsp_match ms)) by (rewrite E; left; reflexivity).
    apply filter_map_in in J. destruct J as (m & I & C). exists m. split; trivial. apply (H m I). eauto.
Qed.

Lemma rsp_usable_iff c : rsp_usable c <-> exists m, convert_rsp_match c = Some m.
Proof.
  induction c using rsp_ind; cbn [rsp_usable convert_rsp_match].
  - split; [intros []|intros [m H]; discriminate].
  - rewrite (rsp_conv_list ms H). destruct (filter_map convert_rsp_match ms); split; [congruence|intros [m E]; discriminate|eauto|discriminate].
  - rewrite (rsp_conv_list ms H). destruct (filter_map convert_rsp_match ms); split; [congruence|intros [m E]; discriminate|eauto|discriminate].
  - rewrite IHc. split; intros [m H]; destruct (convert_rsp_match c); eauto; discriminate.
  - destruct (status_from_u16 (a mod 65536)) as [x|] eqn:A.
    + destruct (status_from_u16 (b mod 65536)) as [y|] eqn:B.
      * apply status_iff in A, B. split; [eauto|intros _; tauto].
      * split; [|intros [m E]; discriminate]. intros [_ R]. assert (status_from_u16 (b mod 65536) = Some (b mod 65536)) by (apply status_iff; auto). congruence.
    + split; [|intros [m E]; discriminate]. intros [R _]. assert (status_from_u16 (a mod 65536) = Some (a mod 65536)) by (apply status_iff; auto). congruence.
Qed.

Lemma rsp_conv_holds c : forall m st, convert_rsp_match c = Some m -> (is_match m st = true <-> rsp_holds c st).
Proof.
  induction c using rsp_ind; intros x st E; cbn [rsp_holds convert_rsp_match] in *.
  - discriminate.
  - assert (E' : x = All (filter_map convert_rsp_match ms)) by (destruct (filter_map convert_rsp_match ms); inversion E; reflexivity). subst x.
    cbn [is_match]. rewrite forallb_forall, every_map. split.
    + intros F m I U. apply rsp_usable_iff in U. destruct U as [m' U]. apply (H m I m' st U). apply F. apply filter_map_in. eauto.
    + intros F y I. apply filter_map_in in I. destruct I as (m & I & U). apply (H m I y st U). apply F; trivial. apply rsp_usable_iff. eauto.
  - assert (E' : x = Any (filter_map convert_rsp_match ms)) by (destruct (filter_map convert_rsp_match ms); inversion E; reflexivity). subst x.
    cbn [is_match]. rewrite existsb_exists, some_map. split.
    + intros (y & I & M). apply filter_map_in in I. destruct I as (m & I & U). exists m. repeat split; trivial; [apply rsp_usable_iff; eauto|apply (H m I y st U); exact M].
    + intros (m & I & U & Ho). apply rsp_usable_iff in U. destruct U as [y U]. exists y. split; [apply filter_map_in; eauto|apply (H m I y st U); exact Ho].
  - destruct (convert_rsp_match c) as [y|] eqn:C; [|discriminate]. inversion E; subst. cbn [is_match].
    rewrite negb_true_iff. specialize (IHc y st eq_refl). destruct (is_match y st).
    + split; [discriminate|]. intro N. exfalso. apply N. apply IHc. reflexivity.
    + split; [|reflexivity]. intros _ Ho. apply IHc in Ho. discriminate.
  - destruct (status_from_u16 (a mod 65536)) as [x1|] eqn:A; [|discriminate].
    destruct (status_from_u16 (b mod 65536)) as [y1|] eqn:B; [|discriminate].
    apply status_iff in A, B. destruct A as [-> A], B as [-> B]. inversion E; subst. cbn [is_match]. rewrite andb_true_iff, !N.leb_le. tauto.
Qed.

Lemma of_class_iff st o : of_class st o <-> exists c, convert_rsp_class o = Some c /\ rc_failure c = pc_failure o /\ is_match (rc_match c) st = true.
Proof.
  unfold of_class, convert_rsp_class. split.
  - intros (c & -> & U & Ho). apply rsp_usable_iff in U. destruct U as [m U]. rewrite U. eexists. split; [reflexivity|].
    split; [reflexivity|]. cbn. apply (rsp_conv_holds c m st U). exact Ho.
  - intros (x & E & F & M). destruct (pc_condition o) as [c|]; [|discriminate]. destruct (convert_rsp_match c) as [m|] eqn:C; [|discriminate].
    inversion E; subst. exists c. repeat split; [apply rsp_usable_iff; eauto|apply (rsp_conv_holds c m st C); exact M].
Qed.

Lemma classes_iff os st fail : match_class (filter_map convert_rsp_class os) st = Some (BreakerModel.Http fail st) <->
  exists o, first_that (of_class st) os o /\ pc_failure o = fail.
Proof.
  unfold match_class. induction os as [|o os IH]; cbn [filter_map find].
  - split; [discriminate|]. intros (x & H & _). exfalso. exact (first_nil _ _ H).
  - destruct (convert_rsp_class o) as [c|] eqn:C.
    + cbn [find]. destruct (is_match (rc_match c) st) eqn:M.
      * assert (O : of_class st o).
        { apply of_class_iff. exists c. repeat split; trivial. unfold convert_rsp_class in C.
          destruct (match pc_condition o with Some c => convert_rsp_match c | None => None end); inversion C; reflexivity. }
        assert (F : rc_failure c = pc_failure o).
        { unfold convert_rsp_class in C. destruct (match pc_condition o with Some c => convert_rsp_match c | None => None end); inversion C; reflexivity. }
        cbn [option_map]. split.
        -- intro H. inversion H; subst. exists o. split; [apply first_here; trivial|congruence].
        -- intros (x & T & E). apply first_here in T; trivial. subst x. rewrite F, E. reflexivity.
      * assert (O : ~ of_class st o) by (rewrite of_class_iff; intros (x & E & _ & M'); congruence).
        rewrite IH. split; intros (x & T & E); exists x; (split; [|exact E]); apply (first_skip _ o os x O); exact T.
    + assert (O : ~ of_class st o) by (rewrite of_class_iff; intros (x & E & _ & M'); congruence).
      rewrite IH. split; intros (x & T & E); exists x; (split; [|exact E]); apply (first_skip _ o os x O); exact T.
Qed.

(** ** Budgets and timeouts *)

Lemma duration_iff d t : to_duration d = Some t <-> nanos d = Z.of_N t.
Proof.
  unfold to_duration, nanos. set (z := (fst d * 1000000000 + snd d)%Z). destruct (z <? 0)%Z eqn:E.
  - split; [discriminate|lia].
  - split; [intro H; inversion H; lia|intro H; f_equal; lia].
Qed.

Theorem budget_iff : forall o b, convert_retry_budget o = Some b <-> budget_of o b.
Proof.
  intros [ratio mn ttl] b. unfold convert_retry_budget, budget_of. cbn [pb_ratio pb_min_retries pb_ttl].
  change (2 ^ 31) with 2147483648.
  destruct (mn <=? 2147483647) eqn:M; cbn [negb].
  2: { split; [discriminate|]. intros (_ & L & _). lia. }
  destruct (ratio_ok ratio) eqn:R; cbn [negb].
  2: { split; [discriminate|]. intros (_ & _ & _ & (q & -> & Q1 & Q2) & _). cbn [ratio_ok] in R. apply Qle_bool_iff in Q1, Q2. rewrite Q1, Q2 in R. discriminate. }
  assert (RR : exists q, ratio = Fin q /\ (0 <= q <= 1000)%Q).
  { destruct ratio as [| |q]; try discriminate. cbn [ratio_ok] in R. apply andb_true_iff in R. destruct R as [R1 R2].
    apply Qle_bool_iff in R1, R2. exists q. split; [reflexivity|]. split; trivial. }
  destruct ttl as [[s n]|].
  2: { split; [discriminate|]. intros ((d & D & _) & _). discriminate. }
  destruct (1000000000 <? n)%Z eqn:N1.
  { split; [discriminate|]. intros ((d & D & _ & (_ & B) & _) & _). inversion D; subst. cbn [snd] in B. lia. }
  destruct ((s <? 0)%Z || (n <? 0)%Z) eqn:N2.
  { split; [discriminate|]. intros ((d & D & A & (A' & _) & _) & _). inversion D; subst. cbn [fst snd] in *. lia. }
  destruct (to_duration (s, n)) as [t|] eqn:T.
  - apply duration_iff in T. destruct ((60000000000 <? t) || (t <? 1000000000)) eqn:O.
    + split; [discriminate|]. intros ((d & D & _ & _ & B & _) & _). inversion D; subst. rewrite T in B. lia.
    + split.
      * intro H. inversion H; subst. cbn. split; [|split; [lia|auto]]. exists (s, n). cbn [fst snd]. repeat split; lia.
      * intros ((d & D & _ & _ & _ & B) & _ & B1 & _ & B2). inversion D; subst. destruct b as [x y z]. cbn in *. f_equal. f_equal; try congruence. lia.
  - split; [discriminate|]. intros ((d & D & _ & _ & _ & B) & _). inversion D; subst.
    assert (to_duration (s, n) = Some (b_ttl b)) by (apply duration_iff; auto). congruence.
Qed.

Lemma route_describes mo ro o bud m r : convert_route mo ro o (match bud with Some b => convert_retry_budget b | None => None end) = Some (m, r) -> describes o bud r.
Proof.
  unfold convert_route. destruct (match pr_condition o with Some c => convert_req_match mo ro c | None => None end); [|discriminate].
  intro H. inversion H; subst. clear H. unfold describes. cbn [r_labels r_classes r_retries r_timeout]. split; [|split; [|split]].
  - intros D k v. rewrite (proj2 (bt_collect_spec _)). apply last_in_nodup. exact D.
  - intros st fail. apply classes_iff.
  - intro b. destruct (pr_retryable o).
    + destruct bud as [x|].
      * rewrite budget_iff. split; [intro B; split; eauto|]. intros [_ (y & E & B)]. inversion E; subst. exact B.
      * split; [discriminate|]. intros [_ (y & E & B)]. discriminate.
    + split; [discriminate|]. intros [E _]. discriminate.
  - intro t. destruct (pr_timeout o) as [d|].
    + rewrite duration_iff. split; [eauto|]. intros (d' & E & Q). inversion E; subst. exact Q.
    + split; [discriminate|]. intros (d' & E & Q). discriminate.
Qed.

Lemma concrete_is a : mk_concrete a = backend_for a.
Proof.
  unfold mk_concrete, backend_for, as_http_authority, name_addr_to_string, without_trailing_dot.
  destruct (na_port a =? 80); [rewrite app_nil_r|]; reflexivity.
Qed.

Lemma params_routes addr routes targets ps : mk_params addr routes targets = Some ps ->
  exists d, pa_routes ps = map (fun r => (fst r, (snd r, d))) routes ++ [(M_default, (default_route, d))] /\ d = goes addr targets.
Proof.
  unfold mk_params. intro H.
  destruct targets as [|t [|t' ts]].
  - inversion H; subst. eexists. split; [reflexivity|]. rewrite concrete_is. reflexivity.
  - cbn in H. inversion H; subst. eexists. split; [reflexivity|]. unfold goes. rewrite <- concrete_is. reflexivity.
  - assert (G : goes addr (t :: t' :: ts) = DistributeModel.Random_available (map (fun t => (mk_concrete (t_addr t), t_weight t)) (t :: t' :: ts)))
      by (unfold goes; f_equal; apply map_ext; intro; rewrite concrete_is; reflexivity).
    rewrite G. clear G.
    destruct (DistributeModel.random_available _) as [d|e] eqn:E; [|discriminate]. inversion H; subst. exists d. split; [reflexivity|].
    unfold DistributeModel.random_available in E. cbn [map length Nat.ltb Nat.leb] in E.
    destruct (DistributeModel.weighted_index _); inversion E. reflexivity.
Qed.

Theorem route_taken : forall mo ro rm url auth proto port addr ps q,
  mk_params addr (p_routes (convert_profile mo ro url auth proto port)) (p_targets (convert_profile mo ro url auth proto port)) = Some ps ->
  exists r d, select rm ps q = Some (r, d) /\
  ((exists o, first_that (applies mo ro rm q) (pp_routes proto) o /\ describes o (pp_budget proto) r) \/
   ((forall o, In o (pp_routes proto) -> ~ applies mo ro rm q o) /\ r = Route [] [] None None)).
Proof.
  intros mo ro rm url auth proto port addr ps q H. apply params_routes in H. destruct H as (d & E & _).
  unfold select. rewrite E. cbn [convert_profile p_routes].
  destruct (routed mo ro rm (fun r => (r, d)) (match pp_budget proto with Some b => convert_retry_budget b | None => None end) (default_route, d) q (pp_routes proto))
    as (k & K & R).
  destruct R as [(o & m & r & F & C & ->)|[A ->]].
  - exists r, d. split; [exact K|]. left. exists o. split; [exact F|]. exact (route_describes _ _ _ _ _ _ C).
  - exists default_route, d. split; [exact K|]. right. split; [exact A|reflexivity].
Qed.

(** ** Destinations *)

Lemma override_iff o t : convert_dst_override o = Some t <-> target_of o t.
Proof.
  unfold convert_dst_override, target_of. destruct (pd_weight o =? 0) eqn:W.
  - split; [discriminate|]. intros [N _]. lia.
  - destruct (name_addr_from_str (pd_authority o)) as [a|e].
    + split.
      * intro H. inversion H; subst. repeat split; trivial. lia.
      * intros (_ & E & Q). inversion E; subst. destruct t; cbn in *; subst. reflexivity.
    + split; [discriminate|]. intros (_ & E & _). discriminate.
Qed.

Theorem targets_kept : forall mo ro url auth proto port,
  kept target_of (pp_overrides proto) (p_targets (convert_profile mo ro url auth proto port)).
Proof. intros. apply filter_map_kept. exact override_iff. Qed.

Theorem goes_there : forall rm addr routes targets ps q r d, mk_params addr routes targets = Some ps ->
  select rm ps q = Some (r, d) -> d = goes addr targets.
Proof.
  intros rm addr routes targets ps q r d H S. apply params_routes in H. destruct H as (d' & E & ->). unfold select in S. rewrite E in S. clear E.
  induction routes as [|[m x] routes IH]; cbn [map app route_for_request fst snd] in S.
  - cbn in S. inversion S; reflexivity.
  - destruct (req_is_match rm m q); [inversion S; reflexivity|exact (IH S)].
Qed.

Lemma total_sum ts : DistributeModel.sum (map snd (map (fun t => (mk_concrete (t_addr t), t_weight t)) ts)) = total ts.
Proof. unfold DistributeModel.sum. induction ts as [|t ts IH]; trivial. cbn [map fold_right total snd]. rewrite IH. reflexivity. Qed.

Lemma kept_weight os ts : kept target_of os ts -> forall t, In t ts -> t_weight t <> 0.
Proof.
  induction 1 as [|o t l l' R K IH|o l l' R K IH]; intros x I; [destruct I| |auto].
  destruct I as [<-|I]; [|auto]. destruct R as (N & _ & E). congruence.
Qed.

Theorem panics_iff : forall mo ro url auth proto port addr,
  let p := convert_profile mo ro url auth proto port in
  mk_params addr (p_routes p) (p_targets p) = None <-> (2 <= List.length (p_targets p))%nat /\ 2 ^ 32 <= total (p_targets p).
Proof.
  intros mo ro url auth proto port addr p.
  pose proof (kept_weight _ _ (targets_kept mo ro url auth proto port)) as W. fold p in W.
  unfold mk_params. destruct (p_targets p) as [|t ts] eqn:T.
  { cbn. split; [discriminate|lia]. }
  rewrite <- T in *. clear T.
  set (keys := map (fun t => (mk_concrete (t_addr t), t_weight t)) (p_targets p)).
  pose proof (DistributeProofs.random_error _ keys) as R. unfold DistributeModel.random_route in R.
  unfold keys in R at 2 3 4. rewrite total_sum, map_length in R.
  assert (Z : total (p_targets p) = 0 -> List.length (p_targets p) = 0%nat).
  { destruct (p_targets p) as [|x l]; [reflexivity|]. cbn [total]. intro E. specialize (W x (or_introl eq_refl)). lia. }
  unfold DistributeModel.u32_max in R. change (2 ^ 32) with 4294967296.
  destruct (DistributeModel.random_available keys) as [d|e].
  - split; [discriminate|]. intros [L G]. exfalso. enough (Some d = None) by discriminate. apply R. split; [exact L|right; lia].
  - split; [|reflexivity]. intros _. destruct (proj1 R eq_refl) as [L [E|G]]; [apply Z in E; lia|split; [exact L|lia]].
Qed.

Theorem overrides_iff : forall mo ro url auth proto port n,
  should_override_policy (convert_profile mo ro url auth proto port) = Some (NameAddr n port) <->
  name_from_str (pp_name proto) = Some n /\
  ((exists o c, In o (pp_routes proto) /\ pr_condition o = Some c /\ usable mo ro c) \/ (exists o t, In o (pp_overrides proto) /\ target_of o t)).
Proof.
  intros mo ro url auth proto port n. unfold should_override_policy, has_routes_or_targets. cbn [convert_profile p_routes p_targets p_addr].
  set (b := match pp_budget proto with Some b => convert_retry_budget b | None => None end).
  assert (A : filter_map (fun orig => convert_route mo ro orig b) (pp_routes proto) <> [] <->
    exists o c, In o (pp_routes proto) /\ pr_condition o = Some c /\ usable mo ro c).
  { split.
    - intro N. destruct (filter_map _ _) as [|x l] eqn:E; [congruence|].
      assert (J : In x (filter_map (fun orig => convert_route mo ro orig b) (pp_routes proto))) by (rewrite E; left; reflexivity).
      apply filter_map_in in J. destruct J as (o & I & C). unfold convert_route in C. destruct (pr_condition o) as [c|] eqn:Q; [|discriminate].
      destruct (convert_req_match mo ro c) as [m|] eqn:M; [|discriminate]. exists o, c. repeat split; trivial. apply usable_iff. eauto.
    - intros (o & c & I & Q & U) E. apply usable_iff in U. destruct U as [m U].
      assert (J : exists x, In x (filter_map (fun orig => convert_route mo ro orig b) (pp_routes proto))).
      { eexists. apply filter_map_in. exists o. split; [exact I|]. unfold convert_route. rewrite Q, U. reflexivity. }
      destruct J as [x J]. rewrite E in J. exact J. }
  assert (B : filter_map convert_dst_override (pp_overrides proto) <> [] <-> exists o t, In o (pp_overrides proto) /\ target_of o t).
  { split.
    - intro N. destruct (filter_map convert_dst_override (pp_overrides proto)) as [|x l] eqn:E; [congruence|].
      assert (J : In x (filter_map convert_dst_override (pp_overrides proto))) by (rewrite E; left; reflexivity).
      apply filter_map_in in J. destruct J as (o & I & C). exists o, x. split; [exact I|apply override_iff; exact C].
    - intros (o & t & I & C) E. apply override_iff in C.
      assert (J : In t (filter_map convert_dst_override (pp_overrides proto))) by (apply filter_map_in; eauto). rewrite E in J. exact J. }
  rewrite <- A, <- B.
  assert (NM : option_map (fun n => NameAddr n port) (name_from_str (pp_name proto)) = Some (NameAddr n port) <-> name_from_str (pp_name proto) = Some n).
  { destruct (name_from_str (pp_name proto)); cbn; split; intro H; inversion H; reflexivity. }
  destruct (filter_map (fun orig => convert_route mo ro orig b) (pp_routes proto)), (filter_map convert_dst_override (pp_overrides proto)).
  - split; [discriminate|]. intros [_ [N|N]]; congruence.
  - rewrite NM. split; [intro H; split; [exact H|right; discriminate]|tauto].
  - rewrite NM. split; [intro H; split; [exact H|left; discriminate]|tauto].
  - rewrite NM. split; [intro H; split; [exact H|left; discriminate]|tauto].
Qed.

(** ** Paths *)

Lemma parse_one t f : reads start t = Some (Reader false f []) -> fst f = [] -> parse t = Some (seq_of (snd f)).
Proof. intros H F. unfold parse. rewrite (state_parse _ _ H). destruct f as [a c]. cbn in F. subst a. reflexivity. Qed.

Lemma parse_some t : parse t <> None -> exists f, reads start t = Some (Reader false f []).
Proof.
  intro N. unfold parse in N. destruct (parse_branches t) eqn:E; [|exfalso; apply N; reflexivity].
  apply parse_state in E. destruct E as (f & E & _). eauto.
Qed.

Lemma den_ends E (p : bytes) : (forall pre mid post, den E pre mid post -> pre = [] /\ post = []) ->
  ((exists a mid post, p = a ++ mid ++ post /\ den E a mid post) <-> den E [] p []).
Proof.
  intro H. split.
  - intros (a & m & b & -> & D). destruct (H _ _ _ D) as [-> ->]. rewrite app_nil_r. exact D.
  - intro D. exists [], p, []. rewrite app_nil_r. split; trivial.
Qed.

Lemma anchored_whole core h l : parse core <> None -> no_bar core -> begins_plain core -> ends_plain core ->
  ((h = [] /\ exists r, core = [94] ++ r) \/ (h = [94] /\ ~ exists r, core = [94] ++ r)) ->
  ((l = [] /\ exists r, core = r ++ [36]) \/ (l = [36] /\ ~ exists r, core = r ++ [36])) ->
  exists E, parse (h ++ core ++ l) = Some E /\ (forall pre mid post, den E pre mid post -> pre = [] /\ post = []) /\
  forall p, den E [] p [] <-> whole core p.
Proof.
  intros P NB BP EP H L. destruct (parse_some _ P) as (f & R). pose proof (no_bar_one _ _ R NB) as F.
  assert (W : forall p, whole core p <-> den (seq_of (snd f)) [] p []).
  { intro p. unfold whole. rewrite (parse_one _ _ R F). split; [intros (e & E & D); inversion E; subst; exact D|eauto]. }
  (* the beginning *)
  assert (B : exists g b, reads start (h ++ core) = Some (Reader false g []) /\ fst g = [] /\ seq_of (snd g) = Seq Bol b /\
    (forall m post, den (seq_of (snd g)) [] m post <-> den (seq_of (snd f)) [] m post) /\ (l = [] -> exists c, snd g = Eol :: c)).
  { assert (LL : l = [] -> exists c, snd f = Eol :: c).
    { intros ->. destruct L as [[_ (r & E)]|[X _]]; [|discriminate]. subst core. destruct (eol_last _ _ R EP) as (g & -> & _). eexists. reflexivity. }
    destruct H as [[-> (r & E)]|[-> N]].
    - subst core. destruct (bol_first _ _ R BP NB) as (b & F' & S). exists f, b. cbn [app]. repeat split; trivial; tauto.
    - destruct (parse_bol _ _ R) as (g & R' & Ld). destruct (lead_one _ _ F Ld) as [G S]. exists g, (seq_of (snd f)).
      cbn [app]. repeat split; trivial.
      + intro D. rewrite S in D. apply den_bol_seq in D. tauto.
      + intro D. rewrite S. apply den_bol_seq. split; trivial.
      + intro X. destruct (LL X) as (c & E). destruct Ld as [(_ & _ & C)|(xs & y & A & _)]; [|rewrite F in A; destruct xs; discriminate].
        rewrite C, E. eexists. reflexivity. }
  destruct B as (g & b & R' & G & S & D & X). rewrite app_assoc.
  destruct L as [[-> Y]|[-> Y]].
  - rewrite app_nil_r. exists (seq_of (snd g)). split; [exact (parse_one _ _ R' G)|]. destruct (X eq_refl) as (c & C). split.
    + intros pre m post Q. split; [rewrite S in Q; apply den_bol_seq in Q; tauto|rewrite C in Q; apply seq_eol in Q; tauto].
    + intro p. rewrite W. apply D.
  - pose proof (parse_eol _ _ R') as R2. exists (seq_of (Eol :: snd g)). split; [exact (parse_one _ _ R2 G)|]. split.
    + intros pre m post Q. apply seq_eol in Q. destruct Q as [-> Q]. rewrite S in Q. apply den_bol_seq in Q. tauto.
    + intro p. rewrite W, seq_eol, D. tauto.
Qed.

Theorem path_whole : forall mo r core q, stripped r core -> parse core <> None -> no_bar core -> begins_plain core -> ends_plain core ->
  usable mo re_ok (Q_path r) /\ (holds mo re_ok re_match (Q_path r) q <-> whole core (q_path q)).
Proof.
  intros mo r core q S P NB BP EP. cbn [usable holds].
  assert (T : pattern r (anchored r)) by (apply pattern_iff; reflexivity).
  pose proof T as T'. destruct T' as (core' & h & l & S' & E & H & L).
  assert (core' = core) by (apply stripped_trim in S, S'; congruence). subst core'.
  destruct (anchored_whole core h l P NB BP EP H L) as (X & PX & EX & WX).
  split.
  - exists (anchored r). split; [exact T|]. unfold re_ok. rewrite E, PX. reflexivity.
  - rewrite <- WX, <- (den_ends X _ EX). rewrite <- (match_iff (anchored r) (q_path q) X) by (rewrite E; exact PX).
    split; [intros (t & Q & M); apply pattern_iff in Q; subst t; exact M|eauto].
Qed.

Theorem path_alternatives : forall mo r a b q, stripped r (a ++ [124] ++ b) -> parse a <> None -> parse b <> None -> no_bar a -> no_bar b ->
  a <> [] -> b <> [] -> (forall s, a <> [94] ++ s) -> (forall s, b <> s ++ [36]) ->
  usable mo re_ok (Q_path r) /\ (holds mo re_ok re_match (Q_path r) q <-> prefix a (q_path q) \/ suffix b (q_path q)).
Proof.
  intros mo r a b q S PA PB NA NB EA EB HA HB. cbn [usable holds].
  assert (T : pattern r (anchored r)) by (apply pattern_iff; reflexivity).
  pose proof T as T'. destruct T' as (core' & h & l & S' & E & H & L).
  assert (core' = a ++ [124] ++ b) by (apply stripped_trim in S, S'; congruence). subst core'.
  assert (h = [94]) as ->.
  { destruct H as [[-> (s & Q)]|[-> _]]; [|reflexivity]. exfalso. destruct a as [|x a]; [congruence|]. inversion Q; subst. exact (HA a eq_refl). }
  assert (l = [36]) as ->.
  { destruct L as [[-> (s & Q)]|[-> _]]; [|reflexivity]. exfalso. destruct b as [|y b _] using rev_ind; [congruence|].
    rewrite !app_assoc in Q. apply app_inj_tail in Q. destruct Q as [_ ->]. exact (HB b eq_refl). }
  destruct (parse_some _ PA) as (f & RA). destruct (parse_some _ PB) as (g & RB).
  pose proof (no_bar_one _ _ RA NA) as FA. pose proof (no_bar_one _ _ RB NB) as FB.
  destruct (parse_bol _ _ RA) as (f' & RA' & Ld). destruct (lead_one _ _ FA Ld) as [FA' SA].
  destruct (parse_bar _ _ _ _ RA' FA' (parse_eol _ _ RB)) as (k & RK & K1 & K2). cbn [add fst snd] in K1, K2. rewrite FB in K1. cbn [app] in K1.
  assert (PX : parse (anchored r) = Some (Or (Seq Bol (seq_of (snd f))) (seq_of (Eol :: snd g)))).
  { rewrite E. replace ([94] ++ (a ++ [124] ++ b) ++ [36]) with ((94 :: a) ++ [124] ++ b ++ [36]) by (cbn [app]; rewrite <- !app_assoc; reflexivity).
    unfold parse. rewrite (state_parse _ _ RK). unfold branches. rewrite K1, K2. cbn [rev app]. rewrite SA. reflexivity. }
  split.
  - exists (anchored r). split; [exact T|]. unfold re_ok. rewrite PX. reflexivity.
  - assert (M : re_match (anchored r) (q_path q) = true <-> prefix a (q_path q) \/ suffix b (q_path q)).
    { rewrite (match_iff _ _ _ PX). unfold prefix, suffix. rewrite (parse_one _ _ RA FA), (parse_one _ _ RB FB). split.
      - intros (u & m & v & Q & D). inversion D; subst.
        + left. match goal with D : den (Seq Bol _) _ _ _ |- _ => apply den_bol_seq in D; destruct D as [-> D0] end. exists (seq_of (snd f)), m, v. split; [reflexivity|]. split; [exact Q|exact D0].
        + right. match goal with D : den (seq_of (Eol :: _)) _ _ _ |- _ => apply seq_eol in D; destruct D as [-> D0] end. rewrite app_nil_r in Q. exists (seq_of (snd g)), u, m. split; [reflexivity|]. split; [exact Q|exact D0].
      - intros [(e & m & v & Q1 & Q & D)|(e & u & m & Q1 & Q & D)]; inversion Q1; subst e.
        + exists [], m, v. split; [exact Q|]. apply Den_left. apply den_bol_seq. split; trivial.
        + exists u, m, []. rewrite app_nil_r. split; [exact Q|]. apply Den_right. apply seq_eol. split; trivial. }
    split; [intros (t & Q & X); apply pattern_iff in Q; subst t; apply M; exact X|intro X; exists (anchored r); split; [exact T|apply M; exact X]].
Qed.

Theorem backends_are : forall addr routes targets ps, mk_params addr routes targets = Some ps ->
  pa_backends ps = match targets with [] => [backend_for addr] | ts => map (fun t => backend_for (t_addr t)) ts end.
Proof.
  intros addr routes targets ps. unfold mk_params. destruct targets as [|t ts].
  - intro H. inversion H; subst. rewrite concrete_is. reflexivity.
  - destruct (DistributeModel.random_available _); [|discriminate]. intro H. inversion H; subst. cbn [pa_backends].
    change (map (fun t => mk_concrete (t_addr t)) (t :: ts) = map (fun t => backend_for (t_addr t)) (t :: ts)). apply map_ext. intro x. apply concrete_is.
Qed.

(** ** Literal texts *)

Lemma escape_reads s : forall l, reads (Reader false ([], l) []) (escape s) = Some (Reader false ([], rev (map Chr s) ++ l) []).
Proof.
  induction s as [|c s IH]; intro l; [reflexivity|].
  assert (E : reads (Reader false ([], l) []) (escape [c]) = Some (Reader false ([], Chr c :: l) [])).
  { unfold escape. cbn [flat_map]. rewrite app_nil_r. fold (alnum c). destruct (alnum c) eqn:A.
    - unfold alnum in A. cbn [reads]. unfold read, add. cbn [fst snd existsb].
      repeat match goal with |- context [?a =? ?b] => let X := fresh in destruct (N.eqb_spec a b) as [X|X]; [exfalso; subst; discriminate|] end.
      reflexivity.
    - cbn [reads]. unfold read at 1. change (92 =? 92) with true. cbn iota. unfold read. rewrite A. reflexivity. }
  change (escape (c :: s)) with ((if ((48 <=? c) && (c <=? 57)) || ((65 <=? c) && (c <=? 90)) || ((97 <=? c) && (c <=? 122)) then [c] else [92; c]) ++ escape s).
  rewrite reads_app. unfold escape in E at 1. cbn [flat_map] in E. rewrite app_nil_r in E. rewrite E, IH. cbn [map rev]. rewrite <- app_assoc. reflexivity.
Qed.
Lemma seq_chars s : forall pre m post, den (seq_of (rev (map Chr s))) pre m post <-> m = s.
Proof.
  induction s as [|c s IH] using rev_ind; intros pre m post.
  - cbn. split; [intro D; inversion D; reflexivity|intros ->; constructor].
  - rewrite map_app, rev_app_distr. cbn [map rev app]. rewrite seq_cons. split.
    + intros (a & b & -> & D & E). apply IH in D. inversion E; subst. reflexivity.
    + intros ->. exists s, [c]. repeat split; [apply IH; reflexivity|constructor].
Qed.
Lemma escape_scan s : forall n x, In x (scan false n (escape s)) -> x <> (124, false, O).
Proof.
  induction s as [|c s IH]; intros n x; [intros []|]. unfold escape. cbn [flat_map]. fold (alnum c). fold (escape s).
  destruct (alnum c) eqn:A; cbn [app scan].
  - unfold alnum in A. intros [<-|J].
    + intro E. inversion E; subst. discriminate.
    + revert J. repeat match goal with |- context [?a =? ?b] => let X := fresh in destruct (N.eqb_spec a b) as [X|X]; [exfalso; subst; discriminate|] end.
      apply IH.
  - change (92 =? 92) with true. cbn iota. cbn [scan]. intros [<-|[<-|J]]; [discriminate|discriminate|]. exact (IH _ _ J).
Qed.
Lemma escape_snoc s c : escape (s ++ [c]) = escape s ++ (if alnum c then [c] else [92; c]).
Proof. unfold escape. rewrite flat_map_app. cbn [flat_map]. rewrite app_nil_r. reflexivity. Qed.
Lemma scan_last r : forall esc n l x, scan esc n r = l ++ [x] -> exists r', r = r' ++ [fst (fst x)].
Proof.
  induction r as [|c r IH]; intros esc n l x E; [destruct l; discriminate|]. cbn [scan] in E.
  destruct l as [|y l]; inversion E as [[E1 E2]].
  - destruct r as [|d r]; [exists []; reflexivity|]. exfalso. revert E2. cbn [scan].
    destruct esc; [discriminate|]. destruct (c =? 92); [discriminate|]. destruct (c =? 40); [discriminate|]. destruct (c =? 41); discriminate.
  - assert (exists esc n, scan esc n r = l ++ [x]) as (e & k & X).
    { revert E2. destruct esc; [eauto|]. destruct (c =? 92); [eauto|]. destruct (c =? 40); [eauto|]. destruct (c =? 41); eauto. }
    destruct (IH _ _ _ _ X) as (r' & ->). exists (c :: r'). reflexivity.
Qed.

Theorem path_literal : forall mo s q, (forall c t, s = t ++ [c] -> is_space c = false /\ c <> 36) ->
  usable mo re_ok (Q_path (escape s)) /\ (holds mo re_ok re_match (Q_path (escape s)) q <-> q_path q = s).
Proof.
  intros mo s q L. pose proof (escape_reads s []) as R. rewrite app_nil_r in R. change (Reader false ([], []) []) with start in R.
  pose proof (parse_one _ _ R eq_refl) as P. cbn [snd] in P.
  assert (LE : forall c r, escape s = r ++ [c] -> is_space c = false /\ c <> 36).
  { intros c r E. destruct (@exists_last _ s) as (t & d & ->).
    - intros ->. destruct r; discriminate.
    - specialize (L d t eq_refl). rewrite escape_snoc in E.
      replace (if alnum d then [d] else [92; d]) with ((if alnum d then [] else [92]) ++ [d]) in E by (destruct (alnum d); reflexivity).
      rewrite app_assoc in E. apply app_inj_tail in E. destruct E as [_ <-]. exact L. }
  assert (FE : forall c r, escape s = c :: r -> is_space c = false /\ c <> 94).
  { intros c r E. destruct s as [|d s']; [discriminate|]. unfold escape in E. cbn [flat_map] in E. fold (alnum d) in E.
    destruct (alnum d) eqn:A; inversion E; subst.
    - split; [|intros ->; discriminate]. unfold is_space, alnum in *. lia.
    - split; [reflexivity|discriminate]. }
  destruct (path_whole mo (escape s) (escape s) q) as [U W].
  - exists [], []. rewrite app_nil_r. repeat split; [intros c []|intros c []|intros c r E; apply (FE c r E)|intros c r E; apply (LE c r E)].
  - rewrite P. discriminate.
  - intro J. exact (escape_scan s O _ J eq_refl).
  - intros c t _ E. destruct (FE 94 (c :: t) E) as [_ X]. apply X. reflexivity.
  - intros d (l & E). apply scan_last in E. destruct E as (r & E). cbn [fst] in E. destruct (LE _ _ E) as [_ X]. apply X. reflexivity.
  - split; [exact U|]. rewrite W. unfold whole. rewrite P. split.
    + intros (e & E & D). inversion E; subst. apply seq_chars in D. exact D.
    + intros ->. eexists. split; [reflexivity|]. apply seq_chars. reflexivity.
Qed.
