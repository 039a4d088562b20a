From Coq Require Import String List Arith NArith Bool Lia.
From Verif Require Import Bytes BytesProofs FilterModel FilterSpec TraceModel TraceSpec TraceProofs
  ExportModel SpanModel SpanSpec.
Import ListNotations.
Open Scope N_scope.

(** ** Authorities *)
Lemma rsplit_once_none c s : ~ In c s -> rsplit_once c s = None.
Proof.
  intros H. unfold rsplit_once. destruct (split_once c (rev s)) as [[x y]|] eqn:E; [|reflexivity].
  apply split_once_some in E as [E _]. exfalso. apply H. apply in_rev. rewrite E. apply in_elt.
Qed.
Lemma host_no_at h : host_text h -> ~ In 64 h.
Proof.
  intros [(x & -> & _ & Hx)|(_ & H & _)]; [|exact H].
  intros [E|E]; [discriminate|]. apply in_app_iff in E as [E|[E|[]]]; [now apply Hx|discriminate].
Qed.
Definition ptext (p : option bytes) : bytes := match p with Some t => 58 :: t | None => [] end.
Lemma ptext_no_at p : (forall t, p = Some t -> ~ In 58 t /\ ~ In 64 t) -> ~ In 64 (ptext p).
Proof.
  intros H. destruct p as [t|]; cbn; [|easy].
  intros [E|E]; [discriminate|]. now apply (proj2 (H t eq_refl)).
Qed.
Lemma host_parts ui h p a : authority_parts ui h p a -> host a = h.
Proof.
  intros (Hh & Hp & Ea).
  assert (N64 : ~ In 64 (h ++ ptext p)).
  { rewrite in_app_iff. intros [E|E]; [now apply (host_no_at _ Hh)|now apply (ptext_no_at _ Hp)]. }
  unfold host. cbv zeta.
  assert (E : match rsplit_once 64 a with Some (_, hp) => hp | None => a end = h ++ ptext p).
  { destruct ui as [c|].
    - rewrite <- app_assoc in Ea. cbn [app] in Ea. subst a.
      rewrite (proj2 (rsplit_once_some 64 _ c (h ++ ptext p))); [reflexivity|]. split; [reflexivity|exact N64].
    - cbn [app] in Ea. subst a. now rewrite rsplit_once_none. }
  rewrite E. clear E. destruct Hh as [(x & -> & H93 & _)|(H58 & _ & H91)].
  - change (firstn 1 ((91 :: x ++ [93]) ++ ptext p)) with [91]. rewrite beq_refl.
    rewrite (proj2 (split_once_some 93 _ (91 :: x) (ptext p))); [reflexivity|].
    split; [cbn; now rewrite <- app_assoc|]. intros [F|F]; [discriminate|contradiction].
  - destruct (beq (firstn 1 (h ++ ptext p)) [91]) eqn:F.
    + apply beq_eq in F. destruct h as [|b h].
      * destruct p; cbn in F; [injection F as F; discriminate|discriminate].
      * cbn in F. injection F as ->. exfalso. now apply H91.
    + destruct p as [t|]; cbn [ptext].
      * rewrite (proj2 (split_once_some 58 _ h t)); [reflexivity|]. split; [reflexivity|exact H58].
      * rewrite app_nil_r. now rewrite (proj2 (split_once_none 58 h)).
Qed.

Lemma parse_uint_nondigit max s b : In b s -> b <> 43 -> is_digit b = false -> parse_uint max s = None.
Proof.
  intros Hin H43 Hd. destruct (parse_uint max s) as [n|] eqn:E; [|reflexivity].
  apply parse_uint_some in E as (d & Hs & _ & Hall & _). rewrite forallb_forall in Hall.
  destruct Hs as [->| ->].
  - rewrite (Hall _ Hin) in Hd. discriminate.
  - destruct Hin as [E|Hin]; [now subst|]. rewrite (Hall _ Hin) in Hd. discriminate.
Qed.
Lemma last_after c (s x : bytes) b : s = x ++ [b] -> b <> c ->
  match rsplit_once c s with Some (_, t) => In b t | None => True end.
Proof.
  intros -> Hb. destruct (rsplit_once c (x ++ [b])) as [[u t]|] eqn:E; [|exact I].
  apply rsplit_once_some in E as [E Ht]. destruct t as [|y t] using rev_ind.
  - apply app_inj_tail in E as [_ E]. now subst.
  - clear IHt. replace (u ++ c :: t ++ [y]) with ((u ++ c :: t) ++ [y]) in E by now rewrite <- app_assoc.
    apply app_inj_tail in E as [_ ->]. apply in_elt.
Qed.
Lemma after_elt c (x y : bytes) b : b <> c -> ~ In c y ->
  match rsplit_once c (x ++ b :: y) with Some (_, t) => In b t | None => True end.
Proof.
  intros Hb Hy. destruct (rsplit_once c (x ++ b :: y)) as [[u t]|] eqn:E; [|exact I].
  apply rsplit_once_some in E as [E Ht].
  revert x E; induction u as [|z u IH]; intros x E.
  - destruct x as [|w x]; cbn in E; injection E as -> E; [congruence|]. subst t. apply in_elt.
  - destruct x as [|w x]; cbn in E; injection E as -> E.
    + subst y. exfalso. apply Hy. apply in_elt.
    + now apply (IH x).
Qed.
Lemma port_parts ui h p a : authority_parts ui h p a ->
  port a = match p with Some t => parse_uint 65535 t | None => None end.
Proof.
  intros (Hh & Hp & ->). unfold port. destruct p as [t|].
  - rewrite app_assoc.
    rewrite (proj2 (rsplit_once_some 58 _ (match ui with Some c => c ++ [64] | None => [] end ++ h) t));
      [reflexivity|]. split; [reflexivity|]. now apply (Hp t eq_refl).
  - rewrite app_nil_r. destruct Hh as [(x & -> & H93 & _)|(H58 & _ & _)].
    + pose proof (last_after 58 (match ui with Some c => c ++ [64] | None => [] end ++ 91 :: x ++ [93])
                    (match ui with Some c => c ++ [64] | None => [] end ++ 91 :: x) 93) as L.
      destruct (rsplit_once 58 _) as [[u t]|]; [|reflexivity].
      apply (parse_uint_nondigit _ _ 93); [|discriminate|reflexivity].
      apply L; [now rewrite <- app_assoc|discriminate].
    + destruct ui as [c|].
      * rewrite <- app_assoc. cbn [app]. pose proof (after_elt 58 c h 64) as L.
        destruct (rsplit_once 58 (c ++ 64 :: h)) as [[u t]|]; [|reflexivity].
        apply (parse_uint_nondigit _ _ 64); [|discriminate|reflexivity]. apply L; [discriminate|exact H58].
      * cbn [app]. now rewrite rsplit_once_none.
Qed.

(** The parts of a text are determined up to the text. *)
Definition creds_shown (a : bytes) : bytes :=
  match split_once 64 a with
  | Some (creds, _) => if existsb (N.eqb 58) creds then bs "REDACTED:REDACTED@" else bs "REDACTED@"
  | None => []
  end.
Lemma first_at (c y : bytes) : exists x z, c ++ 64 :: y = x ++ 64 :: z /\ ~ In 64 x /\ (In 58 x <-> two_parts c).
Proof.
  induction c as [|b c (x & z & E & Hx & I58)].
  - exists [], y. split; [reflexivity|]. split; [easy|]. split; [easy|].
    intros (u & v & F & _). destruct u; discriminate.
  - destruct (N.eq_dec b 64) as [->|Hb].
    + exists [], (c ++ 64 :: y). split; [reflexivity|]. split; [easy|]. split; [easy|].
      intros (u & v & F & Hu). destruct u as [|w u]; [discriminate|]. injection F as <- _. apply Hu. now left.
    + exists (b :: x), z. split; [cbn; now rewrite E|]. split; [intros [F|F]; [now subst|contradiction]|].
      split.
      * intros [F|F].
        -- subst b. exists [], c. split; [reflexivity|easy].
        -- apply I58 in F as (u & v & -> & Hu). exists (b :: u), v. split; [reflexivity|].
           intros [G|G]; [now subst|contradiction].
      * intros (u & v & F & Hu). destruct u as [|w u]; cbn in F; injection F as F G.
        -- left. now symmetry.
        -- right. apply I58. exists u, v. split; [exact G|]. intros K. apply Hu. now right.
Qed.
Lemma creds_parts ui h p a : authority_parts ui h p a -> redacted ui (creds_shown a).
Proof.
  intros (Hh & Hp & Ea). unfold creds_shown. destruct ui as [c|]; cbn [redacted].
  - rewrite <- app_assoc in Ea. cbn [app] in Ea. destruct (first_at c (h ++ ptext p)) as (x & z & E & Hx & I58).
    rewrite (proj2 (split_once_some 64 a x z)) by (split; [rewrite Ea; exact E|exact Hx]).
    destruct (existsb (N.eqb 58) x) eqn:F.
    + left. split; [|reflexivity]. apply I58. apply existsb_exists in F as (b & Hb & F).
      apply N.eqb_eq in F. now subst.
    + right. split; [|reflexivity]. intros G. apply I58 in G. rewrite <- not_true_iff_false in F. apply F.
      apply existsb_exists. exists 58. split; [exact G|reflexivity].
  - cbn [app] in Ea. rewrite (proj2 (split_once_none 64 a)); [reflexivity|].
    rewrite Ea, in_app_iff. intros [E|E]; [now apply (host_no_at _ Hh)|now apply (ptext_no_at _ Hp)].
Qed.
Lemma redacted_det ui r r' : redacted ui r -> redacted ui r' -> r = r'.
Proof.
  destruct ui as [c|]; cbn; [|congruence].
  intros [[A ->]|[A ->]] [[B ->]|[B ->]]; try reflexivity; contradiction.
Qed.
Definition port_shown (a : bytes) : bytes := match port a with Some n => 58 :: to_dec n | None => [] end.
Lemma port_parts_text ui h p a : authority_parts ui h p a -> port_text p (port_shown a).
Proof.
  intros H. unfold port_shown. rewrite (port_parts _ _ _ _ H). unfold port_text, port_number.
  destruct p as [t|].
  - destruct (parse_uint 65535 t) as [n|] eqn:E.
    + left. exists n. split; [exists t; now split|reflexivity].
    + right. split; [|reflexivity]. intros n (t' & F & G). injection F as <-. congruence.
  - right. split; [|reflexivity]. intros n (t' & F & _). discriminate.
Qed.
Lemma port_text_det p r r' : port_text p r -> port_text p r' -> r = r'.
Proof.
  intros [(n & (t & -> & Hn) & ->)|[H ->]] [(n' & (t' & E & Hn') & ->)|[H' ->]].
  - injection E as <-. congruence.
  - exfalso. apply (H' n). exists t. now split.
  - exfalso. apply (H n'). exists t'. now split.
  - reflexivity.
Qed.
Lemma url_label_iff u v : well_formed u -> (full_url u v <-> v = url_label u).
Proof.
  intros W. unfold full_url, url_label. destruct (u_authority u) as [a|] eqn:Ea.
  - fold (creds_shown a) (port_shown a). split.
    + intros (x & -> & ui & h & p & r & n & HP & Hr & Hn & ->).
      rewrite (redacted_det _ _ _ Hr (creds_parts _ _ _ _ HP)).
      rewrite (port_text_det _ _ _ Hn (port_parts_text _ _ _ _ HP)).
      now rewrite (host_parts _ _ _ _ HP).
    + intros ->. destruct (W a Ea) as (ui & h & p & HP).
      exists (creds_shown a ++ host a ++ port_shown a). split; [reflexivity|].
      exists ui, h, p, (creds_shown a), (port_shown a). split; [exact HP|].
      split; [exact (creds_parts _ _ _ _ HP)|]. split; [exact (port_parts_text _ _ _ _ HP)|].
      now rewrite (host_parts _ _ _ _ HP).
  - split.
    + intros (x & -> & ->). reflexivity.
    + intros ->. exists []. now split.
Qed.

(** ** Labels *)
Lemma insert_fresh k v m : ~ In k (map fst m) -> insert k v m = m ++ [(k, v)].
Proof.
  intros H. unfold insert. f_equal. induction m as [|[n w] m IH]; [reflexivity|]. cbn in *.
  destruct (beq n k) eqn:E.
  - apply beq_eq in E. subst. exfalso. apply H. now left.
  - cbn. f_equal. apply IH. tauto.
Qed.
Definition opt (e : bytes * option bytes) : labels :=
  match snd e with Some v => [(fst e, v)] | None => [] end.
Lemma fold_insert l : forall m, NoDup (map fst l) -> (forall k, In k (map fst l) -> ~ In k (map fst m)) ->
  fold_left (fun m e => insert_opt (fst e) (snd e) m) l m = m ++ flat_map opt l.
Proof.
  induction l as [|[k o] l IH]; intros m N D; cbn [fold_left flat_map]; [now rewrite app_nil_r|].
  inversion N as [|? ? Nk Nl]; subst. rewrite IH; [|exact Nl|].
  - destruct o as [v|]; cbn [insert_opt fst snd opt app]; [|reflexivity].
    rewrite insert_fresh; [now rewrite <- app_assoc|]. apply D. now left.
  - intros k' Hk' F. destruct o as [v|]; cbn [insert_opt fst snd] in F.
    + rewrite insert_fresh in F by (apply D; now left). rewrite map_app, in_app_iff in F.
      destruct F as [F|[F|[]]]; [now apply (D k' (or_intror Hk'))|]. cbn in F. subst. contradiction.
    + now apply (D k' (or_intror Hk')).
Qed.
Lemma In_opts l n v : In (n, v) (flat_map opt l) <-> In (n, Some v) l.
Proof.
  rewrite in_flat_map. split.
  - intros ([k [w|]] & Hin & H); cbn in H; [|easy]. destruct H as [E|[]]. injection E as <- <-. exact Hin.
  - intros H. exists (n, Some v). split; [exact H|]. now left.
Qed.
Lemma NoDup_opts l : NoDup (map fst l) -> NoDup (map fst (flat_map opt l)).
Proof.
  induction l as [|[k o] l IH]; intros N; cbn; [constructor|].
  inversion N as [|? ? Nk Nl]; subst. rewrite map_app.
  destruct o as [v|]; cbn; [|now apply IH]. constructor; [|now apply IH].
  intros F. apply Nk. apply in_map_iff in F as ([k' w] & E & F). cbn in E. subst.
  apply In_opts in F. apply in_map_iff. exists (k, Some w). now split.
Qed.

Lemma NoDup_snoc {A} (l : list A) x : NoDup l -> ~ In x l -> NoDup (l ++ [x]).
Proof.
  induction l as [|y l IH]; cbn; intros N H; [repeat constructor; easy|].
  inversion N as [|? ? Ny Nl]; subst. constructor.
  - rewrite in_app_iff. intros [F|[F|[]]]; [contradiction|]. subst. apply H. now left.
  - apply IH; [exact Nl|]. intros F. apply H. now right.
Qed.

Section Labels.
Variable parse_uri : bytes -> option uri.
Variable lossy : bytes -> bytes.

Definition bound {A B} (o : option A) (f : A -> option B) : option B :=
  match o with Some a => f a | None => None end.
Definition entries (q : request) : list (bytes * option bytes) :=
  [ (bs "http.request.method", Some (q_method q)); (bs "url.scheme", u_scheme (q_uri q));
    (bs "url.path", Some (u_path (q_uri q))); (bs "url.query", u_query (q_uri q));
    (bs "url.full", Some (url_label (q_uri q))); (bs "network.transport", Some (bs "tcp"));
    (bs "server.address", bound (host_uri parse_uri (q_headers q)) uri_host);
    (bs "server.port", option_map to_dec (bound (host_uri parse_uri (q_headers q)) uri_port)) ] ++
  map (fun e => (snd e, option_map lossy (hm_get (q_headers q) (fst e)))) header_labels.
Fixpoint nodupb (l : list bytes) : bool :=
  match l with [] => true | x :: l => negb (existsb (beq x) l) && nodupb l end.
Lemma nodupb_ok l : nodupb l = true -> NoDup l.
Proof.
  induction l as [|x l IH]; cbn; intros H; constructor; apply andb_true_iff in H as [H1 H2].
  - intros F. apply negb_true_iff in H1. rewrite <- not_true_iff_false in H1. apply H1.
    apply existsb_exists. exists x. split; [exact F|apply beq_refl].
  - now apply IH.
Qed.
Lemma entries_nodup q : NoDup (map fst (entries q)).
Proof. apply nodupb_ok. vm_compute. reflexivity. Qed.
Lemma labels_eq q : request_labels parse_uri lossy q = flat_map opt (entries q).
Proof.
  transitivity (fold_left (fun m e => insert_opt (fst e) (snd e) m) (entries q) []).
  - unfold request_labels, host_labels, populate_header_values, entries.
    destruct (host_uri parse_uri (q_headers q)); reflexivity.
  - rewrite fold_insert; [reflexivity|apply entries_nodup|]. intros k _ [].
Qed.

Lemma visible_iff v s : to_str v = Some s <-> visible v /\ s = v.
Proof.
  unfold to_str, visible. destruct (forallb _ v) eqn:E.
  - split.
    + intros H. injection H as <-. split; [|reflexivity]. rewrite forallb_forall in E. intros b Hb.
      specialize (E b Hb). apply orb_true_iff in E as [E|E].
      * apply andb_true_iff in E as [E1 E2]. apply N.leb_le in E1. apply N.ltb_lt in E2. now left.
      * apply N.eqb_eq in E. now right.
    + intros [_ ->]. reflexivity.
  - split; [discriminate|]. intros [H _]. exfalso. rewrite <- not_true_iff_false in E. apply E.
    apply forallb_forall. intros b Hb. destruct (H b Hb) as [[H1 H2]|H1].
    + apply orb_true_iff. left. apply andb_true_iff. split; [now apply N.leb_le|now apply N.ltb_lt].
    + apply orb_true_iff. right. now apply N.eqb_eq.
Qed.
Lemma host_line_iff hs v : host_header hs = Some v <-> host_line hs v.
Proof.
  unfold host_header, host_line. destruct (hm_get hs (bs "x-forwarded-host")) as [w|] eqn:E.
  - split.
    + intros H. injection H as <-. left. now apply hm_get_values.
    + intros [H|[H _]].
      * apply hm_get_values in H. congruence.
      * exfalso. apply (H w). now apply hm_get_values.
  - split.
    + intros H. right. split; [|now apply hm_get_values]. intros w F. apply hm_get_values in F. congruence.
    + intros [H|[_ H]].
      * apply hm_get_values in H. congruence.
      * now apply hm_get_values.
Qed.
Lemma host_uri_iff hs u : host_uri parse_uri hs = Some u <->
  exists v, host_line hs v /\ visible v /\ parse_uri v = Some u.
Proof.
  unfold host_uri. split.
  - destruct (host_header hs) as [v|] eqn:E; [|discriminate].
    destruct (to_str v) as [s|] eqn:F; [|discriminate]. apply visible_iff in F as [Fv ->].
    intros H. exists v. split; [now apply host_line_iff|]. now split.
  - intros (v & H1 & H2 & H3). apply host_line_iff in H1. rewrite H1.
    rewrite (proj2 (visible_iff v v)); [exact H3|]. now split.
Qed.
Lemma host_authority_iff hs a : host_authority parse_uri hs a <->
  exists u, host_uri parse_uri hs = Some u /\ u_authority u = Some a.
Proof.
  split.
  - intros (v & u & H1 & H2 & H3 & H4). exists u. split; [|exact H4]. apply host_uri_iff. now exists v.
  - intros (u & H & H4). apply host_uri_iff in H as (v & H1 & H2 & H3). now exists v, u.
Qed.
Lemma host_entry hs h : (forall v u, parse_uri v = Some u -> well_formed u) ->
  bound (host_uri parse_uri hs) uri_host = Some h <->
  exists a ui p, host_authority parse_uri hs a /\ authority_parts ui h p a.
Proof.
  intros W. split.
  - destruct (host_uri parse_uri hs) as [u|] eqn:E; [|discriminate]. cbn. unfold uri_host.
    destruct (u_authority u) as [a|] eqn:Ea; [|discriminate]. cbn. intros H. injection H as <-.
    pose proof E as E'. apply host_uri_iff in E' as (v & _ & _ & Hv).
    destruct (W v u Hv a Ea) as (ui & h & p & HP). exists a, ui, p.
    split; [apply host_authority_iff; now exists u|]. now rewrite (host_parts _ _ _ _ HP).
  - intros (a & ui & p & HA & HP). apply host_authority_iff in HA as (u & -> & Ea).
    cbn. unfold uri_host. rewrite Ea. cbn. now rewrite (host_parts _ _ _ _ HP).
Qed.
Lemma port_entry hs s : (forall v u, parse_uri v = Some u -> well_formed u) ->
  option_map to_dec (bound (host_uri parse_uri hs) uri_port) = Some s <->
  exists a ui h p n, host_authority parse_uri hs a /\ authority_parts ui h p a /\ port_number p n /\
    s = to_dec n.
Proof.
  intros W. split.
  - destruct (host_uri parse_uri hs) as [u|] eqn:E; [|discriminate]. cbn. unfold uri_port.
    destruct (u_authority u) as [a|] eqn:Ea; [|discriminate].
    pose proof E as E'. apply host_uri_iff in E' as (v & _ & _ & Hv).
    destruct (W v u Hv a Ea) as (ui & h & p & HP). rewrite (port_parts _ _ _ _ HP).
    destruct p as [t|]; [|discriminate]. destruct (parse_uint 65535 t) as [n|] eqn:En; [|discriminate].
    cbn [option_map]. intros H. injection H as <-. exists a, ui, h, (Some t), n.
    split; [apply host_authority_iff; now exists u|]. split; [exact HP|]. split; [|reflexivity].
    exists t. now split.
  - intros (a & ui & h & p & n & HA & HP & (t & -> & Hn) & ->).
    apply host_authority_iff in HA as (u & -> & Ea). cbn [bound]. unfold uri_port. rewrite Ea.
    rewrite (port_parts _ _ _ _ HP), Hn. reflexivity.
Qed.

Lemma labels_iff q n v : (forall v u, parse_uri v = Some u -> well_formed u) -> well_formed (q_uri q) ->
  In (n, v) (request_labels parse_uri lossy q) <-> says parse_uri lossy q n v.
Proof.
  intros WP W. rewrite labels_eq, In_opts. unfold entries. rewrite in_app_iff. split.
  - intros [H|H].
    + cbn [In] in H. destruct H as [E|[E|[E|[E|[E|[E|[E|[E|[]]]]]]]]]; injection E as <- E.
      * subst v. constructor.
      * now constructor.
      * subst v. constructor.
      * now constructor.
      * constructor. apply url_label_iff; [exact W|]. now symmetry.
      * subst v. constructor.
      * apply host_entry in E as (a & ui & p & HA & HP); [|exact WP]. now apply (says_address _ _ _ a ui v p).
      * apply port_entry in E as (a & ui & h & p & m & HA & HP & Hn & ->); [|exact WP].
        now apply (says_port _ _ _ a ui h p m).
    + apply in_map_iff in H as ([name label] & E & H). cbn [fst snd] in E. injection E as <- E.
      destruct (hm_get (q_headers q) name) as [w|] eqn:Ew; [|discriminate]. cbn in E. injection E as <-.
      apply (says_header _ _ _ name); [exact H|]. now apply hm_get_values.
  - intros H. destruct H as [|s E| |s E|v E| |a ui h p HA HP|a ui h p m HA HP Hn|name label v Hin Hv].
    + left. now left.
    + left. right. left. now rewrite E.
    + left. do 2 right. now left.
    + left. do 3 right. left. now rewrite E.
    + left. do 4 right. left. apply url_label_iff in E; [|exact W]. now subst.
    + left. do 5 right. now left.
    + left. do 6 right. left. f_equal. apply host_entry; [exact WP|]. now exists a, ui, p.
    + left. do 7 right. left. f_equal. apply port_entry; [exact WP|]. now exists a, ui, h, p, m.
    + right. apply in_map_iff. exists (name, label). split; [|exact Hin]. cbn [fst snd].
      apply hm_get_values in Hv. now rewrite Hv.
Qed.
Lemma labels_nodup q : NoDup (map fst (request_labels parse_uri lossy q)).
Proof. rewrite labels_eq. apply NoDup_opts, entries_nodup. Qed.

(** ** What is not in the labels *)
Lemma url_label_eq u : url_label u =
  match u_scheme u with Some s => s ++ bs "://" | None => [] end ++
  match u_authority u with Some a => creds_shown a ++ host a ++ port_shown a | None => [] end ++
  u_path u ++ match u_query u with Some q => 63 :: q | None => [] end.
Proof. reflexivity. Qed.
Lemma url_label_alike u u' : uris_alike u u' -> url_label u = url_label u'.
Proof.
  intros (Hs & Hp & Hq & Ha). rewrite !url_label_eq, Hs, Hp, Hq.
  destruct Ha as [->|(a & a' & -> & -> & c & c' & h & p & HP & HP' & HC)]; [reflexivity|].
  unfold port_shown.
  rewrite (host_parts _ _ _ _ HP), (host_parts _ _ _ _ HP').
  rewrite (port_parts _ _ _ _ HP), (port_parts _ _ _ _ HP').
  assert (E : creds_shown a = creds_shown a'); [|now rewrite E].
  apply creds_parts in HP, HP'. cbn in HP, HP'.
  destruct HP as [[A ->]|[A ->]], HP' as [[B ->]|[B ->]]; try reflexivity; tauto.
Qed.
Lemma labels_entries q q' : entries q = entries q' ->
  request_labels parse_uri lossy q = request_labels parse_uri lossy q'.
Proof. intros E. now rewrite !labels_eq, E. Qed.
Lemma redacts m u u' hs : uris_alike u u' ->
  request_labels parse_uri lossy (Request m u hs) = request_labels parse_uri lossy (Request m u' hs).
Proof.
  intros H. apply labels_entries. unfold entries. cbn [q_method q_uri q_headers].
  rewrite (url_label_alike _ _ H). destruct H as (-> & -> & -> & _). reflexivity.
Qed.
Lemma copies_alike hs hs' :
  (forall name label v, In (name, label) copied -> (first_value name hs v <-> first_value name hs' v)) ->
  map (fun e => (snd e, option_map lossy (hm_get hs (fst e)))) header_labels =
  map (fun e => (snd e, option_map lossy (hm_get hs' (fst e)))) header_labels.
Proof.
  intros H. apply map_ext_in. intros [name label] Hin. cbn [fst snd]. do 2 f_equal.
  destruct (hm_get hs name) as [v|] eqn:E.
  - apply hm_get_values, (H name label v Hin), hm_get_values in E. now symmetry.
  - destruct (hm_get hs' name) as [v|] eqn:E'; [|reflexivity].
    apply hm_get_values, (H name label v Hin), hm_get_values in E'. congruence.
Qed.
Lemma redacts_host m u hs hs' : hosts_alike parse_uri hs hs' ->
  (forall name label v, In (name, label) copied -> (first_value name hs v <-> first_value name hs' v)) ->
  request_labels parse_uri lossy (Request m u hs) = request_labels parse_uri lossy (Request m u hs').
Proof.
  intros (v & v' & w & w' & a & a' & ui & ui' & h & p & L & L' & V & V' & P & P' & A & A' & HP & HP') HC.
  apply labels_entries. unfold entries. cbn [q_method q_uri q_headers].
  rewrite (copies_alike _ _ HC).
  rewrite (proj2 (host_uri_iff hs w)) by now exists v.
  rewrite (proj2 (host_uri_iff hs' w')) by now exists v'.
  cbn [bound]. unfold uri_host, uri_port. rewrite A, A'. cbn [option_map].
  rewrite (host_parts _ _ _ _ HP), (host_parts _ _ _ _ HP').
  now rewrite (port_parts _ _ _ _ HP), (port_parts _ _ _ _ HP').
Qed.
Lemma get_alike hs hs' name : (forall v, first_value name hs v <-> first_value name hs' v) ->
  hm_get hs name = hm_get hs' name.
Proof.
  intros H. destruct (hm_get hs name) as [v|] eqn:E.
  - apply hm_get_values, H, hm_get_values in E. now symmetry.
  - destruct (hm_get hs' name) as [v|] eqn:E'; [|reflexivity].
    apply hm_get_values, H, hm_get_values in E'. congruence.
Qed.
Lemma ignores m u hs hs' :
  (forall name v, In name (bs "x-forwarded-host" :: bs "host" :: map fst copied) ->
     (first_value name hs v <-> first_value name hs' v)) ->
  request_labels parse_uri lossy (Request m u hs) = request_labels parse_uri lossy (Request m u hs').
Proof.
  intros H. apply labels_entries. unfold entries. cbn [q_method q_uri q_headers].
  rewrite (copies_alike hs hs').
  - unfold host_uri, host_header.
    rewrite (get_alike hs hs' (bs "x-forwarded-host")) by (intros v; apply H; now left).
    rewrite (get_alike hs hs' (bs "host")) by (intros v; apply H; right; now left).
    reflexivity.
  - intros name label v Hin. apply H. do 2 right. now apply (in_map fst) in Hin.
Qed.

(** ** Spans *)
Variable enabled : bool.
Variable k : kind.
Variable shared : labels.

Lemma says_insert (WP : forall w u, parse_uri w = Some u -> well_formed u) q hs n v :
  (forall name vs, In name (bs "x-forwarded-host" :: bs "host" :: map fst copied) ->
     (values name hs vs <-> values name (q_headers q) vs)) -> well_formed (q_uri q) ->
  says parse_uri lossy (Request (q_method q) (q_uri q) hs) n v <-> says parse_uri lossy q n v.
Proof.
  intros H W. destruct q as [m u hs0]. cbn [q_method q_uri q_headers] in *.
  rewrite <- !labels_iff by assumption. rewrite (ignores m u hs hs0); [reflexivity|].
  intros name w Hin. unfold first_value. split; intros (vs & F); exists vs; now apply H.
Qed.
Lemma begin_records (WP : forall w u, parse_uri w = Some u -> well_formed u) q id t r status t' : well_formed (q_uri q) ->
  begin_span parse_uri lossy enabled q id t = Some r ->
  records parse_uri lossy enabled k shared q id t status t' (end_span k shared r status t').
Proof.
  intros W. unfold begin_span. destruct (trace_call enabled (q_headers q) id) as [hs [sp|]|] eqn:E; try discriminate.
  intros H. injection H as <-. pose proof E as E'. unfold trace_call in E'.
  destruct enabled eqn:En; [|discriminate]. destruct (unpack_trace_context (q_headers q)) as [c| |] eqn:U; try discriminate.
  destruct (is_sampled c) eqn:S; [|discriminate]. injection E' as E1 E2. subst sp.
  assert (KF : ~ In (bs "http.response.status_code")
            (map fst (request_labels parse_uri lossy (Request (q_method q) (q_uri q) hs)))).
  { rewrite labels_eq. intros F. apply in_map_iff in F as ([n v] & F1 & F2). cbn in F1. subst n.
    apply In_opts, (in_map fst) in F2. cbn [fst] in F2. revert F2.
    assert (B : existsb (beq (bs "http.response.status_code"))
       (map fst (entries (Request (q_method q) (q_uri q) hs))) = false) by (vm_compute; reflexivity).
    intros F2. rewrite <- not_true_iff_false in B. apply B. apply existsb_exists.
    eexists. split; [exact F2|apply beq_refl]. }
  unfold records, end_span. cbn [k_span k_start k_labels k_name r_trace_id r_span_id r_parent_id r_name r_start
    r_end r_kind r_shared r_labels s_trace_id s_span_id s_parent_id].
  split; [reflexivity|]. split; [exists c; now repeat split|].
  do 6 (split; [reflexivity|]).
  unfold add_response_labels. rewrite insert_fresh by exact KF.
  assert (OH : forall name vs, In name (bs "x-forwarded-host" :: bs "host" :: map fst copied) ->
     (values name hs vs <-> values name (q_headers q) vs)).
  { intros name vs Hin. apply (forward_other_headers true (q_headers q) id hs (Some (Span (c_trace_id c) id (c_parent_id c)))); [exact E|..];
    intros ->; revert Hin; vm_compute; intuition discriminate. }
  split.
  - rewrite map_app. cbn [map fst]. apply NoDup_snoc; [apply labels_nodup|exact KF].
  - intros n v. rewrite in_app_iff, labels_iff by assumption. rewrite says_insert by assumption.
    cbn [In]. split.
    + intros [H|[H|[]]]; [now right|]. injection H as <- <-. now left.
    + intros [[-> ->]|H]; [right; now left|now left].
Qed.

Notation run := (run parse_uri lossy enabled k shared).
Notation begin_span := (begin_span parse_uri lossy enabled).
Notation span_of := (span_of parse_uri lossy enabled k shared).

Lemma run_snoc es e : run (es ++ [e]) = step parse_uri lossy enabled k shared (run es) e.
Proof. unfold SpanModel.run. now rewrite fold_left_app. Qed.
Definition ends (i : nat) (e : event) : Prop :=
  e = Fails i \/ exists status now, e = Answered i status now.
Lemma arrivals_snoc es e : arrivals (es ++ [e]) =
  (arrivals es + match e with Arrives _ _ _ => 1 | _ => 0 end)%nat.
Proof. unfold arrivals. rewrite filter_app, app_length. now destruct e. Qed.
Lemma unended_snoc i es e : unended i (es ++ [e]) <-> unended i es /\ ~ ends i e.
Proof.
  unfold unended, ends. split.
  - intros [H1 H2]. split; [split|].
    + intros F. apply H1, in_app_iff. now left.
    + intros s n F. apply (H2 s n), in_app_iff. now left.
    + intros [->|(s & n & ->)].
      * apply H1, in_app_iff. right. now left.
      * apply (H2 s n), in_app_iff. right. now left.
  - intros [[H1 H2] H3]. split.
    + intros F. apply in_app_iff in F as [F|[F|[]]]; [contradiction|]. apply H3. now left.
    + intros s n F. apply in_app_iff in F as [F|[F|[]]]; [now apply (H2 s n)|]. apply H3. right. now exists s, n.
Qed.
Lemma in_flight_snoc es e i q id t : in_flight (es ++ [e]) i q id t <->
  (in_flight es i q id t /\ ~ ends i e) \/ (e = Arrives q id t /\ i = arrivals es).
Proof.
  unfold in_flight. split.
  - intros (pre & mid & E & Hi & Hu). destruct mid as [|x mid _] using rev_ind.
    + apply app_inj_tail in E as [<- <-]. now right.
    + replace (pre ++ Arrives q id t :: mid ++ [x]) with ((pre ++ Arrives q id t :: mid) ++ [x]) in E
        by now rewrite <- app_assoc.
      apply app_inj_tail in E as [-> ->]. apply unended_snoc in Hu as [Hu Hn]. left.
      split; [|exact Hn]. now exists pre, mid.
  - intros [[(pre & mid & -> & Hi & Hu) Hn]|[-> ->]].
    + exists pre, (mid ++ [e]). split; [now rewrite <- app_assoc|]. split; [exact Hi|].
      apply unended_snoc. now split.
    + exists es, []. split; [reflexivity|]. split; [reflexivity|]. split; easy.
Qed.
Lemma clear_length i l : List.length (clear i l) = List.length l.
Proof. revert i; induction l as [|x l IH]; intros [|i]; cbn; auto. Qed.
Lemma clear_same i l : (i < List.length l)%nat -> nth_error (clear i l) i = Some None.
Proof. revert i; induction l as [|x l IH]; intros [|i] H; cbn in *; try lia; auto. apply IH. lia. Qed.
Lemma clear_other i j l : i <> j -> nth_error (clear i l) j = nth_error l j.
Proof.
  revert i j; induction l as [|x l IH]; intros [|i] [|j] H; cbn; auto; try congruence.
  all: try (now destruct j).
Qed.
Lemma span_of_snoc es e i s : span_of es i s -> span_of (es ++ [e]) i s.
Proof.
  intros (b & a & q & id & t & st & t' & -> & H). exists b, (a ++ [e]), q, id, t, st, t'.
  split; [now rewrite <- app_assoc|exact H].
Qed.
Lemma in_flight_lt es i q id t : in_flight es i q id t -> (i < arrivals es)%nat.
Proof.
  intros (pre & mid & -> & -> & _). unfold arrivals. rewrite filter_app, app_length. cbn. lia.
Qed.

Lemma flights es : List.length (st_flights (run es)) = arrivals es.
Proof.
  induction es as [|e es IH] using rev_ind; [reflexivity|]. rewrite run_snoc, arrivals_snoc, <- IH.
  destruct e as [q id t|i s t|i| |]; cbn [step st_flights].
  - rewrite app_length. reflexivity.
  - destruct (nth_error _ i) as [[r|]|]; cbn [st_flights]; [rewrite clear_length|..]; lia.
  - rewrite clear_length. lia.
  - destruct (st_channel _); cbn [st_flights]; lia.
  - lia.
Qed.
(** A request in flight is the one that was kept. *)
Lemma in_flight_kept es i q id t : in_flight es i q id t ->
  nth_error (st_flights (run es)) i = Some (begin_span q id t).
Proof.
  revert i q id t; induction es as [|e es IH] using rev_ind; intros i q id t H.
  - destruct H as (pre & mid & E & _). destruct pre; discriminate.
  - rewrite run_snoc. apply in_flight_snoc in H as [[H Hn]|[-> ->]].
    + pose proof (in_flight_lt _ _ _ _ _ H) as L. rewrite <- flights in L. apply IH in H.
      destruct e as [q' id' t'|j s t'|j| |]; cbn [step st_flights].
      * now rewrite nth_error_app1.
      * assert (j <> i). { intros ->. apply Hn. right. now exists s, t'. }
        destruct (nth_error _ j) as [[r|]|]; cbn [st_flights]; [rewrite clear_other by assumption|..]; exact H.
      * assert (j <> i). { intros ->. apply Hn. now left. } now rewrite clear_other.
      * destruct (st_channel _); exact H.
      * exact H.
    + cbn [step st_flights]. rewrite nth_error_app2 by (rewrite flights; lia).
      rewrite flights, Nat.sub_diag. reflexivity.
Qed.
Lemma kept_in_flight es i r : nth_error (st_flights (run es)) i = Some (Some r) ->
  exists q id t, in_flight es i q id t /\ begin_span q id t = Some r /\ In (Arrives q id t) es.
Proof.
  revert i r; induction es as [|e es IH] using rev_ind; intros i r H.
  - destruct i; discriminate.
  - rewrite run_snoc in H.
    assert (Old : nth_error (st_flights (run es)) i = Some (Some r) -> ~ ends i e ->
      exists q id t, in_flight (es ++ [e]) i q id t /\ begin_span q id t = Some r /\ In (Arrives q id t) (es ++ [e])).
    { intros F Hn. destruct (IH i r F) as (q & id & t & H1 & H2 & H3). exists q, id, t.
      split; [apply in_flight_snoc; left; now split|]. split; [exact H2|]. apply in_app_iff. now left. }
    destruct e as [q' id' t'|j s t'|j| |]; cbn [step st_flights] in H.
    + destruct (Nat.lt_ge_cases i (List.length (st_flights (run es)))) as [L|L].
      * rewrite nth_error_app1 in H by exact L. apply Old; [exact H|]. intros [F|(? & ? & F)]; discriminate.
      * rewrite nth_error_app2 in H by exact L.
        destruct (i - List.length (st_flights (run es)))%nat as [|m] eqn:Em;
          [|destruct m; discriminate]. cbn in H. injection H as H. exists q', id', t'.
        split; [apply in_flight_snoc; right; split; [reflexivity|rewrite <- flights; lia]|].
        split; [exact H|]. apply in_app_iff. right. now left.
    + destruct (Nat.eq_dec j i) as [->|Hj].
      * destruct (nth_error (st_flights (run es)) i) as [[r'|]|] eqn:E; cbn [st_flights] in H; try congruence.
        rewrite clear_same in H; [discriminate|]. apply nth_error_Some. now rewrite E.
      * apply Old; [|intros [F|(? & ? & F)]; congruence].
        destruct (nth_error (st_flights (run es)) j) as [[r'|]|]; cbn [st_flights] in H; try exact H.
        now rewrite clear_other in H.
    + destruct (Nat.eq_dec j i) as [->|Hj].
      * assert (L : (i < List.length (clear i (st_flights (run es))))%nat) by (apply nth_error_Some; now rewrite H).
        rewrite clear_length in L. rewrite clear_same in H by exact L. discriminate.
      * rewrite clear_other in H by exact Hj. apply Old; [exact H|]. intros [F|(? & ? & F)]; congruence.
    + apply Old; [|intros [F|(? & ? & F)]; discriminate]. now destruct (st_channel _).
    + apply Old; [exact H|]. intros [F|(? & ? & F)]; discriminate.
Qed.
Lemma clear_none i j l : nth_error l j = Some None -> nth_error (clear i l) j = Some None.
Proof.
  intros H. destruct (Nat.eq_dec i j) as [->|Hij].
  - apply clear_same. apply nth_error_Some. now rewrite H.
  - now rewrite clear_other.
Qed.
Lemma Forall2_map {A B} (P Q : A -> B -> Prop) l l' :
  (forall x y, P x y -> Q x y) -> Forall2 P l l' -> Forall2 Q l l'.
Proof. intros H F. induction F; constructor; auto. Qed.
Lemma Forall2_snoc {A B} (P : A -> B -> Prop) l l' x y :
  Forall2 P l l' -> P x y -> Forall2 P (l ++ [x]) (l' ++ [y]).
Proof. intros H Hp. apply Forall2_app; [exact H|]. now repeat constructor. Qed.
Lemma Forall2_cut {A B} (P : A -> B -> Prop) l l1 l2 : Forall2 P l (l1 ++ l2) ->
  exists m1 m2, l = m1 ++ m2 /\ Forall2 P m1 l1.
Proof. intros H. apply Forall2_app_inv_r in H as (m1 & m2 & H1 & _ & ->). now exists m1, m2. Qed.
Lemma NoDup_cut {A} (l l' : list A) : NoDup (l ++ l') -> NoDup l.
Proof.
  induction l as [|x l IH]; cbn; intros H; [constructor|]. inversion H as [|? ? Hx Hl]; subst.
  constructor; [|now apply IH]. intros F. apply Hx, in_app_iff. now left.
Qed.

Lemma once_inv (WP : forall w u, parse_uri w = Some u -> well_formed u) es : proper_history es ->
  exists ids, NoDup ids /\ Forall2 (span_of es) ids (st_taken (run es) ++ st_channel (run es)) /\
    (forall i, In i ids -> nth_error (st_flights (run es)) i = Some None).
Proof.
  induction es as [|e es IH] using rev_ind; intros W.
  - exists []. split; [constructor|]. split; [constructor|]. easy.
  - destruct IH as (ids & N & F & D).
    { intros q id t H. apply (W q id t), in_app_iff. now left. }
    assert (F' : Forall2 (span_of (es ++ [e])) ids (st_taken (run es) ++ st_channel (run es))).
    { apply (Forall2_map (span_of es)); [|exact F]. intros i s. apply span_of_snoc. }
    rewrite run_snoc. destruct e as [q id t|j s t'|j| |]; cbn [step].
    + exists ids. split; [exact N|]. split; [exact F'|]. intros i Hi. cbn [st_flights].
      rewrite nth_error_app1; [now apply D|]. apply nth_error_Some. now rewrite (D i Hi).
    + destruct (nth_error (st_flights (run es)) j) as [[r|]|] eqn:E; [|now exists ids|now exists ids].
      cbn [st_taken st_channel st_flights]. unfold try_send.
      destruct (st_open (run es) && _) eqn:C.
      * exists (ids ++ [j]). split.
        { apply NoDup_snoc; [exact N|]. intros Hj. rewrite (D j Hj) in E. discriminate. }
        split.
        -- rewrite app_assoc. apply Forall2_snoc; [exact F'|].
           destruct (kept_in_flight es j r E) as (q & id & t & H1 & H2 & H3).
           exists es, [], q, id, t, s, t'. split; [reflexivity|]. split; [exact H1|].
           apply begin_records; [exact WP| |exact H2]. apply (W q id t), in_app_iff. now left.
        -- intros i Hi. apply in_app_iff in Hi as [Hi|[<-|[]]].
           ++ now apply clear_none, D.
           ++ apply clear_same, nth_error_Some. now rewrite E.
      * exists ids. split; [exact N|]. split; [exact F'|]. intros i Hi. now apply clear_none, D.
    + exists ids. split; [exact N|]. split; [exact F'|]. intros i Hi. cbn [st_flights]. now apply clear_none, D.
    + destruct (st_channel (run es)) as [|x l] eqn:E.
      * exists ids. split; [exact N|]. rewrite E. split; [exact F'|exact D].
      * exists ids. split; [exact N|]. cbn [st_taken st_channel st_flights]. rewrite <- app_assoc.
        split; [exact F'|exact D].
    + apply Forall2_cut in F' as (m1 & m2 & -> & F1). exists m1. cbn [st_taken st_channel st_flights].
      rewrite app_nil_r. split; [now apply NoDup_cut in N|]. split; [exact F1|].
      intros i Hi. apply D, in_app_iff. now left.
Qed.
Lemma once (WP : forall w u, parse_uri w = Some u -> well_formed u) es : proper_history es ->
  exists ids, NoDup ids /\ Forall2 (span_of es) ids (st_taken (run es) ++ st_channel (run es)).
Proof. intros W. destruct (once_inv WP es W) as (ids & N & F & _). now exists ids. Qed.

Lemma bounded es : (List.length (st_channel (run es)) <= 100)%nat.
Proof.
  induction es as [|e es IH] using rev_ind; [cbn; lia|]. rewrite run_snoc.
  destruct e as [q id t|j s t'|j| |]; cbn [step st_channel]; try exact IH.
  - destruct (nth_error _ j) as [[r|]|]; cbn [st_channel]; try exact IH. unfold try_send.
    destruct (st_open (run es) && _) eqn:C; [|exact IH]. apply andb_true_iff in C as [_ C].
    apply N.ltb_lt in C. rewrite app_length. cbn. unfold SPAN_BUFFER_CAPACITY in C. lia.
  - destruct (st_channel (run es)) as [|x l] eqn:E; [rewrite E; cbn; lia|]. cbn in *. lia.
  - cbn. lia.
Qed.
Lemma begin_sampled q id t : sampled enabled q -> exists r, begin_span q id t = Some r.
Proof.
  intros [He (c & U & O)]. unfold SpanModel.begin_span, trace_call. rewrite He, U. unfold is_sampled. rewrite O.
  eexists. reflexivity.
Qed.
Lemma open_iff es : st_open (run es) = true <-> ~ In Closes es.
Proof.
  induction es as [|e es IH] using rev_ind; [cbn; tauto|]. rewrite run_snoc, in_app_iff. cbn [In].
  destruct e as [q id t|j s t'|j| |]; cbn [step st_open].
  - rewrite IH. intuition discriminate.
  - transitivity (st_open (run es) = true); [|rewrite IH; intuition discriminate].
    destruct (nth_error _ j) as [[r|]|]; cbn [st_open]; reflexivity.
  - rewrite IH. intuition discriminate.
  - transitivity (st_open (run es) = true); [|rewrite IH; intuition discriminate].
    destruct (st_channel _); reflexivity.
  - split; [discriminate|]. intros H. exfalso. apply H. right. now left.
Qed.
Lemma sent (WP : forall w u, parse_uri w = Some u -> well_formed u) es i q id t status t' : proper_history es -> in_flight es i q id t -> sampled enabled q ->
  ~ In Closes es -> (List.length (st_channel (run es)) < 100)%nat ->
  exists s, st_channel (run (es ++ [Answered i status t'])) = st_channel (run es) ++ [s] /\
    records parse_uri lossy enabled k shared q id t status t' s.
Proof.
  intros W H S O L. rewrite run_snoc. cbn [step]. rewrite (in_flight_kept _ _ _ _ _ H).
  destruct (begin_sampled q id t S) as [r E]. rewrite E. cbn [st_channel]. unfold try_send.
  rewrite (proj2 (open_iff es) O). cbn [andb].
  rewrite (proj2 (N.ltb_lt _ _)) by (unfold SPAN_BUFFER_CAPACITY; lia).
  exists (end_span k shared r status t'). split; [reflexivity|]. apply begin_records; [exact WP| |exact E].
  destruct H as (pre & mid & -> & _). apply (W q id t). apply in_elt.
Qed.
Lemma lost es i q id t status t' : in_flight es i q id t ->
  ~ sampled enabled q \/ In Closes es \/ (100 <= List.length (st_channel (run es)))%nat ->
  st_channel (run (es ++ [Answered i status t'])) = st_channel (run es) /\
  st_taken (run (es ++ [Answered i status t'])) = st_taken (run es).
Proof.
  intros H C. rewrite run_snoc. cbn [step]. rewrite (in_flight_kept _ _ _ _ _ H).
  destruct (begin_span q id t) as [r|] eqn:E; [|easy]. cbn [st_channel st_taken]. split; [|reflexivity].
  unfold try_send. destruct C as [C|[C|C]].
  - exfalso. apply C. unfold SpanModel.begin_span, trace_call in E. unfold sampled.
    destruct enabled; [|discriminate]. destruct (unpack_trace_context (q_headers q)) as [c| |]; try discriminate.
    split; [reflexivity|]. exists c. split; [reflexivity|]. unfold is_sampled in E.
    destruct (N.odd (c_flags c)); [reflexivity|discriminate].
  - destruct (st_open (run es)) eqn:O; [|reflexivity]. apply open_iff in O. contradiction.
  - rewrite (proj2 (N.ltb_ge _ _)) by (unfold SPAN_BUFFER_CAPACITY; lia). now rewrite andb_false_r.
Qed.
Lemma failed es i : st_channel (run (es ++ [Fails i])) = st_channel (run es) /\
  st_taken (run (es ++ [Fails i])) = st_taken (run es).
Proof. now rewrite run_snoc. Qed.
End Labels.
