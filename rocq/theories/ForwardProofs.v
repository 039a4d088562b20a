(** Proofs of C120, C121 and C122 *)
From Coq Require Import String List NArith Arith Bool Lia ZifyBool ZifyN ZifyNat.
From Verif Require Import Bytes BytesProofs NameModel EndpointModel ClientPolicyModel.
From Verif Require Import ForwardModel ForwardSpec.
From Verif Require RouteSpec RouteProofs DnsModel DistributeModel DistributeSpec DistributeProofs OutboundModel OutboundSpec OutboundProofs TlsRouteModel TlsRouteSpec
  TlsRouteProofs PromModel PromSpec PromCountProofs ClientPolicyRouterProofs.
Import ListNotations.
Open Scope N_scope.

(** ** Routes *)

Lemma lex_lt_le_false : forall a b, RouteSpec.lex_lt a b -> RouteSpec.lex_le b a -> False.
Proof. intros a b H K. apply (RouteProofs.lex_lt_irrefl a). exact (RouteProofs.lex_lt_le_trans _ _ _ H K). Qed.

Lemma first_best_unique : forall P (rts : list (TlsRouteModel.tls_route P)) sni p q,
  TlsRouteSpec.tls_first_best rts sni p -> TlsRouteSpec.tls_first_best rts sni q -> p = q.
Proof.
  intros P rts sni p q (b & rt & a & r & -> & <- & A & H1 & H2) (b' & rt' & a' & r' & E & <- & A' & H1' & H2').
  revert b' E H1'. induction b as [|x b IH]; intros [|y b'] E H1'; cbn [app] in E; injection E as E1 E2.
  - now subst.
  - subst. exfalso. apply (lex_lt_le_false r r').
    + apply (H1' y r); [now left|exact A].
    + apply (H2 rt' r'); [apply in_app_iff; right; now left|exact A'].
  - subst. exfalso. apply (lex_lt_le_false r' r).
    + apply (H1 rt' r'); [now left|exact A'].
    + apply (H2' rt r); [apply in_app_iff; right; now left|exact A].
  - apply (IH (fun t s T => H1 t s (or_intror T)) b' E2 (fun t s T => H1' t s (or_intror T))).
Qed.

(** [route_call], of its parts *)
Definition call (f : flavor) (m : meta) (fs : list tcp_filter) (d : DistributeModel.distribution (list tcp_filter * concrete))
  (ready : nat -> bool) (draws : nat -> N) : start :=
  route_call f (P := unit) (Target m fs d tt) ready draws.

Lemma takes_select : forall rs h l f fs d ready draws, takes rs h l f fs d ->
  select rs h ready draws = Selected l (call f (l_route l) fs d ready draws).
Proof.
  intros rs h l f fs d ready draws [a p t h'|a p rts sni t H].
  - reflexivity.
  - cbn [select]. destruct (TlsRouteModel.tls_select rts sni) as [t'|] eqn:E.
    + apply TlsRouteProofs.tls_select_some in E. rewrite (first_best_unique _ _ _ _ _ E H). reflexivity.
    + exfalso. destruct H as (b & rt & a' & r & -> & _ & A & _). apply (proj1 (TlsRouteProofs.tls_select_none _ _) E rt r); [|exact A].
      apply in_app_iff. right. now left.
Qed.
Lemma select_takes : forall rs h l r ready draws, select rs h ready draws = Selected l r -> exists f fs d, takes rs h l f fs d.
Proof.
  intros [a p [t|]|a p rts] h l r ready draws; cbn [select]; try discriminate.
  - intros [= <- _]. eauto using takes.
  - destruct h as [[sni|]| |]; try discriminate. destruct (TlsRouteModel.tls_select rts sni) as [t|] eqn:E; [|discriminate].
    intros [= <- _]. apply TlsRouteProofs.tls_select_some in E. do 3 eexists. now apply takes_tls.
Qed.
Lemma takes_valid : forall rs h l f fs d, takes rs h l f fs d -> all_valid rs -> DistributeSpec.valid d.
Proof.
  intros rs h l f fs d [a p t h'|a p rts sni t (b & rt & a' & r & -> & <- & _)] V; cbn [all_valid] in V; [exact V|].
  apply V, in_app_iff. right. now left.
Qed.
Lemma takes_unique : forall rs h l f fs d l' f' fs' d', takes rs h l f fs d -> takes rs h l' f' fs' d' ->
  l = l' /\ f = f' /\ fs = fs' /\ d = d'.
Proof.
  intros rs h l f fs d l' f' fs' d' [a p t h'|a p rts sni t H] K; inversion K; subst; [auto|].
  match goal with X : TlsRouteSpec.tls_first_best _ _ _ |- _ => rewrite (first_best_unique _ _ _ _ _ H X); clear X end. auto.
Qed.

Lemma filters_first : forall f x fs, apply_filters f (x :: fs) = Some (says f x).
Proof. intros f x fs; destruct x; reflexivity. Qed.

Lemma refused_by_route : forall rs h l f x fs d ready draws, takes rs h l f (x :: fs) d ->
  turned_away l (says f x) (select rs h ready draws).
Proof.
  intros rs h l f x fs d ready draws T. unfold turned_away. rewrite (takes_select _ _ _ _ _ _ _ _ T). unfold call, route_call.
  cbn [ta_filters ta_meta]. rewrite filters_first. reflexivity.
Qed.

Section Unfiltered.
Variables (rs : routes) (h : hello) (l : labels) (f : flavor) (d : DistributeModel.distribution (list tcp_filter * concrete)).
Variables (ready : nat -> bool) (draws : nat -> N).
Hypothesis V : all_valid rs.
Hypothesis T : takes rs h l f [] d.

Lemma unfiltered : 
  (OutboundSpec.picks d (among ready draws) None /\ turned_away l Load_shed (select rs h ready draws)) \/
  exists i fs c, OutboundSpec.picks d (among ready draws) (Some i) /\ OutboundSpec.backend_at d i (fs, c) /\
    ((exists x fs', fs = x :: fs' /\ turned_away l (says f x) (select rs h ready draws)) \/
     (fs = [] /\ exists m, c_target c = Fail_with m /\ turned_away l (Dispatcher_failed m) (select rs h ready draws)) \/
     (fs = [] /\ (forall m, c_target c <> Fail_with m) /\ select rs h ready draws = Selected l (Begun c))).
Proof.
  pose proof (takes_valid _ _ _ _ _ _ T V) as VD. pose proof (OutboundProofs.choose_picks d (among ready draws) VD) as P.
  unfold turned_away. rewrite (takes_select _ _ _ _ _ _ ready draws T). unfold call, route_call.
  cbn [ta_filters ta_meta ta_distribution apply_filters].
  destruct (OutboundModel.choose d (among ready draws)) as [i|]; [right|left; split; [exact P|reflexivity]].
  destruct (OutboundProofs.picks_backend d _ i P) as [_ [[fs c] B]].
  exists i, fs, c. split; [exact P|]. split; [exact B|]. apply OutboundProofs.picked_backend in B. rewrite B.
  destruct fs as [|x fs]; [right|left; exists x, fs; split; [reflexivity|]; now rewrite filters_first].
  cbn [apply_filters]. destruct (c_target c) as [a0 l0|a0 m0|m0] eqn:E.
  - right. split; [reflexivity|]. split; [discriminate|reflexivity].
  - right. split; [reflexivity|]. split; [discriminate|reflexivity].
  - left. split; [reflexivity|]. exists m0. auto.
Qed.
End Unfiltered.

(** ** Kinds *)

Section Kind.
Context {K : Type} (known : cause -> K -> Prop) (unknown : K) (mk : error -> K).
Hypothesis mk_nil : mk [] = unknown.
Hypothesis mk_cons : forall c e, (exists k, known c k /\ mk (c :: e) = k) \/ ((forall k, ~ known c k) /\ mk (c :: e) = mk e).
Hypothesis known_one : forall c k k', known c k -> known c k' -> k = k'.
Lemma kind_mk : forall e, of_kind known unknown e (mk e).
Proof.
  induction e as [|c e IH].
  - right. split; [exact mk_nil|]. intros d k [].
  - destruct (mk_cons c e) as [(k & H & E)|[H E]]; rewrite E.
    + left. exists [], c, e. split; [reflexivity|]. split; [exact H|]. intros d k' [].
    + destruct IH as [(o & d & i & -> & D & N)|[M N]].
      * left. exists (c :: o), d, i. split; [reflexivity|]. split; [exact D|]. intros x k' [<-|X]; [apply H|now apply N].
      * right. split; [exact M|]. intros x k' [<-|X]; [apply H|now apply N].
Qed.
Lemma kind_unique : forall e k k', of_kind known unknown e k -> of_kind known unknown e k' -> k = k'.
Proof.
  intros e k k' [(o & c & i & -> & C & N)|[-> N]] [(o' & c' & i' & E & C' & N')|[-> N']].
  - revert o' E N'. induction o as [|x o IH]; intros [|y o'] E N'; injection E as E1 E2; subst.
    + exact (known_one _ _ _ C C').
    + exfalso. exact (N' y k (or_introl eq_refl) C).
    + exfalso. exact (N c' k' (or_introl eq_refl) C').
    + apply (IH (fun d q D => N d q (or_intror D)) o' E2 (fun d q D => N' d q (or_intror D))).
  - exfalso. apply (N' c k); [|exact C]. apply in_app_iff. right. now left.
  - subst e. exfalso. apply (N c' k'); [|exact C']. apply in_app_iff. right. now left.
  - reflexivity.
Qed.
Lemma kind_iff : forall e k, mk e = k <-> of_kind known unknown e k.
Proof. intros e k. split; [intros <-; apply kind_mk|]. intros H. exact (kind_unique _ _ _ (kind_mk e) H). Qed.
End Kind.

Ltac by_cause := intros c e; destruct c; cbn; try match goal with f : flavor |- _ => destruct f; cbn end;
  first [left; eexists; split; [constructor|reflexivity] | right; split; [intros k H; inversion H|reflexivity]].
Lemma closed_iff : forall e k, closed_mk e = k <-> of_kind known_closed K_unexpected e k.
Proof. apply kind_iff; [reflexivity|by_cause|]. intros c k k' H H'. inversion H; subst; inversion H'; reflexivity. Qed.
Lemma outbound_iff : forall e k, outbound_mk e = k <-> of_kind known_outbound E_unexpected e k.
Proof. apply kind_iff; [reflexivity|by_cause|]. intros c k k' H H'. inversion H; subst; inversion H'; reflexivity. Qed.
Lemma inbound_iff : forall e k, inbound_mk e = k <-> of_kind known_inbound (Some E_unexpected) e k.
Proof. apply kind_iff; [reflexivity|by_cause|]. intros c k k' H H'. inversion H; subst; inversion H'; reflexivity. Qed.

Lemma error_text_inj : forall a b, error_text a = error_text b -> a = b.
Proof. intros [] []; vm_compute; intros; congruence. Qed.
Lemma closed_text_inj : forall a b, closed_text a = closed_text b -> a = b.
Proof. intros [[]|] [[]|]; vm_compute; intros; congruence. Qed.

(** ** Equality of labels *)

Lemma addr_eqb_eq : forall a b, addr_eqb a b = true <-> a = b.
Proof.
  intros [n|s] [m|t]; cbn [addr_eqb]; try (split; discriminate).
  - rewrite (ClientPolicyRouterProofs.name_addr_eq_iff n m). split; congruence.
  - rewrite (ClientPolicyRouterProofs.sock_eq_iff s t). split; congruence.
Qed.
Lemma goal_eqb_eq : forall a b, goal_eqb a b = true <-> a = b.
Proof.
  intros [a|h] [b|k]; cbn [goal_eqb]; try (split; discriminate).
  - rewrite addr_eqb_eq. split; congruence.
  - rewrite (PromCountProofs.option_eqb_eq _ _ beq_eq). split; congruence.
Qed.
Lemma labels_eqb_iff : forall a b, labels_eqb a b = true <-> same_series a b.
Proof.
  intros a b. unfold labels_eqb, same_series, same_meta. rewrite !andb_true_iff, !ClientPolicyRouterProofs.meta_eq_iff, goal_eqb_eq. tauto.
Qed.
Lemma closed_kind_eqb_eq : forall a b, closed_kind_eqb a b = true <-> a = b.
Proof.
  intros a b. unfold closed_kind_eqb. rewrite beq_eq. split; [|congruence]. intros H. apply closed_text_inj in H. congruence.
Qed.
Lemma closed_eqb_iff : forall l k l' k', closed_eqb (l, k) (l', k') = true <-> same_series l l' /\ k = k'.
Proof.
  intros. unfold closed_eqb. cbn [fst snd]. rewrite andb_true_iff, labels_eqb_iff, (PromCountProofs.option_eqb_eq _ _ closed_kind_eqb_eq). tauto.
Qed.
Lemma error_eqb_iff : forall d k d' k', error_eqb (d, k) (d', k') = true <-> d = d' /\ k = k'.
Proof.
  intros. unfold error_eqb. cbn [fst snd]. rewrite andb_true_iff, (ClientPolicyRouterProofs.sock_eq_iff d d'), beq_eq.
  split; intros [H K]; split; try assumption; [now apply error_text_inj|congruence].
Qed.
Lemma same_series_sym : forall a b, same_series a b -> same_series b a.
Proof. unfold same_series, same_meta. intuition. Qed.
Lemma same_series_trans : forall a b c, same_series a b -> same_series b c -> same_series a c.
Proof. unfold same_series, same_meta. intuition congruence. Qed.

Section Counters.
Context {K : Type} (eqb : K -> K -> bool).
Hypothesis eqb_sym : forall a b, eqb a b = true -> eqb b a = true.
Hypothesis eqb_trans : forall a b c, eqb a b = true -> eqb b c = true -> eqb a c = true.
Lemma value_inc : forall k j l, PromSpec.value eqb k (PromModel.inc eqb j l) =
  if eqb j k then (PromSpec.value eqb k l + 1) mod 2 ^ 64 else PromSpec.value eqb k l.
Proof.
  intros k j l. unfold PromSpec.value. induction l as [|[i n] l IH].
  - cbn [PromModel.inc find fst]. destruct (eqb j k); reflexivity.
  - cbn [PromModel.inc]. destruct (eqb i j) eqn:E.
    + cbn [find fst]. destruct (eqb i k) eqn:F.
      * now rewrite (eqb_trans _ _ _ (eqb_sym _ _ E) F).
      * destruct (eqb j k) eqn:G; [|reflexivity]. rewrite (eqb_trans _ _ _ E G) in F. discriminate.
    + cbn [find fst]. destruct (eqb i k) eqn:F.
      * destruct (eqb j k) eqn:G; [|reflexivity]. rewrite (eqb_trans _ _ _ F (eqb_sym _ _ G)) in E. discriminate.
      * exact IH.
Qed.
End Counters.
Lemma open_inc : forall k j l, PromSpec.value labels_eqb k (PromModel.inc labels_eqb j l) =
  if labels_eqb j k then (PromSpec.value labels_eqb k l + 1) mod 2 ^ 64 else PromSpec.value labels_eqb k l.
Proof.
  apply value_inc; intros *; rewrite !labels_eqb_iff; [apply same_series_sym|apply same_series_trans].
Qed.
Lemma closed_inc : forall k j l, PromSpec.value closed_eqb k (PromModel.inc closed_eqb j l) =
  if closed_eqb j k then (PromSpec.value closed_eqb k l + 1) mod 2 ^ 64 else PromSpec.value closed_eqb k l.
Proof.
  apply value_inc.
  - intros [a i] [b j]. rewrite !closed_eqb_iff. intros [H ->]. split; [now apply same_series_sym|reflexivity].
  - intros [a i] [b j] [c k]. rewrite !closed_eqb_iff. intros [H ->] [H' ->]. split; [eapply same_series_trans; eassumption|reflexivity].
Qed.
Lemma error_inc : forall k j l, PromSpec.value error_eqb k (PromModel.inc error_eqb j l) =
  if error_eqb j k then (PromSpec.value error_eqb k l + 1) mod 2 ^ 64 else PromSpec.value error_eqb k l.
Proof.
  apply value_inc.
  - intros [a i] [b j]. rewrite !error_eqb_iff. intros [-> ->]. auto.
  - intros [a i] [b j] [c k]. rewrite !error_eqb_iff. intros [-> ->] [-> ->]. auto.
Qed.

(** ** Histories *)

Inductive status := Going | Over (r : option error) | Dropped.
Record entry := Entry { e_id : N; e_dst : sock; e_rs : routes; e_sel : selected; e_status : status }.
Definition status0 (rs : routes) (sel : selected) : status :=
  match sel with
  | No_selection e => Over (Some e)
  | Selected l (Refused e) => Over (Some (Logical_error (logical_addr rs) :: e))
  | Selected l (Begun c) => Going
  end.
Definition end_of (e : entry) (x : ending) : option error :=
  match e_sel e with
  | Selected l (Begun c) => below (logical_addr (e_rs e)) (option_map (cons (Route_error (l_route l))) (concrete_end c x))
  | _ => None
  end.
Definition set_status (e : entry) (s : status) : entry := Entry (e_id e) (e_dst e) (e_rs e) (e_sel e) s.
Definition touch (e : entry) (ev : event) : entry :=
  match e_status e, ev with
  | Going, End id x => if e_id e =? id then set_status e (Over (end_of e x)) else e
  | Going, Gone id => if e_id e =? id then set_status e Dropped else e
  | _, _ => e
  end.
Definition force1 (rs : routes) (ev : event) : routes := match ev with Update rs' => rs' | _ => rs end.
Definition force (rs : routes) (es : list event) : routes := fold_left force1 es rs.
Definition gstep (g : routes * list entry) (ev : event) : routes * list entry :=
  (force1 (fst g) ev,
   match ev with
   | Accept id dst h ready draws => 
       let sel := select (fst g) h ready draws in [Entry id dst (fst g) sel (status0 (fst g) sel)]
   | _ => []
   end ++ map (fun e => touch e ev) (snd g)).
Definition grun (rs : routes) (es : list event) := fold_left gstep es (rs, []).

Lemma grun_snoc : forall rs es ev, grun rs (es ++ [ev]) = gstep (grun rs es) ev.
Proof. intros. unfold grun. now rewrite fold_left_app. Qed.
Lemma run_snoc : forall rs es ev, run rs (es ++ [ev]) = step (run rs es) ev.
Proof. intros. unfold run. now rewrite fold_left_app. Qed.
Lemma grun_fst : forall rs es, fst (grun rs es) = force rs es.
Proof.
  intros rs es. induction es as [|ev es IH] using rev_ind; [reflexivity|]. rewrite grun_snoc. cbn [gstep fst]. rewrite IH.
  unfold force. now rewrite fold_left_app.
Qed.
Lemma force_in : forall es rs, in_force rs es (force rs es).
Proof.
  intros es rs. induction es as [|ev es IH] using rev_ind.
  - left. split; [reflexivity|]. intros r [].
  - unfold force in *. rewrite fold_left_app. cbn [fold_left]. generalize dependent (fold_left force1 es rs). intros q IH. destruct ev as [rs'|id dst h ready draws|id x|id]; cbn [force1];
      [right; exists es, []; split; [reflexivity|]; intros r [] | | | ];
      (destruct IH as [[E N]|(a & b & E & N)];
       [left; split; [exact E|]; intros r I; apply in_app_iff in I as [I|[I|[]]]; [now apply (N r)|discriminate]
       |right; subst es; exists a; eexists (b ++ [_]); split; [rewrite <- app_assoc; reflexivity|];
        intros r I; apply in_app_iff in I as [I|[I|[]]]; [now apply (N r)|discriminate]]).
Qed.
Lemma force_no : forall es rs, (forall r, ~ In (Update r) es) -> force rs es = rs.
Proof.
  induction es as [|ev es IH]; intros rs N; [reflexivity|]. unfold force in *. cbn [fold_left].
  rewrite IH by (intros r I; apply (N r); now right). destruct ev; try reflexivity. exfalso. exact (N rs0 (or_introl eq_refl)).
Qed.
Lemma force_iff : forall es rs rs', in_force rs es rs' <-> rs' = force rs es.
Proof.
  intros es rs rs'. split; [|intros ->; apply force_in]. intros [[-> N]|(a & b & -> & N)].
  - symmetry. now apply force_no.
  - unfold force. rewrite fold_left_app. cbn [fold_left force1]. symmetry. now apply (force_no b rs').
Qed.

Lemma touch_id : forall e ev, e_id (touch e ev) = e_id e.
Proof. intros [id dst rs sel [|r|]] [ | |i x|i]; unfold touch; cbn; try reflexivity; destruct (id =? i); reflexivity. Qed.
Lemma touch_sel : forall e ev, e_sel (touch e ev) = e_sel e.
Proof. intros [id dst rs sel [|r|]] [ | |i x|i]; unfold touch; cbn; try reflexivity; destruct (id =? i); reflexivity. Qed.
Lemma touch_dst : forall e ev, e_dst (touch e ev) = e_dst e.
Proof. intros [id dst rs sel [|r|]] [ | |i x|i]; unfold touch; cbn; try reflexivity; destruct (id =? i); reflexivity. Qed.
Lemma touch_rs : forall e ev, e_rs (touch e ev) = e_rs e.
Proof. intros [id dst rs sel [|r|]] [ | |i x|i]; unfold touch; cbn; try reflexivity; destruct (id =? i); reflexivity. Qed.

(** Entries are what was accepted. *)
Lemma grun_in : forall rs es e, In e (snd (grun rs es)) <->
  exists before id dst h ready draws after, es = before ++ Accept id dst h ready draws :: after /\
    e = fold_left touch after (Entry id dst (force rs before) (select (force rs before) h ready draws)
                                  (status0 (force rs before) (select (force rs before) h ready draws))).
Proof.
  intros rs es. induction es as [|ev es IH] using rev_ind; intros e.
  - split; [intros []|]. intros ([|] & ? & ? & ? & ? & ? & ? & E & _); discriminate.
  - rewrite grun_snoc. cbn [gstep snd]. rewrite in_app_iff, in_map_iff. split.
    + intros [H|(e0 & <- & H)].
      * destruct ev; cbn in H; try contradiction. destruct H as [<-|[]]. rewrite grun_fst.
        exists es, id, dst, h, ready, draws, []. split; reflexivity.
      * apply IH in H as (b & id & dst & h & ready & draws & a & E & ->).
        exists b, id, dst, h, ready, draws, (a ++ [ev]). split; [rewrite E, <- app_assoc; reflexivity|]. now rewrite fold_left_app.
    + intros (b & id & dst & h & ready & draws & a & E & ->). destruct a as [|x a _] using rev_ind.
      * apply app_inj_tail in E as [-> ->]. left. rewrite grun_fst. now left.
      * rewrite app_comm_cons, app_assoc in E. apply app_inj_tail in E as [-> ->]. right. rewrite fold_left_app. cbn [fold_left].
        eexists. split; [reflexivity|]. apply IH. do 7 eexists. split; reflexivity.
Qed.
Lemma grun_ids : forall rs es, map e_id (snd (grun rs es)) = rev (flat_map came es).
Proof.
  intros rs es. induction es as [|ev es IH] using rev_ind; [reflexivity|].
  rewrite grun_snoc. cbn [gstep snd]. rewrite flat_map_app, rev_app_distr, map_app, map_map.
  rewrite (map_ext _ _ (fun e => touch_id e ev)), IH. destruct ev; reflexivity.
Qed.
Lemma once_nodup : forall rs es, once es -> NoDup (map e_id (snd (grun rs es))).
Proof. intros rs es O. rewrite grun_ids. now apply NoDup_rev. Qed.
Lemma once_before : forall es ev, once (es ++ [ev]) -> once es.
Proof. intros es ev. unfold once. rewrite flat_map_app. intros H. revert H. generalize (flat_map came es). intros l.
  generalize (flat_map came [ev]). intros l' H. induction l as [|x l IH]; [constructor|].
  cbn [app] in H. inversion H as [|? ? N D]; subst. constructor; [|now apply IH]. intros I. apply N. apply in_app_iff. now left.
Qed.

Lemma told_iff : forall a m c x r, told a m c x r <-> r = below a (option_map (cons (Route_error m)) (concrete_end c x)).
Proof.
  intros a m c [e|e|] r; cbn [told concrete_end option_map below]; try tauto. destruct (c_target c) as [n l|s d|t] eqn:E; split.
  - intros (w & -> & [(n' & l' & E' & ->)|[N _]]); [|exfalso; exact (N n l eq_refl)]. injection E' as <- <-. reflexivity.
  - intros ->. exists [Concrete_error n]. split; [reflexivity|]. left. eauto.
  - intros (w & -> & [(n' & l' & E' & ->)|[_ ->]]); [discriminate|reflexivity].
  - intros ->. exists []. split; [reflexivity|]. right. split; [discriminate|reflexivity].
  - intros (w & -> & [(n' & l' & E' & ->)|[_ ->]]); [discriminate|reflexivity].
  - intros ->. exists []. split; [reflexivity|]. right. split; [discriminate|reflexivity].
Qed.

Lemma fold_still : forall es e, e_status e <> Going -> fold_left touch es e = e.
Proof.
  induction es as [|ev es IH]; intros e H; [reflexivity|]. cbn [fold_left]. replace (touch e ev) with e; [now apply IH|].
  unfold touch. destruct (e_status e); [contradiction| |]; destruct ev; reflexivity.
Qed.
Lemma first_here : forall id ev es, about id ev -> first_about id (ev :: es) ev.
Proof. intros id ev es H. split; [exact H|]. exists [], es. split; [reflexivity|]. intros e []. Qed.
Lemma first_later : forall id d es ev, ~ about id d -> first_about id es ev -> first_about id (d :: es) ev.
Proof.
  intros id d es ev N [H (a & b & -> & A)]. split; [exact H|]. exists (d :: a), b. split; [reflexivity|]. intros e [<-|I]; auto.
Qed.
Lemma fold_going : forall es e, e_status e = Going ->
  ((forall ev, In ev es -> ~ about (e_id e) ev) /\ fold_left touch es e = e) \/
  (exists x, first_about (e_id e) es (End (e_id e) x) /\ fold_left touch es e = set_status e (Over (end_of e x))) \/
  (first_about (e_id e) es (Gone (e_id e)) /\ fold_left touch es e = set_status e Dropped).
Proof.
  induction es as [|ev es IH]; intros e H.
  - left. split; [intros ev []|reflexivity].
  - assert (K : (exists x, ev = End (e_id e) x) \/ ev = Gone (e_id e) \/ (~ about (e_id e) ev /\ touch e ev = e)).
    { unfold touch, about. rewrite H. destruct ev as [rs|i d h r w|i x|i].
      - right. right. split; [intros [[x E]|E]; discriminate|reflexivity].
      - right. right. split; [intros [[x E]|E]; discriminate|reflexivity].
      - destruct (N.eqb_spec (e_id e) i) as [->|N]; [eauto|]. right. right. split; [|reflexivity].
        intros [[y E]|E]; [|discriminate]. injection E as -> _. now apply N.
      - destruct (N.eqb_spec (e_id e) i) as [->|N]; [eauto|]. right. right. split; [|reflexivity].
        intros [[y E]|E]; [discriminate|]. injection E as ->. now apply N. }
    destruct K as [[x ->]|[->|[N E]]].
    + right. left. exists x. split; [apply first_here; left; eauto|]. cbn [fold_left]. unfold touch at 2. rewrite H, N.eqb_refl.
      apply fold_still. discriminate.
    + right. right. split; [apply first_here; right; reflexivity|]. cbn [fold_left]. unfold touch at 2. rewrite H, N.eqb_refl.
      apply fold_still. discriminate.
    + cbn [fold_left]. rewrite E. destruct (IH e H) as [[A F]|[(x & A & F)|[A F]]].
      * left. split; [|exact F]. intros d [<-|I]; auto.
      * right. left. exists x. split; [now apply first_later|exact F].
      * right. right. split; [now apply first_later|exact F].
Qed.
Lemma first_unique : forall id es a b, first_about id es a -> first_about id es b -> a = b.
Proof.
  intros id es a b [A (x & y & -> & X)] [B (x' & y' & E & X')]. revert x' E X'. induction x as [|d x IH]; intros [|d' x'] E X'; injection E as E1 E2; subst.
  - reflexivity.
  - exfalso. exact (X' d' (or_introl eq_refl) A).
  - exfalso. exact (X b (or_introl eq_refl) B).
  - apply (IH (fun e I => X e (or_intror I)) x' E2 (fun e I => X' e (or_intror I))).
Qed.
Lemma first_some : forall id es a, first_about id es a -> ~ forall e, In e es -> ~ about id e.
Proof. intros id es a [A (x & y & -> & _)] N. apply (N a); [|exact A]. apply in_app_iff. right. now left. Qed.

Definition label_of (sel : selected) : option labels := match sel with Selected l _ => Some l | No_selection _ => None end.

Lemma over_iff : forall rs es id dst l r,
  (exists e, In e (snd (grun rs es)) /\ e_id e = id /\ e_dst e = dst /\ label_of (e_sel e) = l /\ e_status e = Over r) <->
  comes_to rs es id dst l r.
Proof.
  intros rs es id dst l r. split.
  - intros (e & I & <- & <- & <- & S). apply grun_in in I as (b & id' & dst' & h & ready & draws & a & -> & E).
    set (rs' := force rs b) in *.
    assert (AC : accepted rs (b ++ Accept id' dst' h ready draws :: a) id' dst' rs' (select rs' h ready draws) a).
    { exists b, h, ready, draws. split; [reflexivity|]. split; [|reflexivity]. now apply force_iff. }
    destruct (select rs' h ready draws) as [er|l [er|c]] eqn:Q; cbn [status0] in E.
    + rewrite fold_still in E by discriminate. subst e. cbn in *. injection S as <-. eapply without_route. exact AC.
    + rewrite fold_still in E by discriminate. subst e. cbn in *. injection S as <-. eapply refused. exact AC.
    + match type of E with e = fold_left _ _ ?e0 => destruct (fold_going a e0 eq_refl) as [[A F]|[(x & A & F)|[A F]]] end;
        rewrite F in E; subst e; cbn in S; try discriminate. injection S as <-. cbn [e_id e_dst e_sel label_of set_status].
      eapply ended; [exact AC|exact A|]. apply told_iff. reflexivity.
  - intros H. assert (G : forall dst rs' sel after, accepted rs es id dst rs' sel after ->
      In (fold_left touch after (Entry id dst rs' sel (status0 rs' sel))) (snd (grun rs es))).
    { intros d rs' sel after (b & h & ready & draws & -> & F & ->). apply force_iff in F. subst rs'. apply grun_in. do 7 eexists. split; reflexivity. }
    destruct H as [dst rs' e after A|dst rs' l e after A|dst rs' l c after x r A F T].
    + eexists. split; [exact (G _ _ _ _ A)|]. rewrite fold_still by discriminate. cbn. auto.
    + eexists. split; [exact (G _ _ _ _ A)|]. rewrite fold_still by discriminate. cbn. auto.
    + eexists. split; [exact (G _ _ _ _ A)|]. cbn [status0].
      match goal with |- context [fold_left touch after ?e0] => destruct (fold_going after e0 eq_refl) as [[N E]|[(y & N & E)|[N E]]] end; rewrite E; cbn in *.
      * exfalso. exact (first_some _ _ _ F N).
      * pose proof (first_unique _ _ _ _ F N) as Q. injection Q as <-. apply told_iff in T. subst r. auto.
      * pose proof (first_unique _ _ _ _ F N) as Q. discriminate.
Qed.
Lemma going_iff : forall rs es id l c,
  (exists e, In e (snd (grun rs es)) /\ e_id e = id /\ e_sel e = Selected l (Begun c) /\ e_status e = Going) <->
  goes_on rs es id l c.
Proof.
  intros rs es id l c. split.
  - intros (e & I & <- & L & S). apply grun_in in I as (b & id' & dst' & h & ready & draws & a & -> & E).
    set (rs' := force rs b) in *.
    assert (Q : select rs' h ready draws = Selected l (Begun c)).
    { rewrite <- L, E. generalize (status0 rs' (select rs' h ready draws)). generalize (select rs' h ready draws). clear.
      intros sel st. replace sel with (e_sel (Entry id' dst' rs' sel st)) at 1 by reflexivity. generalize (Entry id' dst' rs' sel st).
      induction a as [|ev a IH]; intros e; [reflexivity|]. cbn [fold_left]. rewrite <- IH, touch_sel. reflexivity. }
    rewrite Q in E. cbn [status0] in E.
    match type of E with e = fold_left _ _ ?e0 => destruct (fold_going a e0 eq_refl) as [[A F]|[(x & A & F)|[A F]]] end;
      rewrite F in E; subst e; cbn in S; try discriminate. cbn [e_id] in *.
    exists dst', rs', a. split; [|exact A]. exists b, h, ready, draws. split; [reflexivity|]. split; [now apply force_iff|]. now symmetry.
  - intros (dst & rs' & after & (b & h & ready & draws & -> & F & Q) & N). apply force_iff in F. subst rs'.
    eexists. split; [apply grun_in; do 7 eexists; split; reflexivity|]. rewrite <- Q. cbn [status0].
    match goal with |- context [fold_left touch after ?e0] => destruct (fold_going after e0 eq_refl) as [[A E]|[(y & A & E)|[A E]]] end; rewrite E; cbn in *.
    + auto.
    + exfalso. exact (first_some _ _ _ A N).
    + exfalso. exact (first_some _ _ _ A N).
Qed.
Lemma opens_iff : forall rs es id l,
  (exists e, In e (snd (grun rs es)) /\ e_id e = id /\ label_of (e_sel e) = Some l) <-> opens rs es id l.
Proof.
  assert (K : forall a e, e_sel (fold_left touch a e) = e_sel e /\ e_id (fold_left touch a e) = e_id e).
  { induction a as [|ev a IH]; intros e; [auto|]. cbn [fold_left]. destruct (IH (touch e ev)) as [-> ->]. rewrite touch_sel, touch_id. auto. }
  intros rs es id l. split.
  - intros (e & I & <- & L). apply grun_in in I as (b & id' & dst' & h & ready & draws & a & -> & ->).
    rewrite (proj1 (K _ _)) in L. rewrite (proj2 (K _ _)). cbn [e_id e_sel] in *.
    destruct (select (force rs b) h ready draws) as [|l' r] eqn:Q; [discriminate|]. injection L as ->.
    exists dst', (force rs b), r, a, b, h, ready, draws. split; [reflexivity|]. split; [now apply force_iff|]. now symmetry.
  - intros (dst & rs' & r & after & (b & h & ready & draws & -> & F & Q)). apply force_iff in F. subst rs'.
    eexists. split; [apply grun_in; do 7 eexists; split; reflexivity|]. rewrite (proj1 (K _ _)), (proj2 (K _ _)). cbn [e_id e_sel].
    rewrite <- Q. auto.
Qed.

(** ** The state *)

Definition count (P : entry -> bool) (G : list entry) : N := N.of_nat (List.length (filter P G)).
Definition live1 (e : entry) : list (N * conn) :=
  match e_status e, e_sel e with
  | Going, Selected l (Begun c) => [(e_id e, Conn (e_dst e) l (logical_addr (e_rs e)) (l_route l) c)]
  | _, _ => []
  end.
Definition is_open (l : labels) (e : entry) : bool := match e_sel e with Selected l' _ => labels_eqb l' l | _ => false end.
Definition is_closed (lk : labels * option closed_kind) (e : entry) : bool :=
  match e_sel e, e_status e with
  | Selected l' _, Over r => closed_eqb (l', option_map closed_mk r) lk
  | _, _ => false
  end.
Definition is_failed (dk : sock * error_kind) (e : entry) : bool :=
  match e_status e with Over (Some r) => error_eqb (e_dst e, outbound_mk r) dk | _ => false end.

Record related (s : state) (g : routes * list entry) : Prop := {
  re_routes : st_routes s = fst g;
  re_going : forall e, In e (snd g) -> e_status e = Going -> exists l c, e_sel e = Selected l (Begun c);
  re_live : st_live s = flat_map live1 (snd g);
  re_done : forall id r, In (id, r) (st_done s) <-> exists e, In e (snd g) /\ e_id e = id /\ e_status e = Over r;
  re_open : forall l, PromSpec.value labels_eqb l (st_open s) = count (is_open l) (snd g) mod 2 ^ 64;
  re_closed : forall k, PromSpec.value closed_eqb k (st_closed s) = count (is_closed k) (snd g) mod 2 ^ 64;
  re_errors : forall k, PromSpec.value error_eqb k (st_errors s) = count (is_failed k) (snd g) mod 2 ^ 64 }.

Lemma count_cons : forall P e G, count P (e :: G) = (if P e then 1 else 0) + count P G.
Proof. intros P e G. unfold count. cbn [filter]. destruct (P e); cbn [List.length]; lia. Qed.
Lemma count_app : forall P G H, count P (G ++ H) = count P G + count P H.
Proof. intros P G H. unfold count. rewrite filter_app, app_length. lia. Qed.
Lemma bump : forall n, (n mod 2 ^ 64 + 1) mod 2 ^ 64 = (1 + n) mod 2 ^ 64.
Proof. intros n. rewrite N.add_mod_idemp_l by discriminate. f_equal. lia. Qed.

Lemma not_mine : forall ev id G, (forall i x, ev = End i x -> i = id) -> (forall i, ev = Gone i -> i = id) ->
  ~ In id (map e_id G) -> map (fun e => touch e ev) G = G.
Proof.
  intros ev id G H K N. rewrite <- (map_id G) at 2. apply map_ext_in. intros e I. unfold touch.
  assert (D : e_id e <> id) by (intros E; apply N; rewrite <- E; now apply in_map).
  destruct (e_status e); try reflexivity. destruct ev as [| |i x|i]; try reflexivity.
  - rewrite (H i x eq_refl). now rewrite (proj2 (N.eqb_neq _ _) D).
  - rewrite (K i eq_refl). now rewrite (proj2 (N.eqb_neq _ _) D).
Qed.
Lemma not_going : forall ev id G, (forall i x, ev = End i x -> i = id) -> (forall i, ev = Gone i -> i = id) ->
  (forall e, In e G -> e_id e = id -> e_status e <> Going) -> map (fun e => touch e ev) G = G.
Proof.
  intros ev id G H K N. rewrite <- (map_id G) at 2. apply map_ext_in. intros e I. unfold touch.
  destruct (N.eqb_spec (e_id e) id) as [E|D].
  - specialize (N e I E). destruct (e_status e); [contradiction| |]; destruct ev; reflexivity.
  - destruct (e_status e); try reflexivity. destruct ev as [| |i x|i]; try reflexivity.
    + rewrite (H i x eq_refl). now rewrite (proj2 (N.eqb_neq _ _) D).
    + rewrite (K i eq_refl). now rewrite (proj2 (N.eqb_neq _ _) D).
Qed.
Lemma live_ids : forall G id cn, In (id, cn) (flat_map live1 G) -> In id (map e_id G).
Proof.
  intros G id cn I. apply in_flat_map in I as (e & E & I). unfold live1 in I. destruct (e_status e); [|contradiction|contradiction].
  destruct (e_sel e) as [|l [|c]]; try contradiction. destruct I as [I|[]]. injection I as <- _. now apply in_map.
Qed.
Lemma without_none : forall G id, ~ In id (map e_id G) -> without id (flat_map live1 G) = flat_map live1 G.
Proof.
  intros G id N. unfold without. assert (forall x, In x (flat_map live1 G) -> negb (fst x =? id) = true).
  { intros [i cn] I. apply live_ids in I. cbn [fst]. destruct (N.eqb_spec i id) as [->|]; [contradiction|reflexivity]. }
  revert H. generalize (flat_map live1 G). induction l as [|x l IH]; intros H; [reflexivity|]. cbn [filter].
  rewrite (H x (or_introl eq_refl)), IH; [reflexivity|]. intros y I. apply H. now right.
Qed.
Lemma split_id : forall G e, In e G -> NoDup (map e_id G) -> exists G1 G2, G = G1 ++ e :: G2 /\
  ~ In (e_id e) (map e_id G1) /\ ~ In (e_id e) (map e_id G2).
Proof.
  intros G e I N. apply in_split in I as (G1 & G2 & ->). exists G1, G2. split; [reflexivity|]. rewrite map_app in N. cbn [map] in N.
  apply NoDup_remove_2 in N. rewrite in_app_iff in N. tauto.
Qed.
Lemma find_live : forall G id, match find (fun y => fst y =? id) (flat_map live1 G) with
  | Some (i, cn) => i = id /\ exists e l c, In e G /\ e_id e = id /\ e_status e = Going /\ e_sel e = Selected l (Begun c) /\
      cn = Conn (e_dst e) l (logical_addr (e_rs e)) (l_route l) c
  | None => forall e l c, In e G -> e_id e = id -> e_sel e = Selected l (Begun c) -> e_status e <> Going
  end.
Proof.
  intros G id. destruct (find _ _) as [[i cn]|] eqn:F.
  - apply find_some in F as [I E]. cbn [fst] in E. apply N.eqb_eq in E. split; [exact E|].
    apply in_flat_map in I as (e & Ie & I). unfold live1 in I. destruct (e_status e) eqn:S; [|contradiction|contradiction].
    destruct (e_sel e) as [|l [|c]] eqn:Q; try contradiction. destruct I as [I|[]]. injection I as J <-. exists e, l, c. repeat split; auto. congruence.
  - intros e l c I E Q S. eapply find_none in F; [|apply in_flat_map; exists e; split; [exact I|unfold live1; rewrite S, Q; now left]].
    cbn [fst] in F. apply N.eqb_neq in F. contradiction.
Qed.

Lemma related_start : forall rs, related (run rs []) (grun rs []).
Proof.
  intros rs. constructor; try reflexivity.
  - intros e [].
  - intros id r. split; [intros []|]. intros (e & [] & _).
Qed.
Lemma related_same : forall s g g', fst g' = st_routes s -> snd g' = snd g -> related s g -> related s g'.
Proof. intros s [r G] [r' G'] E F []. cbn in *. subst. constructor; auto. Qed.
Lemma map_still : forall ev G, match ev with Update _ | Accept _ _ _ _ _ => True | _ => False end -> map (fun e => touch e ev) G = G.
Proof.
  intros ev G H. rewrite <- (map_id G) at 2. apply map_ext. intros e. unfold touch. destruct ev; try contradiction; destruct (e_status e); reflexivity.
Qed.

Lemma value_count : forall (b : bool) n, (if b then (n mod 2 ^ 64 + 1) mod 2 ^ 64 else n mod 2 ^ 64) = ((if b then 1 else 0) + n) mod 2 ^ 64.
Proof. intros [] n; [apply bump|reflexivity]. Qed.

Lemma related_step : forall rs es ev, once (es ++ [ev]) -> related (run rs es) (grun rs es) ->
  related (run rs (es ++ [ev])) (grun rs (es ++ [ev])).
Proof.
  intros rs es ev O R. apply (once_before) in O. pose proof (once_nodup rs es O) as ND.
  rewrite run_snoc, grun_snoc. destruct (grun rs es) as [rs0 G]. set (s := run rs es) in *. clearbody s. cbn [snd] in ND.
  destruct R as [R1 R2 R3 R4 R5 R6 R7]. cbn [fst snd] in *. unfold gstep. cbn [fst snd].
  destruct ev as [rs'|id dst h ready draws|id x|id].
  - rewrite map_still by exact I. cbn [app force1 step]. constructor; cbn; first [assumption|reflexivity].
  - rewrite map_still by exact I. cbn [app force1 step]. rewrite R1.
    destruct (select rs0 h ready draws) as [e|l [e|c]] eqn:Q; cbn [status0]; constructor;
      cbn [fst snd st_routes st_live st_done st_open st_closed st_errors]; try assumption; try reflexivity.
    + intros d [<-|D]; [discriminate|auto].
    + intros i r. split.
      * intros [E|I]; [injection E as <- <-; eexists; split; [now left|auto]|]. apply R4 in I as (d & D & E); exists d; split; [now right|exact E].
      * intros (d & [<-|D] & E & S); [left; cbn in *; congruence|right; apply R4; eauto].
    + intros k. unfold monitor. rewrite error_inc, R7, count_cons, value_count. reflexivity.
    + intros d [<-|D]; [discriminate|auto].
    + intros i r. split.
      * intros [E|I]; [injection E as <- <-; eexists; split; [now left|auto]|]. apply R4 in I as (d & D & E); exists d; split; [now right|exact E].
      * intros (d & [<-|D] & E & S); [left; cbn in *; congruence|right; apply R4; eauto].
    + intros k. rewrite open_inc, R5, count_cons, value_count. reflexivity.
    + intros k. unfold close. rewrite closed_inc, R6, count_cons, value_count. reflexivity.
    + intros k. unfold monitor. cbn [below option_map]. rewrite error_inc, R7, count_cons, value_count. reflexivity.
    + intros d [<-|D]; [cbn; eauto|auto].
    + rewrite R3. reflexivity.
    + intros i r. rewrite R4. split; intros (d & D & E); exists d; [split; [now right|exact E]|].
      destruct D as [<-|D]; [destruct E; discriminate|auto].
    + intros k. rewrite open_inc, R5, count_cons, value_count. reflexivity.
  - cbn [app force1 step]. rewrite R3. pose proof (find_live G id) as FL.
    destruct (find _ (flat_map live1 G)) as [[i cn]|].
    + destruct FL as [-> (e & l & c & I & E & S & Q & ->)]. destruct (split_id G e I ND) as (G1 & G2 & -> & N1 & N2). rewrite E in N1, N2.
      rewrite map_app. cbn [map]. rewrite !(not_mine (End id x) id) by (try assumption; congruence).
      unfold touch. rewrite S, E, N.eqb_refl. cbn [cn_route cn_to cn_addr cn_labels cn_dst].
      assert (EO : end_of e x = below (logical_addr (e_rs e)) (option_map (cons (Route_error (l_route l))) (concrete_end c x)))
        by (unfold end_of; now rewrite Q).
      constructor; cbn [fst snd st_routes st_live st_done st_open st_closed st_errors].
      * exact R1.
      * intros d D. apply in_app_iff in D as [D|[<-|D]]; [|discriminate|]; apply R2; apply in_app_iff; [now left|right; now right].
      * rewrite !flat_map_app. cbn [flat_map]. unfold without. rewrite !filter_app.
        change (filter (fun x0 => negb (fst x0 =? id)) (flat_map live1 G1)) with (without id (flat_map live1 G1)).
        change (filter (fun x0 => negb (fst x0 =? id)) (flat_map live1 G2)) with (without id (flat_map live1 G2)).
        rewrite !without_none by assumption. unfold live1 at 2 4. rewrite S, Q. cbn [filter fst set_status e_status e_sel app].
        rewrite E, N.eqb_refl. reflexivity.
      * intros i r. rewrite <- EO. split.
        -- intros [P|P].
           ++ injection P as <- <-. exists (set_status e (Over (end_of e x))). split; [apply in_app_iff; right; now left|]. split; [exact E|reflexivity].
           ++ apply R4 in P as (d & D & F & T). exists d. split; [|auto]. apply in_app_iff in D as [D|[<-|D]]; [apply in_app_iff; now left| |apply in_app_iff; right; now right]. congruence.
        -- intros (d & D & F & T). apply in_app_iff in D as [D|[<-|D]].
           ++ right. apply R4. exists d. split; [apply in_app_iff; now left|auto].
           ++ left. cbn in F, T. congruence.
           ++ right. apply R4. exists d. split; [apply in_app_iff; right; now right|auto].
      * intros k. rewrite R5, !count_app, !count_cons. reflexivity.
      * intros k. unfold close. rewrite closed_inc, R6, !count_app, !count_cons, value_count. f_equal.
        unfold is_closed at 2 5. cbn [set_status e_status e_sel]. rewrite Q, S, EO.
        replace (option_map closed_mk (below (logical_addr (e_rs e)) (option_map (cons (Route_error (l_route l))) (concrete_end c x))))
          with (option_map closed_mk (option_map (cons (Route_error (l_route l))) (concrete_end c x))) by (destruct (concrete_end c x); reflexivity).
        destruct (closed_eqb _ _); lia.
      * intros k. rewrite !count_app, !count_cons. unfold is_failed at 2. cbn [set_status e_status e_dst]. rewrite EO.
        destruct (concrete_end c x) as [er|]; cbn [option_map below monitor].
        -- rewrite error_inc, R7, !count_app, !count_cons, value_count. f_equal. unfold is_failed at 2. rewrite S. destruct (error_eqb _ _); lia.
        -- rewrite R7, !count_app, !count_cons. unfold is_failed at 2. rewrite S. reflexivity.
    + assert (NG : forall e, In e G -> e_id e = id -> e_status e <> Going).
      { intros e I E S. destruct (R2 e I S) as (l & c & Q). exact (FL e l c I E Q S). }
      rewrite (not_going (End id x) id) by (try assumption; congruence). constructor; assumption.
  - cbn [app force1 step]. rewrite R3. 
    assert (DEC : (exists e, In e G /\ e_id e = id /\ e_status e = Going) \/ forall e, In e G -> e_id e = id -> e_status e <> Going).
    { clear. induction G as [|e G [(d & D & E)|IH]].
      - right. intros e [].
      - left. exists d. split; [now right|exact E].
      - destruct (N.eqb_spec (e_id e) id) as [E|E]; [destruct (e_status e) eqn:S|].
        + left. exists e. split; [now left|auto].
        + right. intros d [<-|D]; [congruence|auto].
        + right. intros d [<-|D]; [congruence|auto].
        + right. intros d [<-|D]; [contradiction|auto]. }
    destruct DEC as [(e & I & E & S)|NG].
    + destruct (R2 e I S) as (l & c & Q). destruct (split_id G e I ND) as (G1 & G2 & -> & N1 & N2). rewrite E in N1, N2.
      rewrite map_app. cbn [map]. rewrite !(not_mine (Gone id) id) by (try assumption; congruence).
      unfold touch. rewrite S, E, N.eqb_refl.
      constructor; cbn [fst snd st_routes st_live st_done st_open st_closed st_errors].
      * exact R1.
      * intros d D. apply in_app_iff in D as [D|[<-|D]]; [|discriminate|]; apply R2; apply in_app_iff; [now left|right; now right].
      * rewrite !flat_map_app. cbn [flat_map]. unfold without. rewrite !filter_app.
        change (filter (fun x0 => negb (fst x0 =? id)) (flat_map live1 G1)) with (without id (flat_map live1 G1)).
        change (filter (fun x0 => negb (fst x0 =? id)) (flat_map live1 G2)) with (without id (flat_map live1 G2)).
        rewrite !without_none by assumption. unfold live1 at 2 4. rewrite S, Q. cbn [filter fst set_status e_status e_sel app].
        rewrite E, N.eqb_refl. reflexivity.
      * intros i r. rewrite R4. split; intros (d & D & F & T).
        -- exists d. split; [|auto]. apply in_app_iff in D as [D|[<-|D]]; [apply in_app_iff; now left|congruence|apply in_app_iff; right; now right].
        -- apply in_app_iff in D as [D|[<-|D]]; [|cbn in T; discriminate|]; exists d; (split; [|auto]); apply in_app_iff; [now left|right; now right].
      * intros k. rewrite R5, !count_app, !count_cons. reflexivity.
      * intros k. rewrite R6, !count_app, !count_cons. unfold is_closed at 2 5. cbn [set_status e_status e_sel]. rewrite Q, S. reflexivity.
      * intros k. rewrite R7, !count_app, !count_cons. unfold is_failed at 2 5. cbn [set_status e_status e_sel]. rewrite S. reflexivity.
    + rewrite (not_going (Gone id) id) by (try assumption; congruence).
      assert (W : without id (flat_map live1 G) = st_live s).
      { rewrite R3. unfold without. clear - NG. assert (forall x, In x (flat_map live1 G) -> negb (fst x =? id) = true).
        { intros [i cn] I. apply in_flat_map in I as (e & Ie & I). unfold live1 in I. destruct (e_status e) eqn:S; [|contradiction|contradiction].
          destruct (e_sel e) as [|l [|c]]; try contradiction. destruct I as [I|[]]. injection I as <- _. cbn [fst].
          destruct (N.eqb_spec (e_id e) id) as [E|]; [|reflexivity]. exfalso. exact (NG e Ie E S). }
        revert H. generalize (flat_map live1 G). induction l as [|y l IH]; intros H; [reflexivity|]. cbn [filter].
        rewrite (H y (or_introl eq_refl)), IH; [reflexivity|]. intros z I. apply H. now right. }
      rewrite W. constructor; assumption.
Qed.
Lemma related_run : forall rs es, once es -> related (run rs es) (grun rs es).
Proof.
  intros rs es. induction es as [|ev es IH] using rev_ind; intros O; [apply related_start|].
  apply related_step; [exact O|]. apply IH. exact (once_before _ _ O).
Qed.

(** ** The theorems on histories *)

Lemma done_iff : forall rs es id r, once es -> (In (id, r) (st_done (run rs es)) <-> exists dst l, comes_to rs es id dst l r).
Proof.
  intros rs es id r O. rewrite (re_done _ _ (related_run rs es O)). split.
  - intros (e & I & E & S). exists (e_dst e), (label_of (e_sel e)). apply over_iff. exists e. auto.
  - intros (dst & l & H). apply over_iff in H as (e & I & E & _ & _ & S). eauto.
Qed.
Lemma live_iff : forall rs es id l c, once es ->
  ((exists cn, In (id, cn) (st_live (run rs es)) /\ cn_labels cn = l /\ cn_to cn = c) <-> goes_on rs es id l c).
Proof.
  intros rs es id l c O. rewrite (re_live _ _ (related_run rs es O)), <- going_iff. split.
  - intros (cn & I & <- & <-). apply in_flat_map in I as (e & Ie & I). exists e. split; [exact Ie|]. unfold live1 in I.
    destruct (e_status e); [|contradiction|contradiction]. destruct (e_sel e) as [|l [|c]]; try contradiction.
    destruct I as [I|[]]. injection I as <- <-. auto.
  - intros (e & I & <- & Q & S). eexists. split; [apply in_flat_map; exists e; split; [exact I|unfold live1; rewrite S, Q; now left]|]. auto.
Qed.
Lemma many : forall G (P : entry -> bool) (Q : N -> Prop) n, NoDup (map e_id G) -> n = count P G mod 2 ^ 64 ->
  (forall a, (exists e, In e G /\ e_id e = a /\ P e = true) <-> Q a) -> PromSpec.how_many Q n.
Proof.
  intros G P Q n ND -> H. exists (map e_id (filter P G)). split; [|split].
  - clear - ND. induction G as [|e G IH]; [constructor|]. cbn [map] in ND. inversion ND as [|? ? N D]; subst. cbn [filter].
    destruct (P e); [|now apply IH]. cbn [map]. constructor; [|now apply IH]. intros I. apply N. apply in_map_iff in I as (d & <- & I).
    apply filter_In in I as [I _]. now apply in_map.
  - intros a. rewrite <- H, in_map_iff. split; intros (e & A & B).
    + apply filter_In in B as [B C]. eauto.
    + destruct B as [B C]. exists e. split; [exact B|]. apply filter_In. auto.
  - rewrite map_length. reflexivity.
Qed.
Lemma open_many : forall rs es l, once es ->
  PromSpec.how_many (fun id => exists l', opens rs es id l' /\ same_series l' l) (PromSpec.value labels_eqb l (st_open (run rs es))).
Proof.
  intros rs es l O. apply (many _ (is_open l) _ _ (once_nodup rs es O) (re_open _ _ (related_run rs es O) l)).
  intros a. split.
  - intros (e & I & <- & P). unfold is_open in P. destruct (e_sel e) as [|l' r] eqn:Q; [discriminate|]. exists l'.
    split; [|now apply labels_eqb_iff]. apply opens_iff. exists e. rewrite Q. auto.
  - intros (l' & H & S). apply opens_iff in H as (e & I & E & L). exists e. split; [exact I|]. split; [exact E|]. unfold is_open.
    destruct (e_sel e) as [|l'' r]; [discriminate|]. injection L as ->. now apply labels_eqb_iff.
Qed.
Lemma closed_many : forall rs es l k, once es ->
  PromSpec.how_many (fun id => exists l', closes rs es id l' k /\ same_series l' l) (PromSpec.value closed_eqb (l, k) (st_closed (run rs es))).
Proof.
  intros rs es l k O. apply (many _ (is_closed (l, k)) _ _ (once_nodup rs es O) (re_closed _ _ (related_run rs es O) (l, k))).
  intros a. split.
  - intros (e & I & <- & P). unfold is_closed in P. destruct (e_sel e) as [|l' r0] eqn:Q; [discriminate|].
    destruct (e_status e) as [|r|] eqn:S; try discriminate. apply closed_eqb_iff in P as [P K]. exists l'. split; [|exact P].
    exists (e_dst e), r. split; [apply over_iff; exists e; rewrite Q; auto|]. destruct r as [er|]; [|now symmetry].
    exists (closed_mk er). split; [now symmetry|]. now apply closed_iff.
  - intros (l' & (dst & r & H & K) & S). apply over_iff in H as (e & I & E & D & L & T). exists e. split; [exact I|]. split; [exact E|].
    unfold is_closed. rewrite T. destruct (e_sel e) as [|l'' r0]; [discriminate|]. injection L as ->. apply closed_eqb_iff. split; [exact S|].
    destruct r as [er|]; [|now symmetry]. destruct K as (k' & -> & K). apply closed_iff in K. cbn. now rewrite K.
Qed.
Lemma errors_many : forall rs es d k, once es ->
  PromSpec.how_many (fun id => fails rs es id d k) (PromSpec.value error_eqb (d, k) (st_errors (run rs es))).
Proof.
  intros rs es d k O. apply (many _ (is_failed (d, k)) _ _ (once_nodup rs es O) (re_errors _ _ (related_run rs es O) (d, k))).
  intros a. split.
  - intros (e & I & <- & P). unfold is_failed in P. destruct (e_status e) as [|[r|]|] eqn:S; try discriminate.
    apply error_eqb_iff in P as [<- K]. exists (label_of (e_sel e)), r. split; [apply over_iff; exists e; auto|]. now apply outbound_iff.
  - intros (l & r & H & K). apply over_iff in H as (e & I & E & D & L & T). exists e. split; [exact I|]. split; [exact E|].
    unfold is_failed. rewrite T. apply error_eqb_iff. split; [exact D|]. now apply outbound_iff.
Qed.
Lemma each : forall rs es id l, once es -> opens rs es id l ->
  (exists k, closes rs es id l k /\ forall k', closes rs es id l k' -> k' = k) \/
  (exists c, goes_on rs es id l c) \/ dropped rs es id l.
Proof.
  intros rs es id l O (dst & rs' & r & after & A).
  assert (U : forall d d' q q', comes_to rs es id d (Some l) q -> comes_to rs es id d' (Some l) q' -> q = q').
  { intros d d' q q' H H'. apply over_iff in H as (e & I & E & _ & _ & S). apply over_iff in H' as (e' & I' & E' & _ & _ & S').
    destruct (split_id _ e I (once_nodup rs es O)) as (G1 & G2 & Q & N1 & N2). rewrite Q in I'. rewrite E, <- E' in N1, N2.
    apply in_app_iff in I' as [I'|[<-|I']].
    - exfalso. apply N1. now apply in_map.
    - congruence.
    - exfalso. apply N2. now apply in_map. }
  assert (C : forall d q, comes_to rs es id d (Some l) q -> exists k, closes rs es id l k /\ forall k', closes rs es id l k' -> k' = k).
  { intros d q H. exists (option_map closed_mk q). split.
    - exists d, q. split; [exact H|]. destruct q as [e|]; [|reflexivity]. exists (closed_mk e). split; [reflexivity|]. now apply closed_iff.
    - intros k' (d' & q' & H' & K). rewrite <- (U _ _ _ _ H H') in K. destruct q as [e|]; [|exact K]. destruct K as (k0 & -> & K).
      apply closed_iff in K. cbn. now rewrite K. }
  destruct r as [e|c].
  - left. eapply C. eapply refused. exact A.
  - destruct (fold_going after (Entry id dst rs' (Selected l (Begun c)) Going) eq_refl) as [[N _]|[(x & N & _)|[N _]]]; cbn [e_id] in N.
    + right. left. exists c, dst, rs', after. auto.
    + left. eapply C. eapply ended; [exact A|exact N|]. apply told_iff. reflexivity.
    + right. right. exists dst, rs', c, after. auto.
Qed.

Lemma text_same : forall a b, telling a -> telling b -> text_of a = text_of b -> same_series a b.
Proof.
  intros [p r g] [p' r' g'] T T' E. unfold text_of, encode, encode_service, encode_meta in E. cbn in E.
  injection E as E1 E2 E3 E4 E5 E6 E7 E8 E9 E10 E11. unfold same_series, same_meta. cbn. repeat split; try assumption.
  unfold telling in T, T'. cbn [l_goal] in T, T'. destruct g as [[n|[i q]]|[h|]], g' as [[n'|[i' q']]|[h'|]]; try contradiction; cbn in E11; try discriminate.
  - injection E11 as -> ->. reflexivity.
  - injection E11 as ->. reflexivity.
  - injection E11 as ->. contradiction.
  - injection E11 as E11. subst. contradiction.
  - reflexivity.
Qed.

Lemma policy_valid : forall F P (p : route_policy F P) t, mk_policy true p = Some t -> DistributeSpec.valid (ta_distribution t).
Proof.
  intros F P p t E2. unfold mk_policy in E2. destruct (mk_distribution true (rp_distribution p)) as [d|] eqn:E3; [|discriminate].
  injection E2 as <-. cbn [ta_distribution]. destruct (rp_distribution p) as [|l|l]; cbn in E3.
  - injection E3 as <-. exact I.
  - destruct (collect _ l) as [keys|]; [|discriminate]. injection E3 as <-. unfold DistributeModel.first_available. destruct keys; exact I.
  - destruct (collect _ l) as [keys|]; [|discriminate].
    unfold DistributeModel.random_route in E3.
    destruct (DistributeModel.random_available keys) as [d'|] eqn:E4; [|discriminate]. injection E3 as <-.
    exact (DistributeProofs.random_valid _ _ _ E4).
Qed.
Lemma opaq_built : forall o backends r a p, mk_opaq_router o backends = Some r -> all_valid (Opaq_routes a p (ro_routes r)).
Proof.
  intros o backends r a p H. unfold mk_opaq_router in H. destruct (transpose (mk_policy true) o) as [rt|] eqn:E; [|discriminate].
  destruct (collect (mk_dispatch true) backends) as [cs|]; [|discriminate]. injection H as <-. cbn [ro_routes all_valid].
  destruct o as [x|]; cbn in E.
  - destruct (mk_policy true x) as [t|] eqn:Q; [|discriminate]. injection E as <-. exact (policy_valid _ _ _ _ Q).
  - injection E as <-. exact I.
Qed.
Lemma tls_built : forall rts backends r a p, mk_tls_router rts backends = Some r -> all_valid (Tls_routes a p (ro_routes r)).
Proof.
  intros rts backends r a p H. unfold mk_tls_router in H.
  match type of H with context [collect ?f rts] => destruct (collect f rts) as [rs|] eqn:E; [|discriminate] end.
  destruct (collect (mk_dispatch true) backends) as [cs|]; [|discriminate]. injection H as <-. cbn [ro_routes all_valid].
  intros rt I. destruct (OutboundProofs.collect_in _ _ _ E rt I) as (x & _ & X).
  destruct (mk_policy true (TlsRouteModel.tr_policy x)) as [t|] eqn:Q; [|discriminate]. injection X as <-. exact (policy_valid _ _ _ _ Q).
Qed.

(** ** In the words of the properties *)

Lemma reaches : forall rs h ready draws l c, all_valid rs -> select rs h ready draws = Selected l (Begun c) ->
  exists f d i, takes rs h l f [] d /\ OutboundSpec.picks d (among ready draws) (Some i) /\
    OutboundSpec.available d (among ready draws) i /\ OutboundSpec.backend_at d i ([], c) /\ (forall m, c_target c <> Fail_with m).
Proof.
  intros rs h ready draws l c V S. destruct (select_takes _ _ _ _ _ _ S) as (f & fs & d & T). destruct fs as [|x fs].
  - destruct (unfiltered rs h l f d ready draws V T) as [[_ E]|(i & fs & c' & P & B & K)].
    + rewrite E in S. discriminate.
    + destruct K as [(x & fs' & _ & E)|[(_ & m & _ & E)|(-> & N & E)]]; unfold turned_away in *; rewrite E in S; try discriminate.
      injection S as <-. exists f, d, i. split; [exact T|]. split; [exact P|]. split; [exact (proj1 (OutboundProofs.picks_backend _ _ _ P))|]. auto.
  - pose proof (refused_by_route _ _ _ _ _ _ _ ready draws T) as E. unfold turned_away in E. rewrite E in S. discriminate.
Qed.
Lemma shed : forall rs h ready draws l f d, all_valid rs -> takes rs h l f [] d ->
  (turned_away l Load_shed (select rs h ready draws) <-> forall i, ~ OutboundSpec.available d (among ready draws) i).
Proof.
  intros rs h ready draws l f d V T. pose proof (takes_valid _ _ _ _ _ _ T V) as VD.
  destruct (unfiltered rs h l f d ready draws V T) as [[P E]|(i & fs & c' & P & B & K)].
  - split; [|intros _; exact E]. intros _ i. now apply OutboundProofs.picks_none.
  - split; intros H.
    + exfalso. unfold turned_away in H.
      destruct K as [(x & fs' & _ & E)|[(_ & m & _ & E)|(-> & N & E)]]; unfold turned_away in *; rewrite E in H; try discriminate; try (destruct x; discriminate).
    + exfalso. apply (H i). exact (proj1 (OutboundProofs.picks_backend _ _ _ P)).
Qed.
Lemma some_backend : forall rs h ready draws l f d, all_valid rs -> takes rs h l f [] d ->
  (exists i, OutboundSpec.available d (among ready draws) i) ->
  exists i fs c, OutboundSpec.picks d (among ready draws) (Some i) /\ OutboundSpec.available d (among ready draws) i /\
    OutboundSpec.backend_at d i (fs, c) /\
    match fs, c_target c with
    | x :: _, _ => turned_away l (says f x) (select rs h ready draws)
    | [], Fail_with m => turned_away l (Dispatcher_failed m) (select rs h ready draws)
    | [], _ => select rs h ready draws = Selected l (Begun c)
    end.
Proof.
  intros rs h ready draws l f d V T [j J].
  destruct (unfiltered rs h l f d ready draws V T) as [[P E]|(i & fs & c & P & B & K)].
  - exfalso. exact (OutboundProofs.picks_none _ _ j P J).
  - exists i, fs, c. split; [exact P|]. split; [exact (proj1 (OutboundProofs.picks_backend _ _ _ P))|]. split; [exact B|].
    destruct K as [(x & fs' & -> & E)|[(-> & m & Q & E)|(-> & N & E)]].
    + exact E.
    + now rewrite Q.
    + destruct (c_target c); [exact E|exact E|]. exfalso. now apply (N message).
Qed.
Lemma no_route : forall rs h ready draws, (exists a, select rs h ready draws = No_selection a) <-> forall l f fs d, ~ takes rs h l f fs d.
Proof.
  intros rs h ready draws. split.
  - intros [a E] l f fs d T. rewrite (takes_select _ _ _ _ _ _ ready draws T) in E. discriminate.
  - intros N. destruct (select rs h ready draws) as [a|l r] eqn:E; [eauto|]. destruct (select_takes _ _ _ _ _ _ E) as (f & fs & d & T).
    exfalso. exact (N _ _ _ _ T).
Qed.
Lemma why_none : forall rs h ready draws e, select rs h ready draws = No_selection e ->
  match rs, h with
  | Opaq_routes a _ _, _ => e = [Logical_error a; No_route Opaq_stack]
  | Tls_routes _ _ _, Timed_out => e = [Sni_timeout]
  | Tls_routes _ _ _, Read_failed => e = [Io_error]
  | Tls_routes _ _ _, Found None => e = [Sni_missing]
  | Tls_routes a _ rts, Found (Some sni) => e = [Logical_error a; No_route Tls_stack] /\ forall rt r, In rt rts -> ~ TlsRouteSpec.tls_applies rt sni r
  end.
Proof.
  intros [a p [t|]|a p rts] h ready draws e; cbn [select]; try discriminate.
  - now intros [= <-].
  - destruct h as [[sni|]| |]; try (now intros [= <-]). destruct (TlsRouteModel.tls_select rts sni) as [t|] eqn:E; [discriminate|].
    intros [= <-]. split; [reflexivity|]. now apply TlsRouteProofs.tls_select_none.
Qed.
Lemma hears : forall a p rts h ready draws l r, select (Tls_routes a p rts) h ready draws = Selected l r -> exists sni, h = Found (Some sni).
Proof. intros a p rts [[sni|]| |] ready draws l r; cbn [select]; try discriminate. eauto. Qed.
