(** Proofs about the discovery of destinations. *)
From Coq Require Import String List Arith NArith Bool Lia.
From Verif Require Import Bytes BytesProofs NameModel EndpointModel DnsModel ProfileModel DiscoverModel DiscoverSpec.
From Verif Require TraceModel RouteModel FilterModel Http1Model Http1Spec Http1Proofs HintSpec HintProofs.
Import ListNotations.
Open Scope N_scope.

(** ** Lookups *)

Lemma has_status e c : has_grpc_status e c = true <-> status_of e c.
Proof.
  unfold status_of. induction e as [|x e IH]; cbn [has_grpc_status].
  - split; [discriminate|]. intros (a & b & E & _). destruct a; discriminate.
  - assert (G : (forall k, x <> Status k) ->
      (has_grpc_status e c = true <-> exists a b, x :: e = a ++ Status c :: b /\ forall c, ~ In (Status c) a)).
    { intros NX. rewrite IH. split.
      - intros (a & b & -> & F). exists (x :: a), b. split; [reflexivity|].
        intros k [J|J]; [exact (NX k J)|exact (F k J)].
      - intros (a & b & E & F). destruct a as [|y a]; cbn in E.
        + injection E as E0 _. destruct (NX _ E0).
        + injection E as E0 E1. exists a, b. split; [exact E1|]. intros k J. exact (F k (or_intror J)). }
    destruct x as [k| |]; [|apply G; discriminate|apply G; discriminate].
    clear G. rewrite N.eqb_eq. split.
    + intros ->. exists [], e. split; [reflexivity|]. intros k J. exact J.
    + intros (a & b & E & F). destruct a as [|y a]; cbn in E.
      * injection E as E0 _. exact E0.
      * injection E as E0 _. destruct (F k). left. exact (eq_sym E0).
Qed.
Lemma not_served_iff e :
  has_grpc_status e NOT_FOUND || has_grpc_status e UNIMPLEMENTED = true <-> not_served e.
Proof. unfold not_served. rewrite orb_true_iff, !has_status. reflexivity. Qed.

Lemma rejected_iff e : is_rejected e = true <-> refused e.
Proof.
  unfold refused. induction e as [|x e IH]; cbn [is_rejected].
  - split; [discriminate|]. intros (a & x & b & E & _). destruct a; discriminate.
  - destruct x as [c| |].
    + rewrite orb_true_iff, !N.eqb_eq. split.
      * intros H. exists [], (Status c), e. split; [reflexivity|]. split; [intros y []|]. right. destruct H as [H|H]; rewrite H; auto.
      * intros (a & x & b & E & F & G). destruct a as [|y a]; cbn in E.
        { injection E as <- _. destruct G as [G|[G|G]]; [discriminate|left|right]; congruence. }
        injection E as <- _. specialize (F _ (or_introl eq_refl)). discriminate.
    + split; [|reflexivity]. intros _. exists [], Rejected, e. split; [reflexivity|]. split; [intros y []|left; reflexivity].
    + rewrite IH. split.
      * intros (a & x & b & -> & F & G). exists (Other_error :: a), x, b. split; [reflexivity|]. split; [|exact G].
        intros y [J|J]; [exact (eq_sym J)|exact (F y J)].
      * intros (a & x & b & E & F & G). destruct a as [|y a]; cbn in E.
        { injection E as <- _. destruct G as [G|[G|G]]; discriminate. }
        injection E as _ E. exists a, x, b. split; [exact E|]. split; [|exact G]. intros z J. exact (F z (or_intror J)).
Qed.
Lemma recovered_iff {P} (r : option P + error) x :
  recover_default r = x <->
  (exists w, r = inl w /\ x = inl w) \/ (exists e, r = inr e /\ (refused e /\ x = inl None \/ ~ refused e /\ x = inr e)).
Proof.
  unfold recover_default. destruct r as [w|e].
  - split; [intros <-; left; exists w; auto|]. intros [(w' & E & ->)|(e & E & _)]; congruence.
  - destruct (is_rejected e) eqn:R.
    + apply rejected_iff in R. split; [intros <-; right; exists e; auto|].
      intros [(w & E & _)|(e' & E & H)]; [discriminate|]. injection E as <-. destruct H as [[_ ->]|[N _]]; [reflexivity|contradiction].
    + assert (N : ~ refused e) by (intros F; apply rejected_iff in F; congruence).
      split; [intros <-; right; exists e; auto|].
      intros [(w & E & _)|(e' & E & H)]; [discriminate|]. injection E as <-. destruct H as [[F _]|[_ ->]]; [contradiction|reflexivity].
Qed.
Lemma not_allowed {P W} (lookup : option P + error) (policy : W + error) r s :
  resolved (with_allowlist false lookup) policy = Some (r, s) -> r = None /\ s <> From_profile.
Proof.
  unfold resolved. cbn [with_allowlist]. destruct policy as [w|e].
  - intros E. injection E as <- <-. split; [reflexivity|discriminate].
  - destruct (_ || _); [|discriminate]. intros E. injection E as <- <-. split; [reflexivity|discriminate].
Qed.

Lemma resolved_iff {P W} (pr : option P + error) (po : W + error) r :
  resolved pr po = r <-> discovered pr po r.
Proof.
  unfold resolved. split.
  - intros <-. destruct po as [w|e].
    + destruct pr; constructor.
    + destruct (has_grpc_status e NOT_FOUND || has_grpc_status e UNIMPLEMENTED) eqn:E.
      * apply not_served_iff in E. destruct pr as [[p|]|e']; constructor; exact E.
      * constructor. intros F. apply not_served_iff in F. congruence.
  - intros D. destruct D; cbn [fst]; try reflexivity;
      try (apply not_served_iff in H; rewrite H; reflexivity).
    destruct (has_grpc_status e NOT_FOUND || has_grpc_status e UNIMPLEMENTED) eqn:E; [|reflexivity].
    apply not_served_iff in E. contradiction.
Qed.

Lemma ingress_iff {P W} (pr : option P + error) (po : W + error) r :
  ingress_resolved pr po = r <->
  (r = None /\ discovered pr po (Some (None, From_nothing))) \/
  (r <> Some (None, From_nothing) /\ discovered pr po r).
Proof.
  unfold ingress_resolved. rewrite <- !resolved_iff.
  destruct (resolved pr po) as [[[p|] []]|];
    split; intros E; try (subst r; right; split; [congruence|reflexivity]);
    try (subst r; left; split; reflexivity);
    try (destruct E as [[-> E]|[E0 E]]; [discriminate|exact E]).
  destruct E as [[-> E]|[E0 E]]; [reflexivity|]. congruence.
Qed.

Lemma any_found {P} (p : P) req :
  exists s, RouteModel.http_find [RouteModel.Route [] [RouteModel.Rule [any_request] p]] req = Some (s, p).
Proof. eexists. reflexivity. Qed.

Lemma for_backend m t b : all_to (policy_for_backend m t b) t (b_dispatcher b).
Proof.
  unfold all_to, policy_for_backend. cbn [cp_protocol cp_backends].
  set (pol := RoutePolicy m [] 0 (First_available [RouteBackend [] b])).
  assert (L : leads_to pol (b_dispatcher b)).
  { split; [reflexivity|]. split; [reflexivity|]. exists b. split; reflexivity. }
  do 3 eexists. split; [reflexivity|]. split; [exact L|]. cbn [fst].
  split; [|split].
  - intros req. destruct (any_found pol req) as [s E]. exists s, pol. split; [exact E|exact L].
  - intros req. destruct (any_found pol req) as [s E]. exists s, pol. split; [exact E|exact L].
  - exists b. split; reflexivity.
Qed.

Lemma to_orig_dst c o : all_to (origdst_policy c o) (c_timeout c) (Forward o default_metadata).
Proof. exact (for_backend _ _ (Backend _ _ (Forward o default_metadata))). Qed.
Lemma to_endpoint c o p :
  all_to (sidecar_synthesis c o p) (c_timeout c)
    (match p_end p with Some (a, md) => Forward a md | None => Forward o default_metadata end).
Proof.
  unfold sidecar_synthesis. destruct (p_end p) as [[a md]|].
  - exact (for_backend _ _ (Backend _ _ (Forward a md))).
  - exact (for_backend _ _ (Backend _ _ (Forward o default_metadata))).
Qed.
Lemma in_ingress c p :
  (forall a md, p_end p = Some (a, md) -> all_to (ingress_synthesis c p) (c_timeout c) (Forward a md)) /\
  (forall n, p_end p = None -> p_addr p = Some n ->
     all_to (ingress_synthesis c p) (c_timeout c) (Balance (c_load c) (name_addr_to_string n))) /\
  (p_end p = None -> p_addr p = None -> all_nowhere (ingress_synthesis c p)).
Proof.
  unfold ingress_synthesis. split; [|split].
  - intros a md ->. exact (for_backend _ _ (Backend _ _ (Forward a md))).
  - intros n -> ->. exact (for_backend _ _ (Backend _ _ (Balance (c_load c) (name_addr_to_string n)))).
  - intros -> ->. do 3 eexists. split; [reflexivity|]. repeat split; reflexivity.
Qed.

(** ** Watches *)

Open Scope nat_scope.
Section Follow.
Context {A B : Type}.
Variable mk : A -> option B.

Notation run := (fold_left (handle mk)).

(** Nothing is left for the task to see, or it will be seen. *)
Definition fresh (f : follower A B) : Prop :=
  f_unseen f = false -> forall b, mk (f_source f) = Some b -> f_value f = b.
Definition live (f : follower A B) : Prop := f_runs f = true \/ (f_open f = false /\ f_unseen f = false).

Lemma handle_keeps f e :
  e <> Dropped -> f_read f = true -> fresh f -> live f ->
  f_read (handle mk f e) = true /\ fresh (handle mk f e) /\ live (handle mk f e).
Proof.
  intros D R F L. destruct f as [s u o v r t]. unfold fresh, live in *. cbn in *. subst r.
  destruct e; cbn; try contradiction.
  - destruct o; cbn; [|tauto]. split; [reflexivity|]. split; [discriminate|].
    destruct L as [L|[L _]]; [left; exact L|discriminate].
  - split; [reflexivity|]. split; [exact F|]. destruct L as [L|[_ L]]; [left; exact L|right; split; [reflexivity|exact L]].
  - destruct t; cbn.
    + split; [reflexivity|]. split.
      * intros _ b E. destruct u; [rewrite E; reflexivity|exact (F eq_refl b E)].
      * destruct o; [left; reflexivity|right; split; reflexivity].
    + tauto.
Qed.
Lemma run_keeps es : forall f,
  ~ In Dropped es -> f_read f = true -> fresh f -> live f ->
  f_read (run es f) = true /\ fresh (run es f) /\ live (run es f).
Proof.
  induction es as [|e es IH]; intros f D R F L; [tauto|]. cbn [fold_left].
  destruct (handle_keeps f e) as (R' & F' & L'); try assumption.
  { intros ->. apply D. left. reflexivity. }
  apply IH; try assumption. intros J. apply D. right. exact J.
Qed.
Lemma source_closed es : forall f, f_open f = false -> f_source (run es f) = f_source f.
Proof.
  induction es as [|e es IH]; intros f O; [reflexivity|]. cbn [fold_left].
  rewrite IH.
  - destruct f as [s u o v r t]. cbn in O. subst o. destruct e; cbn; try reflexivity.
    destruct t; cbn; [|reflexivity]. destruct r; reflexivity.
  - destruct f as [s u o v r t]. cbn in O. subst o. destruct e; cbn; try reflexivity.
    destruct t; cbn; [|reflexivity]. destruct r; reflexivity.
Qed.
Lemma source_holds es : forall f, f_open f = true -> f_source (run es f) = holds (f_source f) es.
Proof.
  induction es as [|e es IH]; intros f O; [reflexivity|]. cbn [fold_left holds].
  destruct f as [s u o v r t]. cbn in O. subst o. destruct e; cbn.
  - rewrite IH; reflexivity.
  - rewrite source_closed; reflexivity.
  - rewrite IH; reflexivity.
  - destruct t; cbn; [|rewrite IH; reflexivity]. destruct r; cbn; rewrite IH; reflexivity.
Qed.

Lemma follows a init es b :
  mk a = Some init -> ~ In Dropped es -> mk (holds a es) = Some b ->
  f_value (follow mk a init (es ++ [Polled])) = b.
Proof.
  intros I D E. unfold follow. rewrite fold_left_app. cbn [fold_left].
  pose (f := run es (spawn a init)). fold f.
  destruct (run_keeps es (spawn a init)) as (R & F & L); try assumption.
  { reflexivity. } { intros _ b' E'. cbn in *. congruence. } { left. reflexivity. }
  assert (S : f_source f = holds a es) by exact (source_holds es (spawn a init) eq_refl).
  fold f in R, F, L. destruct f as [s u o v r t]. unfold fresh, live in *. cbn in *. subst r s.
  destruct t; cbn.
  - destruct u; [rewrite E; reflexivity|exact (F eq_refl b E)].
  - destruct L as [L|[_ L]]; [discriminate|]. exact (F L b E).
Qed.

(** The task has taken the [n]th value of the source, and shows one of those up to it. *)
Lemma held_nonempty (a : A) (es : list (event A)) : held a es <> [].
Proof. revert a. induction es as [|[b| | |] es IH]; intros a; cbn; try discriminate; apply IH. Qed.
Lemma held_app (a : A) (es es' : list (event A)) : exists l, held a (es ++ es') = held a es ++ l.
Proof.
  revert a. induction es as [|[b| | |] es IH]; intros a; cbn; try apply IH.
  - revert a. induction es' as [|[b| | |] es' IH]; intros a; cbn; try apply IH.
    + exists []. reflexivity.
    + exists (held b es'). reflexivity.
    + exists []. reflexivity.
  - destruct (IH b) as [l E]. exists l. rewrite E. reflexivity.
  - exists []. reflexivity.
Qed.
Lemma holds_last (a : A) (es : list (event A)) : nth_error (held a es) (List.length (held a es) - 1) = Some (holds a es).
Proof.
  revert a. induction es as [|[b| | |] es IH]; intros a; cbn [held holds]; try apply IH; try reflexivity.
  specialize (IH b). cbn [List.length]. destruct (held b es) as [|x l] eqn:E.
  - destruct (held_nonempty b es E).
  - cbn [List.length] in *. replace (S (S (List.length l)) - 1) with (S (S (List.length l) - 1)) by lia.
    exact IH.
Qed.
Lemma gives_app a es es' i b : gives mk a es i b -> gives mk a (es ++ es') i b.
Proof.
  intros (x & N & E). exists x. split; [|exact E]. destruct (held_app a es es') as [l ->].
  rewrite nth_error_app1; [exact N|]. apply nth_error_Some. congruence.
Qed.

Lemma run_snoc a init es e : follow mk a init (es ++ [e]) = handle mk (follow mk a init es) e.
Proof. unfold follow. rewrite fold_left_app. reflexivity. Qed.

Lemma shown_step a init es e i :
  gives mk a es i (f_value (follow mk a init es)) ->
  exists j, i <= j /\ gives mk a (es ++ [e]) j (f_value (follow mk a init (es ++ [e]))).
Proof.
  intros G. rewrite run_snoc.
  assert (S : f_source (follow mk a init es) = holds a es) by exact (source_holds es (spawn a init) eq_refl).
  destruct (follow mk a init es) as [s u o v r t]. cbn [f_source f_value] in *.
  assert (K : forall v', v' = v -> exists j, i <= j /\ gives mk a (es ++ [e]) j v').
  { intros v' ->. exists i. split; [lia|]. apply gives_app. exact G. }
  destruct e; cbn [handle f_open f_runs f_read f_unseen f_source f_value].
  - destruct o; apply K; reflexivity.
  - apply K; reflexivity.
  - apply K; reflexivity.
  - destruct t; cbn [negb f_value]; [|apply K; reflexivity].
    destruct r; cbn [negb f_value]; [|apply K; reflexivity].
    destruct u; [|apply K; reflexivity].
    destruct (mk s) as [b|] eqn:E; [|apply K; reflexivity].
    exists (List.length (held a es) - 1). split.
    + destruct G as (x & N & _). assert (i < List.length (held a es)) by (apply nth_error_Some; congruence). lia.
    + apply gives_app. exists s. split; [|exact E]. rewrite S. apply holds_last.
Qed.
Lemma shown_init a init : mk a = Some init -> gives mk a [] 0 init.
Proof. intros E. exists a. split; [reflexivity|exact E]. Qed.
Lemma shown_more a init es' : forall es i,
  gives mk a es i (f_value (follow mk a init es)) ->
  exists j, i <= j /\ gives mk a (es ++ es') j (f_value (follow mk a init (es ++ es'))).
Proof.
  induction es' as [|e es' IH]; intros es i G.
  - rewrite app_nil_r. exists i. split; [lia|exact G].
  - destruct (shown_step _ _ _ e _ G) as (j & L & G'). destruct (IH _ _ G') as (k & L' & G'').
    rewrite <- app_assoc in G''. exists k. split; [lia|exact G''].
Qed.
Lemma in_order a init es es' :
  mk a = Some init ->
  exists i j, i <= j /\ gives mk a es i (f_value (follow mk a init es)) /\
    gives mk a (es ++ es') j (f_value (follow mk a init (es ++ es'))).
Proof.
  intros E. destruct (shown_more a init es [] 0 (shown_init a init E)) as (i & _ & G).
  destruct (shown_more a init es' es i G) as (j & L & G'). exists i, j. auto.
Qed.
(** Of those values of the source that give nothing, nothing comes. *)
Lemma ignored a init es es' :
  mk a = Some init -> f_unseen (follow mk a init es) = false ->
  (forall x, In (Published x) es' -> mk x = None) ->
  f_value (follow mk a init (es ++ es')) = f_value (follow mk a init es).
Proof.
  intros E U F. unfold follow. rewrite fold_left_app. fold (follow mk a init es).
  assert (H : forall es' f, (f_unseen f = true -> mk (f_source f) = None) ->
    (forall x, In (Published x) es' -> mk x = None) -> f_value (run es' f) = f_value f).
  { clear. induction es' as [|e es' IH]; intros f U F; [reflexivity|]. cbn [fold_left].
    rewrite IH.
    - destruct f as [s u o v r t]. cbn in U. destruct e; cbn; try reflexivity.
      + destruct o; reflexivity.
      + destruct t; cbn; [|reflexivity]. destruct r; cbn; [|reflexivity].
        destruct u; [rewrite (U eq_refl)|]; reflexivity.
    - destruct f as [s u o v r t]. cbn in U. destruct e; cbn.
      + destruct o; cbn; [|exact U]. intros _. apply F. left. reflexivity.
      + exact U.
      + exact U.
      + destruct t; cbn; [|exact U]. destruct r; cbn; [discriminate|exact U].
    - intros x J. apply F. right. exact J. }
  apply H; [rewrite U; discriminate|exact F].
Qed.
End Follow.
Open Scope N_scope.

(** ** Connections *)

Lemma override_iff p a : should_override_policy p = Some a <-> overrides p a.
Proof.
  unfold should_override_policy, has_routes_or_targets, overrides.
  destruct (p_routes p), (p_targets p); cbn; split; try (intros E; discriminate E);
    try (intros [_ [F|F]]; contradiction); try (intros [E _]; exact E);
    intros E; (split; [exact E|]); try (left; discriminate); right; discriminate.
Qed.
Lemma no_override p : should_override_policy p = None <-> forall a, ~ overrides p a.
Proof.
  split.
  - intros E a O. apply override_iff in O. congruence.
  - intros F. destruct (should_override_policy p) as [a|] eqn:E; [|reflexivity].
    apply override_iff in E. destruct (F a E).
Qed.
Lemma routes_iff a v p r : mk_policy_routes a v p = Some r <-> stands_for a p v r.
Proof.
  unfold mk_policy_routes. split.
  - destruct (cp_protocol p) eqn:E; intros F; injection F as <- || discriminate F.
    + apply For_http. destruct v; [eapply Of_detect1|eapply Of_detect2]; eauto.
    + apply For_http. apply Of_http1. exact E.
    + apply For_http. apply Of_http2. exact E.
    + apply For_grpc. exact E.
  - intros [h H|g H]; [|rewrite H; reflexivity].
    destruct H as [t h1 h2 o -> H|t h1 h2 o -> H|h H|h H]; rewrite H; reflexivity.
Qed.
Lemma no_routes a v p : mk_policy_routes a v p = None <-> ~ is_http p.
Proof. unfold mk_policy_routes, is_http. destruct (cp_protocol p); intuition discriminate. Qed.
Lemma no_tls o p : mk_tls_routes o p = None <-> ~ is_tls p.
Proof.
  unfold mk_tls_routes, is_tls. destruct (cp_protocol p); split; intros E; try reflexivity; try (intros [r F]; discriminate F).
  - discriminate E.
  - destruct E. eexists. reflexivity.
Qed.
Lemma no_opaque a p : routes_from_policy a p = None <-> ~ is_opaque p.
Proof. unfold routes_from_policy, is_opaque. destruct (cp_protocol p); intuition discriminate. Qed.

Lemma opaque_profile o t0 t1 t2 d :
  says_opaque (r_profile t0) -> exists f, serve o t0 t1 t2 d = Opaq_stack f.
Proof.
  intros (q & E & Q). unfold serve, protocol_of. rewrite E, Q. eexists. reflexivity.
Qed.
Lemma http_only_if o t0 t1 t2 d v f :
  serve o t0 t1 t2 d = Http_stack v f ->
  ~ says_opaque (r_profile t0) /\ taken_for_http (r_policy t0) d v.
Proof.
  unfold serve, protocol_of.
  destruct (match r_profile t0 with Some p => p_opaque p | None => false end) eqn:Q; [discriminate|].
  intros E. split.
  - intros (q & F & G). rewrite F in Q. congruence.
  - destruct (cp_protocol (r_policy t0)) eqn:P; cbn in E; try discriminate E.
    + destruct d as [w|]; [|discriminate E]. injection E as <- _. eapply Found; eauto.
    + injection E as <- _. eapply Said_http1; eauto.
    + injection E as <- _. eapply Said_http2; eauto.
    + injection E as <- _. eapply Said_grpc; eauto.
Qed.
Lemma http_if o t0 t1 t2 d v :
  ~ says_opaque (r_profile t0) -> taken_for_http (r_policy t0) d v ->
  exists f, serve o t0 t1 t2 d = Http_stack v f.
Proof.
  intros N T. unfold serve, protocol_of.
  destruct (match r_profile t0 with Some p => p_opaque p | None => false end) eqn:Q.
  { destruct N. destruct (r_profile t0) as [q|]; [|discriminate]. exists q. split; [reflexivity|exact Q]. }
  destruct T as [h P|h P|g P|t h1 h2 p w P ->]; rewrite P; cbn; eexists; reflexivity.
Qed.
Lemma not_looked_at o t0 t1 t2 d d' :
  (forall t h1 h2 p, cp_protocol (r_policy t0) <> P_detect t h1 h2 p) \/ says_opaque (r_profile t0) ->
  serve o t0 t1 t2 d = serve o t0 t1 t2 d'.
Proof.
  intros H. unfold serve, protocol_of. destruct H as [H|(q & -> & ->)]; [|reflexivity].
  destruct (match r_profile t0 with Some p => p_opaque p | None => false end); [reflexivity|].
  destruct (cp_protocol (r_policy t0)) eqn:E; try reflexivity. destruct (H _ _ _ _ eq_refl).
Qed.
Lemma tls_iff o t0 t1 t2 d :
  (exists f, serve o t0 t1 t2 d = Tls_stack f) <-> ~ says_opaque (r_profile t0) /\ is_tls (r_policy t0).
Proof.
  unfold serve, protocol_of, says_opaque, is_tls.
  destruct (match r_profile t0 with Some p => p_opaque p | None => false end) eqn:Q.
  - split; [intros [f E]; discriminate|]. intros [N _]. destruct N.
    destruct (r_profile t0) as [q|]; [|discriminate]. exists q. split; [reflexivity|exact Q].
  - destruct (cp_protocol (r_policy t0)) eqn:P; cbn.
    1: destruct d. all: split; try (intros [f E]; discriminate E); try (intros [_ [r E]]; discriminate E).
    + intros _. split; [|eexists; reflexivity]. intros (q & F & G). rewrite F in Q. congruence.
    + intros _. eexists. reflexivity.
Qed.

(** What the HTTP stack follows *)
Lemma http_by_profile o v seen p policy a :
  (exists s, seen = Some s /\ overrides s a) ->
  http_sidecar o v seen (Some p) policy =
    By_profile (R_profile a (p_routes p) (p_targets p)) (fun p => Some (R_profile a (p_routes p) (p_targets p))).
Proof. intros (s & -> & O). unfold http_sidecar. apply override_iff in O. rewrite O. reflexivity. Qed.
Lemma http_by_policy o v seen profile policy r :
  (forall s a, seen = Some s -> ~ overrides s a) -> stands_for (Socket o) policy v r ->
  http_sidecar o v seen profile policy = By_policy r (mk_policy_routes (Socket o) v).
Proof.
  intros N S. unfold http_sidecar. apply routes_iff in S.
  destruct seen as [s|]; [|rewrite S; reflexivity].
  assert (E : should_override_policy s = None) by (apply no_override; intros a; exact (N s a eq_refl)).
  rewrite E, S. reflexivity.
Qed.

Lemma http_panics o v t1 t2 :
  both_ways t1 t2 ->
  (http_sidecar o v (r_profile t1) (r_profile t2) (r_policy t2) = Panics <->
   (forall s a, r_profile t1 = Some s -> ~ overrides s a) /\ ~ is_http (r_policy t2)).
Proof.
  intros W. unfold http_sidecar. rewrite <- (no_routes (Socket o) v).
  assert (G : match mk_policy_routes (Socket o) v (r_policy t2) with
              | Some r => By_policy r (mk_policy_routes (Socket o) v) | None => Panics end = Panics <->
              mk_policy_routes (Socket o) v (r_policy t2) = None).
  { destruct (mk_policy_routes (Socket o) v (r_policy t2)); split; congruence. }
  destruct (r_profile t1) as [s|] eqn:E1.
  - destruct (should_override_policy s) as [a|] eqn:O.
    + destruct (r_profile t2) as [p|] eqn:E2.
      * split; [discriminate|]. intros [N _]. apply override_iff in O. destruct (N s a eq_refl O).
      * destruct W as [_ W]. specialize (W E2). congruence.
    + rewrite G. split; [|tauto]. intros E. split; [|exact E].
      intros s' a F. injection F as <-. exact (proj1 (no_override s) O a).
  - rewrite G. split; [|tauto]. intros E. split; [discriminate|exact E].
Qed.
Lemma opaque_panics a profile policy :
  routes_from_discovery a profile policy = Panics <->
  (forall p, profile = Some p -> ~ splits p) /\ ~ is_opaque policy.
Proof.
  unfold routes_from_discovery.
  assert (G : forall x, match routes_from_policy x policy with
              | Some r => By_policy r (routes_from_policy x) | None => Panics end = Panics <-> ~ is_opaque policy).
  { intros x. rewrite <- (no_opaque x). destruct (routes_from_policy x policy); split; congruence. }
  destruct profile as [p|].
  - unfold splits. destruct (p_addr p) as [n|] eqn:E.
    + unfold has_targets. destruct (p_targets p) as [|t l] eqn:T.
      * rewrite G. split; [|tauto]. intros H. split; [|exact H]. intros q F [_ X]. injection F as <-. congruence.
      * split; [discriminate|]. intros [N _]. destruct (N p eq_refl). split; congruence.
    + rewrite G. split; [|tauto]. intros H. split; [|exact H]. intros q F [X _]. injection F as <-. congruence.
  - rewrite G. split; [|tauto]. intros H. split; [discriminate|exact H].
Qed.
Lemma opaque_iff o t0 t1 t2 d :
  (exists f, serve o t0 t1 t2 d = Opaq_stack f) <->
  says_opaque (r_profile t0) \/ (exists r, cp_protocol (r_policy t0) = P_opaque r) \/
  (exists t h1 h2 r, cp_protocol (r_policy t0) = P_detect t h1 h2 r) /\ d = None.
Proof.
  unfold serve, protocol_of, says_opaque.
  destruct (match r_profile t0 with Some p => p_opaque p | None => false end) eqn:Q.
  - split; [|intros _; eexists; reflexivity]. intros _. left.
    destruct (r_profile t0) as [q|]; [|discriminate]. exists q. split; [reflexivity|exact Q].
  - assert (N : ~ exists q, r_profile t0 = Some q /\ p_opaque q = true).
    { intros (q & F & G). rewrite F in Q. congruence. }
    destruct (cp_protocol (r_policy t0)) eqn:P; cbn.
    1: destruct d as [v|].
    all: split; try (intros [f E]; discriminate E); try (intros _; eexists; reflexivity);
      try (intros [H|[[r H]|[(t & h1 & h2 & r & H) H']]]; [contradiction|discriminate|discriminate]).
    + intros _. right. right. split; [|reflexivity]. do 4 eexists. reflexivity.
    + intros _. right. left. eexists. reflexivity.
Qed.

Lemma breaks_iff o t0 t1 t2 d :
  both_ways t1 t2 ->
  (breaks (serve o t0 t1 t2 d) <->
   (~ says_opaque (r_profile t0) /\ (exists v, taken_for_http (r_policy t0) d v) /\
      (forall s a, r_profile t1 = Some s -> ~ overrides s a) /\ ~ is_http (r_policy t2)) \/
   ((says_opaque (r_profile t0) \/ (exists r, cp_protocol (r_policy t0) = P_opaque r) \/
      (exists t h1 h2 r, cp_protocol (r_policy t0) = P_detect t h1 h2 r) /\ d = None) /\
      (forall p, r_profile t2 = Some p -> ~ splits p) /\ ~ is_opaque (r_policy t2)) \/
   (~ says_opaque (r_profile t0) /\ is_tls (r_policy t0) /\ ~ is_tls (r_policy t2))).
Proof.
  intros W.
  pose proof (opaque_iff o t0 t1 t2 d) as OI. pose proof (tls_iff o t0 t1 t2 d) as TI.
  assert (HI : (exists v f, serve o t0 t1 t2 d = Http_stack v f) <->
    ~ says_opaque (r_profile t0) /\ exists v, taken_for_http (r_policy t0) d v).
  { split.
    - intros (v & f & E). destruct (http_only_if _ _ _ _ _ _ _ E) as [N T]. split; [exact N|exists v; exact T].
    - intros [N [v T]]. exists v. exact (http_if o t0 t1 t2 d v N T). }
  destruct (serve o t0 t1 t2 d) as [v f|f|f] eqn:E; cbn [breaks].
  - assert (F : f = http_sidecar o v (r_profile t1) (r_profile t2) (r_policy t2)).
    { unfold serve in E. destruct (stack_of _ d); congruence. }
    rewrite F, (http_panics o v t1 t2 W).
    assert (X : exists v f0, Http_stack v f = Http_stack v f0) by (exists v, f; reflexivity).
    assert (H1 : ~ says_opaque (r_profile t0) /\ exists v, taken_for_http (r_policy t0) d v).
    { apply HI. exists v, f. reflexivity. }
    assert (NO : ~ exists f0, Http_stack v f = Opaq_stack f0) by (intros [? Q]; discriminate Q).
    assert (NT : ~ exists f0, Http_stack v f = Tls_stack f0) by (intros [? Q]; discriminate Q).
    tauto.
  - assert (F : f = opaq_sidecar o (r_profile t2) (r_policy t2)).
    { unfold serve in E. destruct (stack_of _ d); congruence. }
    rewrite F. unfold opaq_sidecar. rewrite opaque_panics.
    assert (NH : ~ exists v f0, Opaq_stack f = Http_stack v f0) by (intros (? & ? & Q); discriminate Q).
    assert (NT : ~ exists f0, Opaq_stack f = Tls_stack f0) by (intros [? Q]; discriminate Q).
    assert (YO : exists f0, Opaq_stack f = Opaq_stack f0) by (exists f; reflexivity).
    tauto.
  - assert (F : f = tls_sidecar o (r_policy t2)).
    { unfold serve in E. destruct (stack_of _ d); congruence. }
    assert (G : tls_sidecar o (r_policy t2) = Panics <-> ~ is_tls (r_policy t2)).
    { unfold tls_sidecar. rewrite <- (no_tls o). destruct (mk_tls_routes o (r_policy t2)); split; congruence. }
    rewrite F, G.
    assert (NH : ~ exists v f0, Tls_stack f = Http_stack v f0) by (intros (? & ? & Q); discriminate Q).
    assert (NO : ~ exists f0, Tls_stack f = Opaq_stack f0) by (intros [? Q]; discriminate Q).
    assert (YT : exists f0, Tls_stack f = Tls_stack f0) by (exists f; reflexivity).
    tauto.
Qed.
Lemma kinds p d :
  (exists v, taken_for_http p d v) -> is_http p.
Proof. intros [v [h E|h E|g E|t h1 h2 o w E _]]; unfold is_http; rewrite E; exact I. Qed.
Lemma stable_iff o t d :
  breaks (serve o t t t d) <->
  says_opaque (r_profile t) /\ (forall p, r_profile t = Some p -> ~ splits p) /\ ~ is_opaque (r_policy t).
Proof.
  rewrite breaks_iff; [|split; tauto].
  assert (A1 : (exists r, cp_protocol (r_policy t) = P_opaque r) -> is_opaque (r_policy t)).
  { intros [r E]. unfold is_opaque. rewrite E. exact I. }
  assert (A2 : (exists x h1 h2 r, cp_protocol (r_policy t) = P_detect x h1 h2 r) -> is_opaque (r_policy t)).
  { intros (x & h1 & h2 & r & E). unfold is_opaque. rewrite E. exact I. }
  pose proof (kinds (r_policy t) d). tauto.
Qed.

(** ** Opaque traffic *)

Lemma split_targets n p : divides n p (routes_from_profile n p).
Proof.
  unfold divides, routes_from_profile. cbn [o_addr o_routes o_backends].
  split; [reflexivity|]. do 2 eexists. split; [reflexivity|]. cbn [rp_filters rp_distribution].
  split; [reflexivity|]. split; [reflexivity|]. split; [|rewrite map_map; reflexivity].
  induction (p_targets p) as [|t l IH]; cbn [map]; constructor; [|exact IH].
  cbn. split; [reflexivity|]. split; [reflexivity|]. split; reflexivity.
Qed.
Lemma opaque_by_profile a p n policy :
  p_addr p = Some n -> p_targets p <> [] ->
  exists init mk, routes_from_discovery a (Some p) policy = By_profile init mk /\ mk p = Some init /\
    forall q, exists r, mk q = Some r /\ divides n q r.
Proof.
  intros E T. unfold routes_from_discovery. rewrite E. unfold has_targets.
  destruct (p_targets p) eqn:F; [contradiction|].
  do 2 eexists. split; [reflexivity|]. split; [reflexivity|].
  intros q. exists (routes_from_profile n q). split; [reflexivity|]. apply split_targets.
Qed.
Lemma routes_from_policy_iff b q x :
  cp_protocol q = P_opaque x \/ (exists t h1 h2, cp_protocol q = P_detect t h1 h2 x) ->
  routes_from_policy b q = Some (OpaqRoutes b (cp_parent q) x (cp_backends q)).
Proof. unfold routes_from_policy. intros [E|(t & h1 & h2 & E)]; rewrite E; reflexivity. Qed.
Lemma opaque_by_policy o profile policy r b :
  (forall p, profile = Some p -> ~ splits p) ->
  (cp_protocol policy = P_opaque r \/ exists t h1 h2, cp_protocol policy = P_detect t h1 h2 r) ->
  b = match profile with Some p => match p_addr p with Some n => Name n | None => Socket o end | None => Socket o end ->
  exists mk, routes_from_discovery (Socket o) profile policy =
    By_policy (OpaqRoutes b (cp_parent policy) r (cp_backends policy)) mk /\
    (forall q, ~ is_opaque q -> mk q = None) /\
    (forall q x, cp_protocol q = P_opaque x \/ (exists t h1 h2, cp_protocol q = P_detect t h1 h2 x) ->
       mk q = Some (OpaqRoutes b (cp_parent q) x (cp_backends q))).
Proof.
  intros N P B. exists (routes_from_policy b).
  split; [|split; [intros q; exact (proj2 (no_opaque b q))|intros q x; apply routes_from_policy_iff]].
  unfold routes_from_discovery, splits in *. apply (routes_from_policy_iff b) in P.
  destruct profile as [p|]; [|subst b; rewrite P; reflexivity].
  specialize (N p eq_refl). destruct (p_addr p) as [n|]; [|subst b; rewrite P; reflexivity].
  unfold has_targets. destruct (p_targets p); [|destruct N; split; discriminate].
  subst b. rewrite P. reflexivity.
Qed.

Lemma service_meta_iff a g k ns n s p :
  service_meta a = Some (Resource g k ns n s p) <->
  service_name (na_name a) n ns /\ na_port a <> 0 /\ p = Some (na_port a) /\
  g = bs "core" /\ k = bs "Service" /\ s = [].
Proof.
  unfold service_meta, service_name.
  destruct (split 46 (na_name a)) as [|x [|y [|z l]]] eqn:E.
  - destruct (split_nonempty 46 (na_name a) E).
  - split; [discriminate|]. intros [(svc & rest & F & R & V & X & Y) _]. cbn [app] in F. rewrite F in E.
    rewrite split_app_sep in E by exact X. rewrite split_app_sep in E by exact Y.
    destruct (split 46 (svc ++ rest)); discriminate.
  - split; [discriminate|]. intros [(svc & rest & F & R & V & X & Y) _]. cbn [app] in F. rewrite F in E.
    rewrite split_app_sep in E by exact X. rewrite split_app_sep in E by exact Y.
    injection E as _ _ E. destruct (split_nonempty _ _ E).
  - assert (J : na_name a = x ++ [46] ++ y ++ [46] ++ z ++ match l with [] => [] | _ => 46 :: join 46 l end).
    { rewrite <- (split_join 46 (na_name a)), E. cbn [join]. destruct l; cbn [app]; [rewrite app_nil_r|]; reflexivity. }
    assert (NS : forall w, In w [x; y; z] -> ~ In 46 w).
    { intros w I. apply (split_no_sep 46 (na_name a)). rewrite E. cbn in *. intuition. }
    split.
    + destruct (eq_ignore_case z _) eqn:V; [|discriminate]. destruct (N.eqb_spec (na_port a) 0) as [|NP]; [discriminate|].
      intros F. injection F as <- <- <- <- <- <-. split.
      * exists z, (match l with [] => [] | _ => 46 :: join 46 l end). split; [exact J|].
        split; [destruct l; [left; reflexivity|right; eexists; reflexivity]|].
        split; [exact V|]. split; apply NS; cbn; tauto.
      * repeat split; try exact NP.
    + intros [(svc & rest & F & R & V & X & Y) (NP & -> & -> & -> & ->)].
      assert (NSvc : ~ In 46 svc).
      { intros I. unfold eq_ignore_case in V. apply beq_eq in V.
        assert (K : In 46 (lowers svc)).
        { unfold lowers. apply in_map_iff. exists 46. split; [reflexivity|exact I]. }
        rewrite V in K. cbn in K. destruct K as [K|[K|[K|[]]]]; discriminate K. }
      cbn [app] in F. rewrite F in E. rewrite split_app_sep in E by exact X. rewrite split_app_sep in E by exact Y.
      assert (Z : exists l', split 46 (svc ++ rest) = svc :: l').
      { destruct R as [->|[r ->]].
        - rewrite app_nil_r, split_none by exact NSvc. eexists. reflexivity.
        - rewrite split_app_sep by exact NSvc. eexists. reflexivity. }
      destruct Z as [l' Z]. rewrite Z in E. injection E as <- <- <- _.
      rewrite V. destruct (N.eqb_spec (na_port a) 0); [contradiction|]. reflexivity.
Qed.

(** ** Ingress *)

Lemma ingress_required t v t1 t2 :
  both_ways t1 t2 ->
  (ingress_http t v (r_profile t1) (r_profile t2) (r_policy t2) = Required <->
   (forall s a, r_profile t1 = Some s -> ~ overrides s a) /\ ~ is_http (r_policy t2)).
Proof.
  intros W. unfold ingress_http. set (b := match t with Named n => Name n | Orig s => Socket s end).
  rewrite <- (no_routes b v).
  assert (G : match mk_policy_routes b v (r_policy t2) with
              | Some r => Served b (By_policy r (mk_policy_routes b v)) | None => Required end = Required <->
              mk_policy_routes b v (r_policy t2) = None).
  { destruct (mk_policy_routes b v (r_policy t2)); split; congruence. }
  destruct (r_profile t1) as [s|] eqn:E1.
  - destruct (should_override_policy s) as [a|] eqn:O.
    + destruct (r_profile t2) as [p|] eqn:E2.
      * split; [discriminate|]. intros [N _]. apply override_iff in O. destruct (N s a eq_refl O).
      * destruct W as [_ W]. specialize (W E2). congruence.
    + rewrite G. split; [|tauto]. intros E. split; [|exact E].
      intros s' a F. injection F as <-. exact (proj1 (no_override s) O a).
  - rewrite G. split; [|tauto]. intros E. split; [discriminate|exact E].
Qed.
Lemma ingress_served t v seen profile policy a f :
  ingress_http t v seen profile policy = Served a f ->
  (exists s p n, seen = Some s /\ profile = Some p /\ overrides s n /\ a = Name n /\
     f = By_profile (R_profile n (p_routes p) (p_targets p)) (fun p => Some (R_profile n (p_routes p) (p_targets p)))) \/
  (a = match t with Named n => Name n | Orig s => Socket s end /\
   exists r, stands_for a policy v r /\ f = By_policy r (mk_policy_routes a v)).
Proof.
  unfold ingress_http.
  assert (G : forall b, b = match t with Named n => Name n | Orig s => Socket s end ->
    match mk_policy_routes b v policy with Some r => Served b (By_policy r (mk_policy_routes b v)) | None => Required end = Served a f ->
    a = match t with Named n => Name n | Orig s => Socket s end /\
    exists r, stands_for a policy v r /\ f = By_policy r (mk_policy_routes a v)).
  { intros b B H. destruct (mk_policy_routes b v policy) as [r|] eqn:M; [|discriminate].
    injection H as H <-. subst a. split; [exact B|]. exists r. split; [apply routes_iff; exact M|reflexivity]. }
  destruct seen as [s|]; [|intros H; right; exact (G _ eq_refl H)].
  destruct (should_override_policy s) as [n|] eqn:O; [|intros H; right; exact (G _ eq_refl H)].
  destruct profile as [p|]; [|intros H; right; exact (G _ eq_refl H)].
  intros H. injection H as <- <-. left. exists s, p, n. apply override_iff in O. auto.
Qed.

Section Override.
Variable parse : bytes -> option FilterModel.authority.

Lemma selected o hs :
  select_target parse o hs =
    match Http1Model.authority_from_header parse hs DST_OVERRIDE with
    | Some a => option_map Named (from_authority_with_default_port a 80)
    | None => Some (Orig o)
    end.
Proof. reflexivity. Qed.

Lemma authority_header_iff hs n a :
  Http1Model.authority_from_header parse hs n = Some a <->
  exists v, Http1Spec.first_of n hs v /\ HintSpec.printable v /\ parse v = Some a.
Proof.
  unfold Http1Model.authority_from_header. split.
  - destruct (TraceModel.hm_get hs n) as [v|] eqn:E; [|discriminate].
    apply Http1Proofs.hm_get_iff in E. intros H. exists v.
    destruct (TraceModel.to_str v) as [s|] eqn:T; [|discriminate].
    assert (s = v) as -> by (unfold TraceModel.to_str in T; destruct (forallb _ v); congruence).
    apply HintProofs.to_str_iff in T. auto.
  - intros (v & F & P & E). apply Http1Proofs.hm_get_iff in F. rewrite F.
    apply HintProofs.to_str_iff in P. rewrite P. exact E.
Qed.
Lemma by_name_iff o hs na :
  select_target parse o hs = Some (Named na) <->
  exists v a h, Http1Spec.first_of DST_OVERRIDE hs v /\ HintSpec.printable v /\ parse v = Some a /\
    FilterModel.a_host a = h /\ h <> [] /\ name_from_str h = Some (na_name na) /\
    na_port na = match FilterModel.a_port a with Some p => p | None => 80 end.
Proof.
  rewrite selected. split.
  - destruct (Http1Model.authority_from_header parse hs DST_OVERRIDE) as [a|] eqn:E; [|discriminate].
    apply authority_header_iff in E. destruct E as (v & F & P & E).
    unfold from_authority_with_default_port, from_str_and_port.
    destruct (FilterModel.a_host a) as [|c h] eqn:H; [discriminate|].
    destruct (name_from_str (c :: h)) as [n|] eqn:N; [|discriminate].
    intros Q. injection Q as <-. exists v, a, (c :: h). cbn [na_name na_port]. repeat split; try assumption. discriminate.
  - intros (v & a & h & F & P & E & H & NE & N & Q).
    assert (X : Http1Model.authority_from_header parse hs DST_OVERRIDE = Some a).
    { apply authority_header_iff. exists v. auto. }
    rewrite X. unfold from_authority_with_default_port, from_str_and_port. rewrite H.
    destruct h; [contradiction|]. rewrite N. destruct na as [nn pp]. cbn [na_name na_port] in *. subst pp. reflexivity.
Qed.
Lemma by_orig_iff o hs s :
  select_target parse o hs = Some (Orig s) <->
  s = o /\ ~ exists v a, Http1Spec.first_of DST_OVERRIDE hs v /\ HintSpec.printable v /\ parse v = Some a.
Proof.
  rewrite selected. split.
  - destruct (Http1Model.authority_from_header parse hs DST_OVERRIDE) as [a|] eqn:E.
    + destruct (from_authority_with_default_port a 80); discriminate.
    + intros Q. injection Q as <-. split; [reflexivity|]. intros (v & a & H).
      assert (X : Http1Model.authority_from_header parse hs DST_OVERRIDE = Some a) by (apply authority_header_iff; exists v; exact H).
      congruence.
  - intros [-> N]. destruct (Http1Model.authority_from_header parse hs DST_OVERRIDE) as [a|] eqn:E; [|reflexivity].
    apply authority_header_iff in E. destruct E as (v & H). destruct N. exists v, a. exact H.
Qed.
End Override.

(** ** For as long as a connection lasts *)

Lemma http_stack_is o t0 t1 t2 d v f :
  serve o t0 t1 t2 d = Http_stack v f -> f = http_sidecar o v (r_profile t1) (r_profile t2) (r_policy t2).
Proof. unfold serve. destruct (stack_of _ d); congruence. Qed.
Lemma tls_stack_is o t0 t1 t2 d f : serve o t0 t1 t2 d = Tls_stack f -> f = tls_sidecar o (r_policy t2).
Proof. unfold serve. destruct (stack_of _ d); congruence. Qed.

Lemma profile_stays o t0 t1 t2 d v f s p a :
  serve o t0 t1 t2 d = Http_stack v f ->
  r_profile t1 = Some s -> overrides s a -> r_profile t2 = Some p ->
  exists init mk, f = By_profile init mk /\
    forall es, ~ In Dropped es ->
      f_value (follow mk p init (es ++ [Polled])) =
        R_profile a (p_routes (holds p es)) (p_targets (holds p es)).
Proof.
  intros E S O P. apply http_stack_is in E. rewrite P in E.
  rewrite (http_by_profile o v (r_profile t1) p (r_policy t2) a) in E by (exists s; auto).
  do 2 eexists. split; [exact E|]. intros es D. apply follows; [reflexivity|exact D|reflexivity].
Qed.
Lemma policy_stays o t0 t1 t2 d v f r :
  serve o t0 t1 t2 d = Http_stack v f ->
  (forall s a, r_profile t1 = Some s -> ~ overrides s a) -> stands_for (Socket o) (r_policy t2) v r ->
  exists mk, f = By_policy r mk /\
    (forall es r', ~ In Dropped es -> stands_for (Socket o) (holds (r_policy t2) es) v r' ->
      f_value (follow mk (r_policy t2) r (es ++ [Polled])) = r') /\
    (forall es es', f_unseen (follow mk (r_policy t2) r es) = false ->
      (forall q, In (Published q) es' -> ~ is_http q) ->
      f_value (follow mk (r_policy t2) r (es ++ es')) = f_value (follow mk (r_policy t2) r es)).
Proof.
  intros E N S. apply http_stack_is in E.
  rewrite (http_by_policy o v (r_profile t1) (r_profile t2) (r_policy t2) r N S) in E.
  eexists. split; [exact E|]. apply routes_iff in S. split.
  - intros es r' D S'. apply routes_iff in S'. exact (follows _ _ _ es _ S D S').
  - intros es es' U F. apply ignored; [exact S|exact U|].
    intros q J. apply no_routes. exact (F q J).
Qed.
Lemma tls_stays o t0 t1 t2 d f r :
  serve o t0 t1 t2 d = Tls_stack f -> cp_protocol (r_policy t2) = P_tls r ->
  exists init mk, f = By_policy init mk /\ tr_routes init = r /\
    (forall es r', ~ In Dropped es -> cp_protocol (holds (r_policy t2) es) = P_tls r' ->
      f_value (follow mk (r_policy t2) init (es ++ [Polled])) =
        TlsRoutes (Socket o) (cp_parent (holds (r_policy t2) es)) r' (cp_backends (holds (r_policy t2) es))) /\
    (forall es es', f_unseen (follow mk (r_policy t2) init es) = false ->
      (forall q, In (Published q) es' -> ~ is_tls q) ->
      f_value (follow mk (r_policy t2) init (es ++ es')) = f_value (follow mk (r_policy t2) init es)).
Proof.
  intros E P. apply tls_stack_is in E. unfold tls_sidecar in E.
  destruct (mk_tls_routes o (r_policy t2)) as [init|] eqn:M.
  - exists init, (mk_tls_routes o). split; [exact E|].
    split; [unfold mk_tls_routes in M; rewrite P in M; injection M as <-; reflexivity|]. split.
    + intros es r' D Q. apply follows; [exact M|exact D|]. unfold mk_tls_routes. rewrite Q. reflexivity.
    + intros es es' U F. apply ignored; [exact M|exact U|]. intros q J. apply no_tls. exact (F q J).
  - unfold mk_tls_routes in M. rewrite P in M. discriminate.
Qed.
(** The policy that is made of a profile follows it. *)
Lemma synthesized_follows {B} (g : profile -> B) p es :
  ~ In Dropped es ->
  f_value (follow (fun p => Some (g p)) p (g p) (es ++ [Polled])) = g (holds p es).
Proof. intros D. apply follows; [reflexivity|exact D|reflexivity]. Qed.
