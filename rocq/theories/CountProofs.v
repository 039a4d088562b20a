(** Proofs for C144 *)
From Coq Require Import String List Arith NArith Bool Lia.
From Verif Require Import Bytes BytesProofs RouteModel FilterModel AuthzModel PolicyModel CountModel CountSpec.
Import ListNotations.

(** ** Keys *)
Lemma meta_eq_iff a b : meta_eq a b = true <-> same_meta a b.
Proof.
  unfold meta_eq, same_meta. rewrite !andb_true_iff, !beq_eq.
  assert (E : forall m, shown m = (group m, kind m, name m)) by (intros []; reflexivity).
  rewrite !E. split; [intros [[-> ->] ->]; reflexivity|intro H; injection H; auto].
Qed.
Lemma sock_eq_iff a b : sock_eq a b = true <-> a = b.
Proof.
  destruct a as [[x|x] p], b as [[y|y] p']; unfold sock_eq, ip_eq; cbn [sk_ip sk_port]; rewrite andb_true_iff, ?N.eqb_eq;
    split; try (intros [H _]; discriminate); try (intros [-> ->]; reflexivity); intro H; injection H; intros; subst; auto;
    discriminate.
Qed.
Lemma id_eq_iff a b : id_eq a b = true <-> a = b.
Proof.
  destruct a, b; unfold id_eq; rewrite ?beq_eq; split; try discriminate; try (intros ->; reflexivity);
    intro H; injection H; auto.
Qed.
Lemma tls_eq_iff a b : tls_eq a b = true <-> a = b.
Proof.
  destruct a as [[i|]| |], b as [[j|]| |]; cbn [tls_eq opt_eq]; rewrite ?id_eq_iff; split; try discriminate; try reflexivity;
    try (intros ->; reflexivity); intro H; injection H; auto.
Qed.
Lemma opt_meta_iff a b : opt_eq meta_eq a b = true <-> option_map shown a = option_map shown b.
Proof.
  destruct a, b; cbn [opt_eq option_map]; split; try discriminate; try reflexivity.
  - intro H. apply meta_eq_iff in H. now rewrite H.
  - intro H. apply meta_eq_iff. injection H. auto.
Qed.
Lemma labels_eq_iff a b : labels_eq a b = true <-> same_labels a b.
Proof.
  destruct a, b; cbn [labels_eq same_labels]; try (split; [discriminate|tauto]);
    rewrite ?andb_true_iff, ?meta_eq_iff, ?N.eqb_eq, ?opt_meta_iff, ?beq_eq; tauto.
Qed.
Lemma key_eq_iff a b : key_eq a b = true <-> same_key a b.
Proof.
  unfold key_eq, same_key. rewrite !andb_true_iff, sock_eq_iff, tls_eq_iff, labels_eq_iff. tauto.
Qed.
Lemma same_labels_sym a b : same_labels a b -> same_labels b a.
Proof. destruct a, b; cbn; unfold same_meta; intuition congruence. Qed.
Lemma same_labels_trans a b c : same_labels a b -> same_labels b c -> same_labels a c.
Proof. destruct a, b, c; cbn; unfold same_meta; intuition congruence. Qed.
Lemma same_key_sym a b : same_key a b -> same_key b a.
Proof. unfold same_key. intros (A & B & C). auto using same_labels_sym. Qed.
Lemma same_key_trans a b c : same_key a b -> same_key b c -> same_key a c.
Proof. unfold same_key. intros (A & B & C) (D & E & F). repeat split; try congruence. eapply same_labels_trans; eauto. Qed.
Lemma same_key_refl a : same_key a a.
Proof. destruct a as [? ? []]; unfold same_key, same_labels, same_meta; cbn; auto 8. Qed.
Lemma counter_eq_iff a b : counter_eq a b = true <-> a = b.
Proof. destruct a, b; cbn; split; congruence. Qed.

(** Whether two series are the same *)
Definition m2 (c : counter) (k : key) (c' : counter) (k' : key) : bool := counter_eq c c' && key_eq k k'.
Lemma m2_iff c k c' k' : m2 c k c' k' = true <-> c = c' /\ same_key k k'.
Proof. unfold m2. rewrite andb_true_iff, counter_eq_iff, key_eq_iff. tauto. Qed.
Lemma m2_false c k c' k' : m2 c k c' k' = false <-> ~ (c = c' /\ same_key k k').
Proof. rewrite <- m2_iff. now rewrite not_true_iff_false. Qed.

Lemma value_incr c k m c' k' :
  value (incr c k m) c' k' = (value m c' k' + (if m2 c' k' c k then 1 else 0))%N.
Proof.
  induction m as [|[[c0 k0] n] m IH]; cbn [incr value].
  - fold (m2 c' k' c k). destruct (m2 c' k' c k); reflexivity.
  - fold (m2 c k c0 k0). fold (m2 c' k' c0 k0).
    destruct (m2 c k c0 k0) eqn:A; cbn [value]; fold (m2 c' k' c0 k0).
    + apply m2_iff in A. destruct A as [-> A].
      destruct (m2 c' k' c0 k) eqn:B.
      * apply m2_iff in B. destruct B as [-> B].
        assert (D : m2 c0 k' c0 k0 = true) by (apply m2_iff; split; [reflexivity|eapply same_key_trans; eauto]).
        rewrite D. lia.
      * apply m2_false in B. assert (D : m2 c' k' c0 k0 = false).
        { apply m2_false. intros [-> D]. apply B. split; [reflexivity|]. eapply same_key_trans; [exact D|]. now apply same_key_sym. }
        rewrite D. lia.
    + destruct (m2 c' k' c0 k0) eqn:B; [|exact IH].
      apply m2_iff in B. destruct B as [-> B]. apply m2_false in A.
      assert (D : m2 c0 k' c k = false).
      { apply m2_false. intros [<- D]. apply A. split; [reflexivity|]. eapply same_key_trans; [|exact B]. now apply same_key_sym. }
      rewrite D. lia.
Qed.

(** ** Counting notes *)
Definition hit (c : counter) (k : key) (n : note) : N :=
  match n with Counted _ c' k' => if m2 c k c' k' then 1%N else 0%N | Checked _ => 0%N end.
Definition hit1 (c : counter) (n : note) : N :=
  match n with Counted _ c' _ => if counter_eq c c' then 1%N else 0%N | Checked _ => 0%N end.
Definition sum (l : list N) : N := fold_right N.add 0%N l.
Lemma sum_app a b : sum (a ++ b) = (sum a + sum b)%N.
Proof. induction a as [|x a IH]; [reflexivity|]. cbn [app]. unfold sum in *. cbn [fold_right]. rewrite IH. lia. Qed.
Lemma sum_set {A} (g : A -> N) l i x y : nth_error l i = Some x ->
  (sum (map g (set l i y)) + g x = sum (map g l) + g y)%N.
Proof.
  revert i. induction l as [|z l IH]; intros [|i] E; try discriminate.
  - injection E as ->. cbn [set map]. unfold sum. cbn [fold_right]. lia.
  - cbn [set map nth_error] in *. specialize (IH i E). unfold sum in *. cbn [fold_right]. lia.
Qed.
Lemma value_all l m c k : value (count_all l m) c k = (value m c k + sum (map (hit c k) l))%N.
Proof.
  revert m. induction l as [|n l IH]; intro m; cbn [count_all fold_left map].
  - unfold sum. cbn [fold_right]. lia.
  - fold (count_all l). unfold count_all in IH. rewrite IH. destruct n as [s|s c' k'].
    + unfold sum. cbn [fold_right hit]. lia.
    + rewrite value_incr. unfold sum. cbn [fold_right hit]. lia.
Qed.
Definition tot (m : counts) (c : counter) : N := sum (map (fun '(c', _, n) => if counter_eq c c' then n else 0%N) m).
Lemma tot_incr c k m c' : tot (incr c k m) c' = (tot m c' + (if counter_eq c' c then 1 else 0))%N.
Proof.
  unfold tot. induction m as [|[[c0 k0] n] m IH]; cbn [incr map].
  - unfold sum. cbn [fold_right]. destruct (counter_eq c' c); reflexivity.
  - fold (m2 c k c0 k0). destruct (m2 c k c0 k0) eqn:A; cbn [map]; unfold sum in *; cbn [fold_right].
    + apply m2_iff in A. destruct A as [-> _]. destruct (counter_eq c' c0); lia.
    + rewrite IH. lia.
Qed.
Lemma tot_all l m c : tot (count_all l m) c = (tot m c + sum (map (hit1 c) l))%N.
Proof.
  revert m. induction l as [|n l IH]; intro m; cbn [count_all fold_left map].
  - unfold sum. cbn [fold_right]. lia.
  - unfold count_all in IH. rewrite IH. destruct n as [s|s c' k'].
    + unfold sum. cbn [fold_right hit1]. lia.
    + rewrite tot_incr. unfold sum. cbn [fold_right hit1]. lia.
Qed.

(** ** Steps *)
Section Run.
  Variable pq : bytes -> bool.
  Definition step_what (w : server) (c : client) (x : what) (ended : bool) (limit : option limit_error) : what * list note :=
    match x with
    | W_conn s => let '(s, l) := step_conn w c s ended in (W_conn s, l)
    | W_ask q s => let '(s, l) := step_ask pq w c q s limit in (W_ask q s, l)
    end.
  Lemma handle_run w i ended limit t : nth_error (w_tasks w) i = Some t ->
    handle pq w (Run i ended limit) =
    let '(x, l) := step_what (w_server w) (t_client t) (t_what t) ended limit in
    World (w_server w) (count_all l (w_counts w)) (set (w_tasks w) i (Task (t_client t) x (t_notes t ++ l))).
  Proof. intro E. cbn [handle]. rewrite E. reflexivity. Qed.
  Lemma handle_none w i ended limit : nth_error (w_tasks w) i = None -> handle pq w (Run i ended limit) = w.
  Proof. intro E. cbn [handle]. now rewrite E. Qed.
  Lemma run_snoc s es e : run pq s (es ++ [e]) = handle pq (run pq s es) e.
  Proof. unfold run. now rewrite fold_left_app. Qed.

  (** A sum over the tasks of a function of their notes *)
  Lemma sum_inv (f : counts -> N) (h : note -> N) :
    (forall l m, f (count_all l m) = (f m + sum (map h l))%N) -> f [] = 0%N ->
    forall s es, f (w_counts (run pq s es)) = sum (map (fun t => sum (map h (t_notes t))) (w_tasks (run pq s es))).
  Proof.
    intros F F0 s es. induction es as [|e es IH] using rev_ind.
    - cbn. exact F0.
    - rewrite run_snoc. destruct e as [s'|c|c q|i ended limit].
      + exact IH.
      + cbn [handle w_counts w_tasks]. rewrite map_app, sum_app, IH. unfold sum at 3. cbn [map fold_right t_notes sum].
        unfold sum. cbn [fold_right]. lia.
      + cbn [handle w_counts w_tasks]. rewrite map_app, sum_app, IH. unfold sum at 3. cbn [map fold_right t_notes sum].
        unfold sum. cbn [fold_right]. lia.
      + destruct (nth_error (w_tasks (run pq s es)) i) as [t|] eqn:E; [|now rewrite handle_none].
        rewrite (handle_run _ _ _ _ _ E).
        destruct (step_what (w_server (run pq s es)) (t_client t) (t_what t) ended limit) as [x l].
        cbn [w_counts w_tasks]. rewrite F, IH.
        pose proof (sum_set (fun t => sum (map h (t_notes t))) _ _ _ (Task (t_client t) x (t_notes t ++ l)) E) as Z.
        cbn [t_notes] in Z. rewrite map_app, sum_app in Z. lia.
  Qed.

  Lemma set_forall {A} (P : A -> Prop) l i x : Forall P l -> P x -> Forall P (set l i x).
  Proof. intros F X. revert i. induction F as [|y l Y F IH]; intros [|i]; cbn [set]; constructor; auto. Qed.
  Lemma nth_forall {A} (P : A -> Prop) l i x : Forall P l -> nth_error l i = Some x -> P x.
  Proof. intros F E. rewrite Forall_forall in F. apply F. eapply nth_error_In; eauto. Qed.
  Lemma published_snoc es e : published (es ++ [e]) = published es ++ published [e].
  Proof. unfold published. now rewrite flat_map_app. Qed.
  Lemma server_in s es : In (w_server (run pq s es)) (s :: published es).
  Proof.
    induction es as [|e es IH] using rev_ind; [now left|]. rewrite run_snoc, published_snoc.
    assert (In (w_server (run pq s es)) (s :: published es ++ published [e])) as I.
    { destruct IH as [IH|IH]; [now left|right; apply in_or_app; now left]. }
    destruct e as [s'|c|c q|i ended limit]; try exact I.
    - right. apply in_or_app. right. now left.
    - destruct (nth_error (w_tasks (run pq s es)) i) as [t|] eqn:E; [|now rewrite handle_none].
      rewrite (handle_run _ _ _ _ _ E).
      destruct (step_what (w_server (run pq s es)) (t_client t) (t_what t) ended limit) as [x l]. exact I.
  Qed.
  Lemma task_inv (Q : server -> Prop) (P : task -> Prop) :
    (forall c, P (Task c (W_conn C_new) [])) -> (forall c q, P (Task c (W_ask q Q_new) [])) ->
    (forall w c s n ended, Q w -> P (Task c (W_conn s) n) ->
       P (Task c (W_conn (fst (step_conn w c s ended))) (n ++ snd (step_conn w c s ended)))) ->
    (forall w c q s n limit, Q w -> P (Task c (W_ask q s) n) ->
       P (Task c (W_ask q (fst (step_ask pq w c q s limit))) (n ++ snd (step_ask pq w c q s limit)))) ->
    forall s es, Forall Q (s :: published es) -> Forall P (w_tasks (run pq s es)).
  Proof.
    intros N1 N2 S1 S2 s es. induction es as [|e es IH] using rev_ind; intro FQ; [constructor|].
    rewrite published_snoc in FQ.
    assert (FQ' : Forall Q (s :: published es)).
    { inversion FQ as [|? ? A B]; subst. constructor; [exact A|]. apply Forall_app in B. tauto. }
    specialize (IH FQ'). rewrite run_snoc. destruct e as [s'|c|c q|i ended limit].
    - exact IH.
    - cbn [handle w_tasks]. apply Forall_app. split; [exact IH|constructor; [apply N1|constructor]].
    - cbn [handle w_tasks]. apply Forall_app. split; [exact IH|constructor; [apply N2|constructor]].
    - destruct (nth_error (w_tasks (run pq s es)) i) as [t|] eqn:E; [|now rewrite handle_none].
      rewrite (handle_run _ _ _ _ _ E).
      pose proof (nth_forall _ _ _ _ IH E) as PT.
      assert (QS : Q (w_server (run pq s es))).
      { rewrite Forall_forall in FQ'. apply FQ'. apply server_in. }
      destruct t as [c [st|q st] n]; cbn [t_client t_what t_notes step_what].
      + pose proof (S1 _ _ _ _ ended QS PT) as Z. destruct (step_conn _ c st ended) as [x l]. cbn [w_tasks].
        now apply set_forall.
      + pose proof (S2 _ _ _ _ _ limit QS PT) as Z. destruct (step_ask _ _ c q st limit) as [x l]. cbn [w_tasks].
        now apply set_forall.
  Qed.
  Lemma task_inv' (P : task -> Prop) :
    (forall c, P (Task c (W_conn C_new) [])) -> (forall c q, P (Task c (W_ask q Q_new) [])) ->
    (forall w c s n ended, P (Task c (W_conn s) n) ->
       P (Task c (W_conn (fst (step_conn w c s ended))) (n ++ snd (step_conn w c s ended)))) ->
    (forall w c q s n limit, P (Task c (W_ask q s) n) ->
       P (Task c (W_ask q (fst (step_ask pq w c q s limit))) (n ++ snd (step_ask pq w c q s limit)))) ->
    forall s es, Forall P (w_tasks (run pq s es)).
  Proof.
    intros A B C D s es. apply (task_inv (fun _ => True) P); auto. apply Forall_forall. auto.
  Qed.

  (** ** The counters are the increments *)
  Lemma increments_hit c k l : increments c k l (sum (map (hit c k) l)).
  Proof.
    induction l as [|n l IH]; [constructor|]. unfold sum in *. cbn [map fold_right]. destruct n as [s|s c' k']; cbn [hit].
    - constructor. exact IH.
    - destruct (m2 c k c' k') eqn:E.
      + apply m2_iff in E. destruct E as [-> E]. rewrite N.add_comm. now constructor.
      + apply m2_false in E. rewrite N.add_0_l. constructor; [|exact IH].
        destruct (counter_eq c c') eqn:F; [right|left].
        * apply counter_eq_iff in F. subst c'. intro G. apply E. auto.
        * intro G. apply counter_eq_iff in G. congruence.
  Qed.
  Lemma sum_concat (h : note -> N) ls : sum (map (fun l => sum (map h l)) ls) = sum (map h (concat ls)).
  Proof.
    induction ls as [|l ls IH]; [reflexivity|]. cbn [concat map]. rewrite map_app, sum_app, <- IH.
    unfold sum. cbn [fold_right]. reflexivity.
  Qed.
  Lemma counters s es c k :
    increments c k (all_notes (run pq s es)) (value (w_counts (run pq s es)) c k).
  Proof.
    rewrite (sum_inv (fun m => value m c k) (hit c k)).
    - unfold all_notes. rewrite <- (map_map t_notes (fun l => sum (map (hit c k) l))), sum_concat. apply increments_hit.
    - intros. apply value_all.
    - reflexivity.
  Qed.
  Lemma increments_det c k l n n' : increments c k l n -> increments c k l n' -> n = n'.
  Proof.
    intro I. revert n'. induction I as [|s k' l n A I IH|s c' k' l n A I IH|s l n I IH]; intros n' J; inversion J; subst; auto.
    - f_equal. auto.
    - exfalso. match goal with H : _ \/ _ |- _ => destruct H as [H|H]; [now apply H|now apply H] end.
    - exfalso. destruct A as [A|A]; [now apply A|now apply A].
  Qed.

  (** ** What happened to connections *)
  Lemma lfind_some l c a : lfind l c = Some a -> first l c a.
  Proof.
    unfold lfind. induction l as [|b l IH]; [discriminate|]. cbn [List.find].
    destruct (is_authorized (la_authz b) (c_ip c) (c_tls c)) eqn:E.
    - intro H. injection H as ->. exists [], l. split; [reflexivity|]. split; [exact E|]. intros ? [].
    - intro H. destruct (IH H) as (x & y & -> & A & B). exists (b :: x), y. split; [reflexivity|]. split; [exact A|].
      intros z [<-|Z]; [unfold applies; congruence|auto].
  Qed.
  Lemma lfind_none l c : lfind l c = None -> none l c.
  Proof.
    unfold lfind, none, applies. intros H a A. rewrite (find_none _ _ H a A). discriminate.
  Qed.
  Lemma check_some s c k : check s c = Some k ->
    exists a, first (of_connections s) c a /\ k = labelled c (L_server_authz (s_meta s) (port c) (la_meta a)).
  Proof.
    unfold check, of_connections. destruct (s_protocol s); try discriminate;
      (destruct (lfind _ c) as [a|] eqn:E; [|discriminate]; cbn [option_map]; intro H; injection H as <-;
       exists a; split; [now apply lfind_some|reflexivity]).
  Qed.
  Lemma check_none s c : check s c = None -> none (of_connections s) c.
  Proof.
    unfold check, of_connections. destruct (s_protocol s); try (intros _ ? []);
      (destruct (lfind _ c) as [a|] eqn:E; [discriminate|]; intros _; now apply lfind_none).
  Qed.
  Definition good (t : task) : Prop :=
    match t_what t with
    | W_conn s => conn_history (t_client t) s (t_notes t)
    | W_ask q s => ask_history (t_client t) q s (t_notes t)
    end.
  Lemma step_conn_good w c s n ended : conn_history c s n ->
    conn_history c (fst (step_conn w c s ended)) (n ++ snd (step_conn w c s ended)).
  Proof.
    intro H. inversion H; subst; cbn [step_conn].
    - destruct (check w c) as [k|] eqn:E; cbn [fst snd app].
      + destruct (check_some _ _ _ E) as (a & A & ->). now constructor.
      + constructor. now apply check_none.
    - cbn [fst snd app]. constructor; auto.
    - match goal with D : _ \/ _ |- _ => destruct D as [-> | ->] end; cbn [step_conn].
      + destruct ended; [cbn [fst snd app]; constructor; auto|].
        destruct (check w c) as [k|] eqn:E; cbn [fst snd app]; [constructor; auto|].
        apply ch_terminated; [auto|now apply check_none].
      + cbn [fst snd app]. constructor; auto.
    - cbn [fst snd app]. now apply ch_terminated.
    - cbn [fst snd app]. now constructor.
    - cbn [fst snd app]. now constructor.
  Qed.

  (** ** What happened to requests *)
  Definition plain (r : response) : Prop := r <> R_not_found /\ r <> R_unauthorized /\ r <> R_limited.
  Lemma http_plain draw n fs u m hs e : apply_http_filters pq draw n fs u m hs = inr e -> plain e.
  Proof.
    unfold plain. revert n hs. induction fs as [|f fs IH]; intros n hs; cbn [apply_http_filters]; [discriminate|].
    destruct f.
    - destruct (draw n); [|apply IH]. intro H. injection H as <-. repeat split; discriminate.
    - destruct (redirect_apply pq r u m) as [[x|]|x|]; try apply IH; intro H; injection H as <-; repeat split; discriminate.
    - apply IH.
    - intro H. injection H as <-. repeat split; discriminate.
  Qed.
  Lemma grpc_plain draw n fs hs e : apply_grpc_filters draw n fs hs = inr e -> plain e.
  Proof.
    unfold plain. revert n hs. induction fs as [|f fs IH]; intros n hs; cbn [apply_grpc_filters]; [discriminate|].
    destruct f.
    - destruct (draw n); [|apply IH]. intro H. injection H as <-. repeat split; discriminate.
    - apply IH.
    - intro H. injection H as <-. repeat split; discriminate.
  Qed.
  Definition plain_f (f : headers + response) : Prop := match f with inl _ => True | inr e => plain e end.
  Lemma decide_spec s c q :
    match decide pq s c q with
    | V_not_found => forall m l, ~ route_of q (s_protocol s) m l
    | V_denied m => exists l, route_of q (s_protocol s) m l /\ none l c
    | V_allowed m a f => exists l x, route_of q (s_protocol s) m l /\ first l c x /\ a = la_meta x /\ plain_f f
    end.
  Proof.
    unfold decide, authorize.
    assert (HTTP : forall p routes,
      (p = L_http1 routes \/ p = L_http2 routes \/ exists timeout l, p = L_detect routes timeout l) ->
      (forall routes', p = L_http1 routes' \/ p = L_http2 routes' \/ (exists t l, p = L_detect routes' t l) -> routes' = routes) ->
      (forall r, p <> L_grpc r) ->
      match
        match http_find routes (a_request q) with
        | Some (_, m, r) =>
            match lfind (lr_authorizations r) c with
            | Some a => V_allowed (lr_meta r) (la_meta a)
                (apply_http_filters pq (a_draw q) 0 (lr_filters r) (a_uri q) m (rq_headers (a_request q)))
            | None => V_denied (lr_meta r)
            end
        | None => V_not_found
        end
      with
      | V_not_found => forall m l, ~ route_of q p m l
      | V_denied m => exists l, route_of q p m l /\ none l c
      | V_allowed m a f => exists l x, route_of q p m l /\ first l c x /\ a = la_meta x /\ plain_f f
      end).
    { intros p routes D U G. destruct (http_find routes (a_request q)) as [[[h m] r]|] eqn:E.
      - destruct (lfind (lr_authorizations r) c) as [a|] eqn:F.
        + exists (lr_authorizations r), a. split; [eapply ro_http; eauto|]. split; [now apply lfind_some|].
          split; [reflexivity|]. unfold plain_f. destruct (apply_http_filters _ _ _ _ _ _ _) eqn:Z; [exact I|].
          eapply http_plain; eauto.
        + exists (lr_authorizations r). split; [eapply ro_http; eauto|now apply lfind_none].
      - intros m l R. inversion R as [p' routes' x r D' F|routes' x r F]; subst.
        + rewrite (U _ D') in F. congruence.
        + now apply (G routes'). }
    destruct (s_protocol s) as [r t l|r|r|r|l|l] eqn:P.
    - apply HTTP; [eauto|intros r' [X|[X|(? & ? & X)]]; congruence|discriminate].
    - apply HTTP; [eauto|intros r' [X|[X|(? & ? & X)]]; congruence|discriminate].
    - apply HTTP; [eauto|intros r' [X|[X|(? & ? & X)]]; congruence|discriminate].
    - destruct (grpc_find r (a_request q)) as [[[h m] x]|] eqn:E.
      + destruct (lfind (lr_authorizations x) c) as [a|] eqn:F.
        * exists (lr_authorizations x), a. split; [eapply ro_grpc; eauto|]. split; [now apply lfind_some|].
          split; [reflexivity|]. unfold plain_f. destruct (apply_grpc_filters _ _ _ _) eqn:Z; [exact I|].
          eapply grpc_plain; eauto.
        * exists (lr_authorizations x). split; [eapply ro_grpc; eauto|now apply lfind_none].
      + intros m l R. inversion R as [p' routes' x y D' F|routes' x y F]; subst.
        * destruct D' as [X|[X|(? & ? & X)]]; discriminate.
        * congruence.
    - intros m l' R. inversion R as [p' routes' x y D' F|]; subst. destruct D' as [X|[X|(? & ? & X)]]; discriminate.
    - intros m l' R. inversion R as [p' routes' x y D' F|]; subst. destruct D' as [X|[X|(? & ? & X)]]; discriminate.
  Qed.
  Lemma step_ask_good w c q s n limit : ask_history c q s n ->
    ask_history c q (fst (step_ask pq w c q s limit)) (n ++ snd (step_ask pq w c q s limit)).
  Proof.
    intro H. inversion H as [|p|p p' k hs K|p p' ctr k r K A|p p' k t e K]; subst; cbn [step_ask].
    - cbn [fst snd app]. constructor.
    - pose proof (decide_spec p c q) as D. destruct (decide pq p c q) as [|m|m a f]; cbn [fst snd app].
      + apply ah_done; [now constructor|reflexivity].
      + destruct D as (l & D & E). apply ah_done; [|reflexivity]. eapply co_denied; eauto.
      + destruct D as (l & x & D & E & -> & F). destruct f as [hs|e].
        * apply ah_passed. eapply co_allowed; eauto.
        * apply ah_done; [eapply co_allowed; eauto|exact F].
    - destruct limit as [e|]; cbn [fst snd app].
      + apply ah_limited with (e := e) (t := w) in K. unfold limit_key, scope. exact K.
      + apply ah_done; [exact K|]. cbn. repeat split; discriminate.
    - cbn [fst snd app]. now constructor.
    - cbn [fst snd app]. now apply ah_limited.
  Qed.
  Lemma all_good s es : Forall good (w_tasks (run pq s es)).
  Proof.
    apply task_inv'; unfold good; cbn [t_what t_client t_notes].
    - constructor.
    - constructor.
    - intros. now apply step_conn_good.
    - intros. now apply step_ask_good.
  Qed.
  Lemma connections s es t st : In t (w_tasks (run pq s es)) -> t_what t = W_conn st ->
    conn_history (t_client t) st (t_notes t).
  Proof.
    intros I E. pose proof (all_good s es) as A. rewrite Forall_forall in A. specialize (A _ I). unfold good in A.
    now rewrite E in A.
  Qed.
  Lemma requests s es t q st : In t (w_tasks (run pq s es)) -> t_what t = W_ask q st ->
    ask_history (t_client t) q st (t_notes t).
  Proof.
    intros I E. pose proof (all_good s es) as A. rewrite Forall_forall in A. specialize (A _ I). unfold good in A.
    now rewrite E in A.
  Qed.

  (** ** Totals *)
  Lemma total_sum s es c :
    total (run pq s es) c = sum (map (fun t => sum (map (hit1 c) (t_notes t))) (w_tasks (run pq s es))).
  Proof. apply (sum_inv (fun m => tot m c) (hit1 c)); [intros; apply tot_all|reflexivity]. Qed.
  Lemma sum_number (P : task -> Prop) (g : task -> N) (f : task -> bool) l :
    Forall P l -> (forall t, P t -> g t = if f t then 1%N else 0%N) ->
    sum (map g l) = N.of_nat (List.length (filter f l)).
  Proof.
    intros F E. induction F as [|t l T F IH]; [reflexivity|]. cbn [map filter]. unfold sum in *. cbn [fold_right].
    rewrite IH, (E t T). destruct (f t); cbn [List.length]; lia.
  Qed.
  Lemma sum_plus {A} (f g : A -> N) l : (sum (map f l) + sum (map g l) = sum (map (fun x => f x + g x)%N l))%N.
  Proof. induction l as [|x l IH]; [reflexivity|]. cbn [map]. unfold sum in *. cbn [fold_right]. lia. Qed.
  Ltac cases := unfold good; intros [c [st|q st] n]; cbn [t_what t_client t_notes]; intro H; inversion H; subst;
    repeat match goal with K : counted _ _ _ _ _ _ |- _ => inversion K; subst; clear K end;
    repeat match goal with D : _ \/ _ |- _ => destruct D; subst end; try reflexivity; cbn in *.
  Lemma conn_totals s es :
    (total (run pq s es) Tcp_allow + total (run pq s es) Tcp_deny)%N = number conn_decided (run pq s es).
  Proof.
    rewrite !total_sum, sum_plus. eapply sum_number; [apply all_good|]. cases.
  Qed.
  Lemma terminate_total s es : total (run pq s es) Tcp_terminate = number conn_terminated (run pq s es).
  Proof. rewrite total_sum. eapply sum_number; [apply all_good|]. cases. Qed.
  Lemma ask_totals s es :
    (total (run pq s es) Http_allow + total (run pq s es) Http_deny + total (run pq s es) Http_not_found)%N
    = number ask_decided (run pq s es).
  Proof.
    rewrite !total_sum, !sum_plus. eapply sum_number; [apply all_good|]. cases.
  Qed.
  Lemma limited_total s es : total (run pq s es) Http_limited = number ask_limited (run pq s es).
  Proof.
    rewrite total_sum. eapply sum_number; [apply all_good|]. cases; subst; try reflexivity; try contradiction;
      unfold ask_limited; cbn [t_what]; destruct r; try reflexivity; exfalso; tauto.
  Qed.

  (** ** The policies in the notes *)
  Lemma in_force s es t n : In t (w_tasks (run pq s es)) -> In n (t_notes t) -> In (note_server n) (s :: published es).
  Proof.
    intros I J. set (Q := fun x => In x (s :: published es)).
    assert (F : Forall (fun t => Forall (fun n => Q (note_server n)) (t_notes t)) (w_tasks (run pq s es))).
    { apply (task_inv Q).
      - constructor.
      - constructor.
      - intros w c st l ended QW H. cbn [t_notes] in *. apply Forall_app. split; [exact H|].
        destruct st; cbn [step_conn]; repeat match goal with |- context [match ?x with _ => _ end] => destruct x end;
          cbn [snd]; repeat (apply Forall_cons; [exact QW|]); apply Forall_nil.
      - intros w c q st l limit QW H. cbn [t_notes] in *. apply Forall_app. split; [exact H|].
        destruct st; cbn [step_ask]; try destruct (decide pq routes c q); try destruct limit;
          cbn [snd]; repeat (apply Forall_cons; [exact QW|]); apply Forall_nil.
      - apply Forall_forall. auto. }
    rewrite Forall_forall in F. specialize (F _ I). rewrite Forall_forall in F. exact (F _ J).
  Qed.
  Lemma unchanged s es t p c k : published es = [] -> In t (w_tasks (run pq s es)) -> In (Counted p c k) (t_notes t) ->
    p = s /\ labels_server (k_labels k) = s_meta s.
  Proof.
    intros E I J.
    assert (SV : forall n, In n (t_notes t) -> note_server n = s).
    { intros n N. pose proof (in_force _ _ _ _ I N) as F. rewrite E in F. destruct F as [<-|[]]. reflexivity. }
    pose proof (all_good s es) as A. rewrite Forall_forall in A. specialize (A _ I). unfold good in A.
    split; [exact (SV _ J)|].
    destruct (t_what t) as [st|q st]; inversion A; subst;
      match goal with H : ?l = t_notes t |- _ => rewrite <- H in J, SV | H : t_notes t = ?l |- _ => rewrite H in J, SV end;
      repeat match goal with K : counted _ _ _ _ _ _ |- _ => inversion K; subst; clear K end;
      cbn [In] in J, SV;
      repeat match goal with H : _ \/ _ |- _ => destruct H as [H|H] end; try contradiction; try discriminate;
      injection J; intros; subst; cbn [labelled k_labels labels_server];
      try (pose proof (SV _ (or_introl eq_refl)) as X; cbn in X; congruence);
      try (pose proof (SV _ (or_intror (or_introl eq_refl))) as X; cbn in X; congruence);
      try (pose proof (SV _ (or_intror (or_intror (or_introl eq_refl)))) as X; cbn in X; congruence);
      try (pose proof (SV _ (or_intror (or_intror (or_intror (or_introl eq_refl))))) as X; cbn in X; congruence).
  Qed.

  (** ** Counters do not decrease *)
  Lemma monotone s es es' c k :
    (value (w_counts (run pq s es)) c k <= value (w_counts (run pq s (es ++ es'))) c k)%N.
  Proof.
    induction es' as [|e es' IH] using rev_ind; [rewrite app_nil_r; lia|].
    rewrite app_assoc, run_snoc. etransitivity; [exact IH|].
    destruct e as [s'|x|x q|i ended limit]; cbn [handle w_counts]; try lia.
    destruct (nth_error (w_tasks (run pq s (es ++ es'))) i) as [t|] eqn:E; [|lia].
    fold (step_what (w_server (run pq s (es ++ es'))) (t_client t) (t_what t) ended limit).
    destruct (step_what _ _ _ _ _) as [x l]. cbn [w_counts]. rewrite value_all. lia.
  Qed.

  (** ** Without names *)
  Lemma best_map {K P P'} (cmp : K -> K -> comparison) (f : P -> P') (l : list (K * P)) :
    best cmp (map (fun x => (fst x, f (snd x))) l) = option_map (fun x => (fst x, f (snd x))) (best cmp l).
  Proof.
    destruct l as [|x l]; [reflexivity|]. cbn [map best option_map]. f_equal. revert x.
    induction l as [|y l IH]; intro x; [reflexivity|]. cbn [map fold_left]. rewrite <- IH. f_equal. cbn [fst].
    destruct (cmp (fst x) (fst y)); reflexivity.
  Qed.
  Lemma filter_map_map {A A' B B'} (f : A -> option B) (f' : A' -> option B') (g : A -> A') (h : B -> B') l :
    (forall a, f' (g a) = option_map h (f a)) -> filter_map f' (map g l) = map h (filter_map f l).
  Proof.
    intro E. induction l as [|a l IH]; [reflexivity|]. cbn [map filter_map]. rewrite E, IH.
    destruct (f a); reflexivity.
  Qed.
  Definition erase_policy {F} (r : lroute F) : route_policy F :=
    RoutePolicy (map la_authz (lr_authorizations r)) (lr_filters r).
  Lemma find_erase {M S F} (matches : M -> request -> option S) scmp default (l : list (route M (lroute F))) req :
    find matches scmp default (map erase_route l) req
    = option_map (fun x => (fst x, erase_policy (snd x))) (find matches scmp default l req).
  Proof.
    unfold find. rewrite <- best_map. f_equal. apply filter_map_map. intro rt. unfold route_summary.
    replace (route_host (erase_route rt) req) with (route_host rt req) by reflexivity.
    destruct (route_host rt req) as [h|]; [|reflexivity].
    replace (rt_rules (erase_route rt)) with (map erase_rule (rt_rules rt)) by reflexivity.
    rewrite (filter_map_map (fun ru => rule_summary matches scmp default ru req) _ erase_rule
               (fun x => (fst x, erase_policy (snd x)))).
    - rewrite best_map. destruct (best scmp _) as [[x y]|]; reflexivity.
    - intro ru. unfold rule_summary.
      replace (ru_matches (erase_rule ru)) with (ru_matches ru) by reflexivity.
      destruct (ru_matches ru) as [|m ms]; [reflexivity|].
      destruct (max_by scmp _); reflexivity.
  Qed.
  Lemma find_authz_erase l c : find_authz (map la_authz l) (c_ip c) (c_tls c) = option_map la_authz (lfind l c).
  Proof.
    unfold find_authz, lfind. induction l as [|a l IH]; [reflexivity|]. cbn [map List.find].
    destruct (is_authorized _ _ _); [reflexivity|exact IH].
  Qed.
  Definition reply (v : verdict) (limit : bool) : response :=
    match v with
    | V_not_found => R_not_found
    | V_denied _ => R_unauthorized
    | V_allowed _ _ (inr e) => e
    | V_allowed _ _ (inl hs) => if limit then R_forward hs else R_limited
    end.
  Definition old_call (s : server) (c : client) (q : ask) (limit : bool) : response :=
    fst (call pq (a_draw q) (erase (s_protocol s)) (c_ip c) (c_tls c) (a_request q) (a_uri q) limit).
  Lemma call_decide s c q limit : old_call s c q limit = reply (decide pq s c q) limit.
  Proof.
    unfold old_call, call, decide, authorize, PolicyModel.authorize.
    destruct (s_protocol s); cbn [erase]; try reflexivity; unfold http_find, grpc_find; rewrite find_erase;
      (destruct (find _ _ _ _ (a_request q)) as [[[h m] r]|]; [|reflexivity]);
      cbn [option_map fst snd erase_policy rp_authorizations rp_filters]; rewrite find_authz_erase;
      (destruct (lfind (lr_authorizations r) c) as [a|]; [|reflexivity]); cbn [option_map reply];
      unfold erase_policy; cbn [rp_filters];
      match goal with
      | |- context [apply_http_filters ?a ?b ?n ?c ?d ?e ?f] => destruct (apply_http_filters a b n c d e f)
      | |- context [apply_grpc_filters ?a ?n ?b ?c] => destruct (apply_grpc_filters a n b c)
      end; destruct limit; reflexivity.
  Qed.
  Definition answered (t : task) : Prop :=
    match t_what t with
    | W_ask q (Q_routed s) => exists l, t_notes t = Checked s :: l
    | W_ask q (Q_passed hs) => exists s l, t_notes t = Checked s :: l /\
        forall limit, old_call s (t_client t) q limit = if limit then R_forward hs else R_limited
    | W_ask q (Q_done r) => exists s l limit, t_notes t = Checked s :: l /\ old_call s (t_client t) q limit = r
    | _ => t_notes t = [] \/ exists x, t_what t = W_conn x
    end.
  Lemma all_answered s es : Forall answered (w_tasks (run pq s es)).
  Proof.
    apply task_inv'; unfold answered; cbn [t_what t_client t_notes]; auto.
    - intros. right. eauto.
    - intros w c q st n limit H. destruct st as [|p|hs|r]; cbn [step_ask].
      + destruct H as [->|(x & H)]; [|discriminate]. cbn [fst snd app]. eauto.
      + destruct H as (l & ->).
        assert (R : forall b, old_call p c q b = reply (decide pq p c q) b) by (intro; apply call_decide).
        destruct (decide pq p c q) as [|m|m a [hs|e]]; cbn [fst snd app reply] in *.
        * exists p. eexists. exists true. split; [reflexivity|apply R].
        * exists p. eexists. exists true. split; [reflexivity|apply R].
        * exists p. eexists. split; [reflexivity|exact R].
        * exists p. eexists. exists true. split; [reflexivity|apply R].
      + destruct H as (p & l & -> & R). destruct limit as [e|]; cbn [fst snd app].
        * exists p. eexists. exists false. split; [reflexivity|apply R].
        * exists p. eexists. exists true. split; [reflexivity|apply R].
      + destruct H as (p & l & b & -> & R). cbn [fst snd app]. eauto 6.
  Qed.
  Lemma same_answer s es t q r : In t (w_tasks (run pq s es)) -> t_what t = W_ask q (Q_done r) ->
    exists p l limit, t_notes t = Checked p :: l /\
      r = fst (call pq (a_draw q) (erase (s_protocol p)) (c_ip (t_client t)) (c_tls (t_client t)) (a_request q) (a_uri q) limit).
  Proof.
    intros I E. pose proof (all_answered s es) as A. rewrite Forall_forall in A. specialize (A _ I). unfold answered in A.
    rewrite E in A. destruct A as (p & l & b & N & R). exists p, l, b. split; [exact N|]. symmetry. exact R.
  Qed.
  Lemma same_check s c : (exists k, check s c = Some k) <->
    exists a, check_authorized (erase (s_protocol s)) (c_ip c) (c_tls c) = Some a.
  Proof.
    unfold check, check_authorized. destruct (s_protocol s); cbn [erase];
      try (split; intros (? & ?); discriminate); rewrite find_authz_erase;
      destruct (lfind _ c); cbn [option_map]; split; intros (? & ?); eauto; discriminate.
  Qed.
End Run.
