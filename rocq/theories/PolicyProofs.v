From Coq Require Import List Arith NArith Bool Lia.
From Verif Require Import Bytes RouteModel RouteProofs FilterModel AuthzModel AuthzSpec AuthzProofs PolicyModel PolicySpec.
Import ListNotations.
Open Scope nat_scope.

(** ** Connections *)
Lemma check_allows : forall p client t, wf p -> ip_wf client ->
  (exists a, check_authorized p client t = Some a) <-> allows p client t.
Proof.
  intros p client t Hp Hc. unfold allows, wf in *. destruct p; cbn [check_authorized tcp_authorizations] in *;
    try (split; [intros (a & H); discriminate|intros (a & [] & _)]); apply find_authz_iff; assumption.
Qed.
Lemma in_force_app : forall p a b, in_force p (a ++ b) = in_force (in_force p a) b.
Proof. intros. unfold in_force. apply fold_left_app. Qed.

Section Conn.
  Variables (client : ip) (t : tls) (p0 : protocol).
  Hypothesis client_wf : ip_wf client.

  Notation entry_ok := (entry_ok client t p0).
  Record inv (w : world) : Prop := {
    i_policy : w_policy w = in_force p0 (w_log w);
    i_log : forall a e b, w_log w = a ++ e :: b -> entry_ok a e;
    i_conn : match w_conn w with
             | Accepted k | Selecting k => k <= w_version w /\ (k = w_version w -> allows (w_policy w) client t)
             | Checking k => k <= w_version w
             | _ => True
             end;
    i_started : match w_conn w with
                | New | Denied => ~ In Started (w_log w) /\ ~ In Finished (w_log w) /\ ~ In Terminated (w_log w)
                | Accepted _ | Selecting _ | Checking _ => ~ In Finished (w_log w) /\ ~ In Terminated (w_log w)
                | Over => In Finished (w_log w) \/ In Terminated (w_log w)
                end
  }.
  Notation all_wf := (all_wf p0).

  Lemma log_snoc : forall (l : list seen_) x, (forall a e b, l = a ++ e :: b -> entry_ok a e) -> entry_ok l x ->
    forall a e b, l ++ [x] = a ++ e :: b -> entry_ok a e.
  Proof.
    intros l x H Hx a e b E. destruct b as [|y b] using rev_ind.
    - apply app_inj_tail in E as [-> ->]. exact Hx.
    - change (a ++ e :: b ++ [y]) with (a ++ (e :: b) ++ [y]) in E. rewrite app_assoc in E.
      apply app_inj_tail in E as [-> ->]. apply (H _ _ _ eq_refl).
  Qed.
  Lemma handle_inv : forall w e, wf (w_policy w) -> (forall p, e = Publish p -> wf p) -> inv w ->
    inv (handle client t w e) /\ wf (w_policy (handle client t w e)).
  Proof.
    intros [pol v c l] e Hw He [Ip Il Ic Is]. cbn [w_policy w_version w_conn w_log] in *.
    pose proof (check_allows pol client t Hw client_wf) as CA.
    assert (Same : inv (World pol v c l) /\ wf pol) by (split; [constructor; assumption|assumption]).
    destruct e as [p|k| |done].
    - unfold handle. cbn [w_policy w_version w_conn w_log].
      assert (G : inv (World p (S v) c (l ++ [Published p])) /\ wf p); [|destruct c; exact G].
      split; [|apply He; reflexivity]. constructor; cbn [w_policy w_version w_conn w_log].
      + rewrite in_force_app. reflexivity.
      + apply log_snoc; [exact Il|exact I].
      + destruct c; auto; (split; [lia|intros E; destruct Ic; lia]).
      + destruct c; rewrite !in_app_iff; cbn [In]; intuition discriminate.
    - unfold handle; cbn [w_policy w_version w_conn w_log]. destruct c; auto.
      destruct (check_authorized pol client t) as [a|] eqn:E.
      + assert (A : allows pol client t) by (apply CA; eauto).
        split; [|exact Hw]. constructor; cbn [w_policy w_version w_conn w_log].
        * rewrite in_force_app. exact Ip.
        * apply log_snoc; [exact Il|]. cbn. rewrite <- Ip. exact A.
        * split; [lia|auto].
        * rewrite !in_app_iff; cbn [In]; intuition discriminate.
      + assert (A : ~ allows pol client t) by (intros H; apply CA in H as (a & H); congruence).
        split; [|exact Hw]. constructor; cbn [w_policy w_version w_conn w_log].
        * rewrite in_force_app. exact Ip.
        * apply log_snoc; [exact Il|]. cbn. rewrite <- Ip. exact A.
        * exact I.
        * rewrite !in_app_iff; cbn [In]; intuition discriminate.
    - unfold handle; cbn [w_policy w_version w_conn w_log]. destruct c; auto.
      rewrite app_nil_r. split; [|exact Hw]. constructor; auto.
    - unfold handle; cbn [w_policy w_version w_conn w_log]. destruct c; auto.
      + destruct done; [|destruct (Nat.eqb_spec seen v)]; [| |].
        * split; [|exact Hw]. constructor; cbn [w_policy w_version w_conn w_log].
          -- rewrite in_force_app. exact Ip.
          -- apply log_snoc; [exact Il|exact I].
          -- exact I.
          -- left. apply in_app_iff. right. left. reflexivity.
        * exact Same.
        * rewrite app_nil_r. split; [|exact Hw]. constructor; cbn [w_policy w_version w_conn w_log]; auto.
      + destruct (check_authorized pol client t) as [a|] eqn:E.
        * assert (A : allows pol client t) by (apply CA; eauto).
          rewrite app_nil_r. split; [|exact Hw]. constructor; auto. cbn [w_policy w_version w_conn w_log]. auto.
        * assert (A : ~ allows pol client t) by (intros H; apply CA in H as (a & H); congruence).
          split; [|exact Hw]. constructor; cbn [w_policy w_version w_conn w_log].
          -- rewrite in_force_app. exact Ip.
          -- apply log_snoc; [exact Il|]. cbn. rewrite <- Ip. exact A.
          -- exact I.
          -- right. apply in_app_iff. right. left. reflexivity.
  Qed.
  Lemma run_inv : forall es, all_wf es -> inv (run client t p0 es) /\ wf (w_policy (run client t p0 es)).
  Proof.
    intros es [H0 H]. unfold run.
    assert (G : forall w, inv w /\ wf (w_policy w) -> inv (fold_left (handle client t) es w) /\ wf (w_policy (fold_left (handle client t) es w))).
    { induction es as [|e es IH]; intros w Hw; [exact Hw|]. cbn [fold_left]. apply IH.
      - intros p Hp. apply H. right. exact Hp.
      - apply handle_inv; [apply Hw| |apply Hw]. intros p ->. apply H. left. reflexivity. }
    apply G. split; [|exact H0]. constructor; cbn; auto. intros a e b E. destruct a; discriminate.
  Qed.
End Conn.

Theorem log_ok : forall client t p0 es a e b, ip_wf client -> all_wf p0 es ->
  w_log (run client t p0 es) = a ++ e :: b -> entry_ok client t p0 a e.
Proof. intros client t p0 es a e b Hc Hw E. destruct (run_inv client t p0 Hc es Hw) as [[_ H _ _] _]. exact (H _ _ _ E). Qed.
Lemma in_progress_conn : forall client t p0 es, ip_wf client -> all_wf p0 es -> in_progress (w_log (run client t p0 es)) ->
  match w_conn (run client t p0 es) with Accepted _ | Selecting _ | Checking _ => True | _ => False end.
Proof.
  intros client t p0 es Hc Hw (H1 & H2 & H3). destruct (run_inv client t p0 Hc es Hw) as [[_ _ _ Is] _].
  destruct (w_conn _); tauto.
Qed.
Theorem revoked : forall client t p0 es d1 d2, ip_wf client -> all_wf p0 es ->
  in_progress (w_log (run client t p0 es)) -> ~ allows (in_force p0 (w_log (run client t p0 es))) client t ->
  let l := w_log (run client t p0 (es ++ [Call; Step d1; Step d2])) in
  In Terminated l \/ ((d1 = true \/ d2 = true) /\ In Finished l).
Proof.
  intros client t p0 es d1 d2 Hc Hw Hp Hn. cbv zeta. unfold run. rewrite fold_left_app. fold (run client t p0 es).
  pose proof (in_progress_conn client t p0 es Hc Hw Hp) as K.
  destruct (run_inv client t p0 Hc es Hw) as [[Ip _ Ic _] Wp]. rewrite <- Ip in Hn.
  set (w := run client t p0 es) in *. clearbody w. destruct w as [pol v c l]. cbn [w_policy w_version w_conn w_log] in *.
  assert (CN : check_authorized pol client t = None).
  { destruct (check_authorized pol client t) as [a|] eqn:E; [|reflexivity]. exfalso. apply Hn.
    apply check_allows; eauto. }
  assert (T : forall k, In Terminated (w_log (handle client t (World pol v (Checking k) l) (Step d2)))).
  { intros k. unfold handle. cbn [w_policy w_version w_conn w_log]. rewrite CN. cbn. apply in_app_iff. right. left. reflexivity. }
  assert (S1 : forall k, k <> v ->
     let w := handle client t (handle client t (World pol v (Selecting k) l) (Step d1)) (Step d2) in
     In Terminated (w_log w) \/ ((d1 = true \/ d2 = true) /\ In Finished (w_log w))).
  { intros k Hk. cbv zeta. destruct d1.
    - right. split; [auto|]. unfold handle at 2. cbn [w_policy w_version w_conn w_log]. cbn. apply in_app_iff. right. left. reflexivity.
    - unfold handle at 2 4. cbn [w_policy w_version w_conn w_log].
      destruct (Nat.eqb_spec k v) as [E|_]; [congruence|]. rewrite app_nil_r. left. apply T. }
  assert (NV : forall k, k <= v /\ (k = v -> allows pol client t) -> k <> v) by (intros k [H1 H2] E; auto).
  cbn [fold_left]. destruct c as [| |k|k|k|]; try tauto.
  - change (handle client t (World pol v (Accepted k) l) Call) with (World pol v (Selecting k) (l ++ [])). rewrite app_nil_r.
    apply S1, NV, Ic.
  - change (handle client t (World pol v (Selecting k) l) Call) with (World pol v (Selecting k) l). apply S1, NV, Ic.
  - change (handle client t (World pol v (Checking k) l) Call) with (World pol v (Checking k) l). left.
    unfold handle at 2. cbn [w_policy w_version w_conn w_log]. rewrite CN. cbn. apply in_app_iff. right. left. reflexivity.
Qed.

(** ** Requests *)
Lemma best_in : forall K P (cmp : K -> K -> comparison) (l : list (K * P)) x, best cmp l = Some x -> In x l.
Proof.
  intros K P cmp [|y l] x H; [discriminate|]. injection H as <-. revert y.
  induction l as [|z l IH]; intros y; [left; reflexivity|]. cbn [fold_left].
  destruct (cmp (fst y) (fst z)).
  - destruct (IH y) as [<-|H]; [left; reflexivity|right; right; exact H].
  - right. apply IH.
  - destruct (IH y) as [<-|H]; [left; reflexivity|right; right; exact H].
Qed.
Lemma find_policy : forall M S P (m : M -> request -> option S) cmp (d : S) (routes : list (route M P)) req k p,
  RouteModel.find m cmp d routes req = Some (k, p) ->
  exists rt ru, In rt routes /\ In ru (rt_rules rt) /\ ru_policy ru = p.
Proof.
  intros M S P m cmp d routes req k p H. apply best_in in H. apply filter_map_in in H as (rt & Hrt & H).
  exists rt. unfold route_summary in H. destruct (route_host rt req) as [h|]; [|discriminate].
  destruct (best cmp _) as [[s q]|] eqn:E; [|discriminate]. injection H as <- <-.
  apply best_in in E. apply filter_map_in in E as (ru & Hru & E). exists ru. split; [exact Hrt|]. split; [exact Hru|].
  unfold rule_summary in E. destruct (ru_matches ru); [congruence|]. destruct (max_by _ _); congruence.
Qed.

Lemma http_filters_iff : forall pq draw u rm fs n hs r,
  apply_http_filters pq draw n fs u rm hs = r <-> http_filtered pq draw u rm n fs hs r.
Proof.
  intros pq draw u rm fs n hs r. split.
  - revert n hs r. induction fs as [|f fs IH]; intros n hs r; cbn [apply_http_filters].
    + intros <-. constructor.
    + destruct f as [s m|rd|m|m].
      * destruct (draw n) eqn:E; [intros <-; constructor; exact E|]. intros H. apply hf_no_fail; auto.
      * destruct (redirect_apply pq rd u rm) as [[x|]|e|] eqn:E; try (intros <-; constructor; exact E).
        intros H. apply hf_no_redirect; auto.
      * intros H. constructor. auto.
      * intros <-. constructor.
  - intros H. induction H; cbn [apply_http_filters]; try rewrite H; auto.
Qed.
Lemma grpc_filters_iff : forall draw fs n hs r, apply_grpc_filters draw n fs hs = r <-> grpc_filtered draw n fs hs r.
Proof.
  intros draw fs n hs r. split.
  - revert n hs r. induction fs as [|f fs IH]; intros n hs r; cbn [apply_grpc_filters].
    + intros <-. constructor.
    + destruct f as [s m|m|m].
      * destruct (draw n) eqn:E; [intros <-; constructor; exact E|]. intros H. apply gf_no_fail; auto.
      * intros H. constructor. auto.
      * intros <-. constructor.
  - intros H. induction H; cbn [apply_grpc_filters]; try rewrite H; auto.
Qed.


Theorem verdict_call : forall pq draw p client t req u limit, routes_wf p -> ip_wf client ->
  verdict pq draw p client t req u limit (call pq draw p client t req u limit).
Proof.
  intros pq draw p client t req u limit Hp Hc.
  assert (H : forall routes, (p = Http1 routes \/ p = Http2 routes \/ exists timeout l, p = Detect routes timeout l) ->
    (forall rt ru a, In rt routes -> In ru (rt_rules rt) -> In a (rp_authorizations (ru_policy ru)) -> authz_wf a) ->
    verdict pq draw p client t req u limit
      match authorize (http_find routes req) client t with
      | inr e => (e, false)
      | inl (m, rp) => match apply_http_filters pq draw 0 (rp_filters rp) u m (rq_headers req) with
          | inl hs => if limit then (R_forward hs, true) else (R_limited, true)
          | inr e => (e, false)
          end
      end).
  { intros routes Ep Hr. unfold authorize. destruct (http_find routes req) as [[[h m] rp]|] eqn:F.
    - destruct (find_policy _ _ _ _ _ _ _ _ _ _ F) as (rt & ru & H1 & H2 & H3).
      assert (Ha : forall a, In a (rp_authorizations rp) -> authz_wf a) by (rewrite <- H3; eauto).
      pose proof (find_authz_iff (rp_authorizations rp) client t Ha Hc) as A.
      destruct (apply_http_filters pq draw 0 (rp_filters rp) u m (rq_headers req)) as [hs|e] eqn:E; pose proof E as E';
        apply http_filters_iff in E'; pose proof (ch_http pq draw req u p routes h m rp _ Ep F E') as C;
        (destruct (find_authz _ client t) as [a|]; [assert (A' : authorized (rp_authorizations rp) client t) by (apply A; eauto); rewrite E
          |eapply v_unauthorized; [exact C|]; intros Q; apply A in Q as (a & Q); discriminate]).
      + destruct limit eqn:L; [eapply v_forward|eapply v_limited]; eauto.
      + eapply v_filtered; eauto.
    - apply v_not_found. intros l r C. inversion C as [p' routes' h m rp r' Ep' F' _|routes' h m rp r' F' _]; subst.
      + assert (routes' = routes) by (destruct Ep as [Ep|[Ep|(? & ? & Ep)]]; destruct Ep' as [Ep'|[Ep'|(? & ? & Ep')]]; congruence).
        congruence.
      + destruct Ep as [Ep|[Ep|(? & ? & Ep)]]; discriminate. }
  destruct p as [routes timeout tcp|routes|routes|routes|tcp|tcp]; cbn [call routes_wf] in *.
  - apply H; eauto.
  - apply H; auto.
  - apply H; auto.
  - clear H. unfold authorize. destruct (grpc_find routes req) as [[[h m] rp]|] eqn:F.
    + destruct (find_policy _ _ _ _ _ _ _ _ _ _ F) as (rt & ru & H1 & H2 & H3).
      assert (Ha : forall a, In a (rp_authorizations rp) -> authz_wf a) by (rewrite <- H3; eauto).
      pose proof (find_authz_iff (rp_authorizations rp) client t Ha Hc) as A.
      destruct (apply_grpc_filters draw 0 (rp_filters rp) (rq_headers req)) as [hs|e] eqn:E; pose proof E as E';
        apply grpc_filters_iff in E'; pose proof (ch_grpc pq draw req u routes h m rp _ F E') as C;
        (destruct (find_authz _ client t) as [a|]; [assert (A' : authorized (rp_authorizations rp) client t) by (apply A; eauto); rewrite E
          |eapply v_unauthorized; [exact C|]; intros Q; apply A in Q as (a & Q); discriminate]).
      * destruct limit eqn:L; [eapply v_forward|eapply v_limited]; eauto.
      * eapply v_filtered; eauto.
    + apply v_not_found. intros l r C. inversion C as [p' routes' h m rp r' Ep' F' _|routes' h m rp r' F' _]; subst.
      * destruct Ep' as [Ep|[Ep|(? & ? & Ep)]]; discriminate.
      * congruence.
  - apply v_not_found. intros l r C. inversion C as [p' routes' h m rp r' Ep' F' _|]. destruct Ep' as [Ep|[Ep|(? & ? & Ep)]]; discriminate.
  - apply v_not_found. intros l r C. inversion C as [p' routes' h m rp r' Ep' F' _|]. destruct Ep' as [Ep|[Ep|(? & ? & Ep)]]; discriminate.
Qed.
Lemma chosen_fun : forall pq draw req u p l r l' r', chosen pq draw req u p l r -> chosen pq draw req u p l' r' -> l = l' /\ r = r'.
Proof.
  intros pq draw req u p l r l' r' H H'.
  destruct H as [p routes h m rp r Ep F E|routes h m rp r F E]; inversion H' as [p' routes' h' m' rp' r'' Ep' F' E'|routes' h' m' rp' r'' F' E']; subst.
  - assert (routes' = routes) by (destruct Ep as [Ep|[Ep|(? & ? & Ep)]]; destruct Ep' as [Ep'|[Ep'|(? & ? & Ep')]]; congruence).
    subst. rewrite F in F'. injection F' as <- <- <-. apply http_filters_iff in E, E'. split; congruence.
  - destruct Ep as [Ep|[Ep|(? & ? & Ep)]]; discriminate.
  - destruct Ep' as [Ep|[Ep|(? & ? & Ep)]]; discriminate.
  - rewrite F in F'. injection F' as <- <- <-. apply grpc_filters_iff in E, E'. split; congruence.
Qed.
(** One verdict only *)
Theorem verdict_fun : forall pq draw p client t req u limit x y,
  verdict pq draw p client t req u limit x -> verdict pq draw p client t req u limit y -> x = y.
Proof.
  intros pq draw p client t req u limit x y H H'.
  destruct H; destruct H'; try reflexivity; try tauto;
  repeat match goal with
  | A : forall l r, ~ chosen _ _ _ _ _ l r, B : chosen _ _ _ _ _ _ _ |- _ => destruct (A _ _ B)
  | A : chosen _ _ _ _ _ _ _, B : chosen _ _ _ _ _ _ _ |- _ =>
      destruct (chosen_fun _ _ _ _ _ _ _ _ _ A B) as [? ?]; clear B; subst
  end; try tauto; try congruence.
Qed.
Theorem forwarded_iff : forall pq draw p client t req u limit hs, routes_wf p -> ip_wf client ->
  fst (call pq draw p client t req u limit) = R_forward hs <->
  exists l, chosen pq draw req u p l (inl hs) /\ authorized l client t /\ limit = true.
Proof.
  intros pq draw p client t req u limit hs Hp Hc. pose proof (verdict_call pq draw p client t req u limit Hp Hc) as V. split.
  - intros E. destruct V; cbn [fst] in E; try discriminate.
    + subst. exfalso. clear -H. inversion H as [p' routes h m rp r Ep F X|routes h m rp r F X]; subst; clear -X.
      * remember (inr (R_forward hs)) as r eqn:R. induction X; subst; auto; discriminate.
      * remember (inr (R_forward hs)) as r eqn:R. induction X; subst; auto; discriminate.
    + injection E as <-. eauto.
  - intros (l & H1 & H2 & H3). pose proof (v_forward pq draw p client t req u limit l hs H1 H2 H3) as V'.
    rewrite (verdict_fun _ _ _ _ _ _ _ _ _ _ V V'). reflexivity.
Qed.

(** ** Accepting a connection *)
Theorem accept_panics : forall p0 p1 p2 p3 t d, accept p0 p1 p2 p3 t d = To_panic <->
  ~ is_opaque p0 /\ ~ is_tls p1 /\ (is_opaque p2 \/ is_tls p2).
Proof.
  intros p0 p1 p2 p3 t d. unfold is_opaque, is_tls.
  assert (D : forall d p t, after_detection d p t <> To_panic) by (intros [] []; discriminate).
  assert (NO : forall p : protocol, (exists l, p = Opaque l) \/ ~ exists l, p = Opaque l) by (intros []; [right; intros (l & H); discriminate..|eauto]).
  assert (NT : forall p : protocol, (exists l, p = Tls l) \/ ~ exists l, p = Tls l) by (intros []; [..|right; intros (l & H); discriminate]; eauto; right; intros (l & H); discriminate).
  split.
  - destruct (NO p0) as [(l & ->)|N0]; [discriminate|]. intros H. split; [exact N0|].
    destruct (NT p1) as [(l & ->)|N1]; [destruct p0; discriminate|]. split; [exact N1|].
    assert (H' : http_switch p2 p3 t d = To_panic).
    { destruct p0; cbn in H; try (destruct p1; try exact H; exfalso; eauto); exfalso; eauto. }
    destruct p2; cbn in H'; try discriminate; eauto.
    + destruct (D _ _ _ H').
    + destruct (tls_is_some t); [destruct (D _ _ _ H')|discriminate].
  - intros (N0 & N1 & H). assert (H' : http_switch p2 p3 t d = To_panic) by (destruct H as [(l & ->)|(l & ->)]; reflexivity).
    destruct p0; cbn; try (destruct p1; try exact H'; exfalso; eauto); exfalso; eauto.
Qed.
Theorem accept_steady : forall p t d, goes p t d (accept p p p p t d).
Proof.
  intros [] t d; cbn; try constructor.
  - destruct d; cbn; constructor.
  - destruct t; cbn; try constructor; destruct d; cbn; repeat constructor; discriminate.
Qed.
