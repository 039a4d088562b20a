(** Proofs about the backends of policies and about the routers that are built of them (properties C97, C98). *)
From Coq Require Import String List NArith ZArith Bool Lia.
From Verif Require Import Bytes BytesProofs NameModel RouteModel RouteSpec RouteProofs RouteMatchProofs.
From Verif Require Import EndpointModel ClientPolicyModel ClientPolicySpec ClientPolicyProofs ClientPolicyMatchProofs.
From Verif Require DistributeModel TlsRouteModel.
Import ListNotations.
Open Scope N_scope.

(** ** Equality *)
Definition decides {A} (f : A -> A -> bool) : Prop := forall x y, f x y = true <-> x = y.
Lemma opt_eq_iff {A} (f : A -> A -> bool) : decides f -> decides (opt_eq f).
Proof.
  intros H [x|] [y|]; cbn [opt_eq]; split; intros K; try discriminate; try reflexivity.
  - apply H in K. congruence.
  - apply H. congruence.
Qed.
Lemma list_eq_iff {A} (f : A -> A -> bool) : decides f -> decides (list_eq f).
Proof.
  intros H a. induction a as [|x a J]; intros [|y b]; cbn [list_eq]; split; intros K; try discriminate; try reflexivity.
  - apply andb_true_iff in K as [K1 K2]. apply H in K1. apply J in K2. congruence.
  - apply andb_true_iff. injection K as -> ->. split; [apply H|apply J]; reflexivity.
Qed.
Lemma pair_eq_iff {A B} (f : A -> A -> bool) (g : B -> B -> bool) : decides f -> decides g -> decides (pair_eq f g).
Proof.
  intros H K [a b] [c d]. unfold pair_eq. cbn [fst snd]. rewrite andb_true_iff, (H a c), (K b d).
  split; [intros [-> ->]; reflexivity|]. intros E. injection E as -> ->. auto.
Qed.
Lemma beq_iff : decides beq.
Proof. intros x y. apply beq_eq. Qed.
Lemma neqb_iff : decides N.eqb.
Proof. intros x y. apply N.eqb_eq. Qed.
Lemma booleqb_iff : decides Bool.eqb.
Proof. intros x y. apply eqb_true_iff. Qed.
Lemma sock_eq_iff : decides sock_eq.
Proof.
  intros [i p] [j q]. unfold sock_eq. cbn [s_ip s_port]. rewrite andb_true_iff, (list_eq_iff _ neqb_iff i j), (neqb_iff p q).
  split; [intros [-> ->]; reflexivity|]. intros E. injection E as -> ->. auto.
Qed.
Lemma id_eq_iff : decides id_eq.
Proof.
  intros [x|x] [y|y]; cbn [id_eq]; try rewrite (beq_iff x y); split; intros K; try discriminate; congruence.
Qed.
Lemma client_tls_eq_iff : decides client_tls_eq.
Proof.
  intros [i n a] [j m b]. unfold client_tls_eq. cbn [t_id t_name t_alpn].
  rewrite !andb_true_iff, (id_eq_iff i j), (beq_iff n m), (opt_eq_iff _ (list_eq_iff _ beq_iff) a b).
  split; [intros [[-> ->] ->]; reflexivity|]. intros E. injection E as -> -> ->. auto.
Qed.
Lemma hint_eq_iff : decides hint_eq.
Proof. intros [] []; cbn; split; congruence. Qed.
Lemma flow_eq_iff : decides flow_eq.
Proof.
  intros [|a b] [|c d]; cbn [flow_eq]; split; intros K; try discriminate; try reflexivity.
  - apply andb_true_iff in K as [K1 K2]. apply N.eqb_eq in K1, K2. congruence.
  - injection K as -> ->. rewrite !N.eqb_refl. reflexivity.
Qed.
Lemma keep_alive_eq_iff : decides keep_alive_eq.
Proof.
  intros [i t w] [j u x]. unfold keep_alive_eq. cbn [k_interval k_timeout k_while_idle].
  rewrite !andb_true_iff, (neqb_iff i j), (neqb_iff t u), (booleqb_iff w x).
  split; [intros [[-> ->] ->]; reflexivity|]. intros E. injection E as -> -> ->. auto.
Qed.
Lemma h2_eq_iff : decides h2_eq.
Proof.
  intros [a b c d e] [a' b' c' d' e']. unfold h2_eq. cbn [h_flow h_keep_alive h_reset_streams h_frame_size h_send_buf_size].
  rewrite !andb_true_iff, (opt_eq_iff _ flow_eq_iff a a'), (opt_eq_iff _ keep_alive_eq_iff b b'), (opt_eq_iff _ neqb_iff c c'),
    (opt_eq_iff _ neqb_iff d d'), (opt_eq_iff _ neqb_iff e e').
  split; [intros [[[[-> ->] ->] ->] ->]; reflexivity|]. intros E. injection E as -> -> -> -> ->. auto.
Qed.
Lemma metadata_eq_iff : decides metadata_eq.
Proof.
  intros [a b c d e f g h] [a' b' c' d' e' f' g' h']. unfold metadata_eq.
  cbn [m_labels m_weight m_hint m_port m_tls m_authority m_http2 m_zone_local].
  rewrite !andb_true_iff, (list_eq_iff _ (pair_eq_iff _ _ beq_iff beq_iff) a a'), (neqb_iff b b'), (hint_eq_iff c c'),
    (opt_eq_iff _ neqb_iff d d'), (opt_eq_iff _ client_tls_eq_iff e e'), (opt_eq_iff _ beq_iff f f'), (h2_eq_iff g g'),
    (opt_eq_iff _ booleqb_iff h h').
  split; [intros [[[[[[[-> ->] ->] ->] ->] ->] ->] ->]; reflexivity|]. intros E. injection E as -> -> -> -> -> -> -> ->. tauto.
Qed.
Lemma load_eq_iff : decides load_eq.
Proof.
  intros [a b|a b c d e] [a' b'|a' b' c' d' e']; cbn [load_eq]; try (split; intros K; discriminate);
    rewrite !andb_true_iff, !N.eqb_eq; split.
  - intros [-> ->]. reflexivity.
  - intros E. injection E as -> ->. auto.
  - intros [[[[-> ->] ->] ->] ->]. reflexivity.
  - intros E. injection E as -> -> -> -> ->. auto.
Qed.
Lemma dispatcher_eq_iff : decides dispatcher_eq.
Proof.
  intros [a m|l p|x] [a' m'|l' p'|x']; cbn [dispatcher_eq]; try (split; intros K; discriminate).
  - rewrite andb_true_iff, (sock_eq_iff a a'), (metadata_eq_iff m m'). split; [intros [-> ->]; reflexivity|]. intros E. injection E as -> ->. auto.
  - rewrite andb_true_iff, (load_eq_iff l l'), (beq_iff p p'). split; [intros [-> ->]; reflexivity|]. intros E. injection E as -> ->. auto.
  - rewrite (beq_iff x x'). split; congruence.
Qed.
Lemma meta_eq_iff a b : meta_eq a b = true <-> group a = group b /\ kind a = kind b /\ name a = name b.
Proof. unfold meta_eq. rewrite !andb_true_iff, !beq_eq. tauto. Qed.
Lemma backend_eq_iff a b : backend_eq a b = true <-> same_backend a b.
Proof.
  unfold backend_eq, same_backend. rewrite !andb_true_iff, meta_eq_iff, (dispatcher_eq_iff (b_dispatcher a) (b_dispatcher b)), !N.eqb_eq.
  destruct (b_queue a) as [c f], (b_queue b) as [c' f']. cbn [q_capacity q_failfast].
  assert (c = c' /\ f = f' <-> Queue c f = Queue c' f') by (split; [intros [-> ->]; reflexivity|intros E; injection E; auto]). tauto.
Qed.
Lemma name_addr_eq_iff : decides name_addr_eq.
Proof.
  intros [n p] [m q]. unfold name_addr_eq. cbn [na_name na_port]. rewrite andb_true_iff, (beq_iff n m), (neqb_iff p q).
  split; [intros [-> ->]; reflexivity|]. intros E. injection E as -> ->. auto.
Qed.
Lemma dispatch_eq_iff : decides dispatch_eq.
Proof.
  intros [a l|a m|x] [a' l'|a' m'|x']; cbn [dispatch_eq]; try (split; intros K; discriminate).
  - rewrite andb_true_iff, (name_addr_eq_iff a a'), (load_eq_iff l l'). split; [intros [-> ->]; reflexivity|]. intros E. injection E as -> ->. auto.
  - rewrite andb_true_iff, (sock_eq_iff a a'), (metadata_eq_iff m m'). split; [intros [-> ->]; reflexivity|]. intros E. injection E as -> ->. auto.
  - rewrite (beq_iff x x'). split; congruence.
Qed.
Lemma concrete_eq_iff a b : concrete_eq a b = true <-> same_target a b.
Proof.
  unfold concrete_eq, same_target. rewrite !andb_true_iff, (dispatch_eq_iff (c_target a) (c_target b)),
    (opt_eq_iff _ beq_iff (c_authority a) (c_authority b)), meta_eq_iff. tauto.
Qed.
Lemma cached_iff l c : cached l c = true <-> exists c', In c' l /\ same_target c c'.
Proof.
  unfold cached. rewrite existsb_exists. split; intros (x & X & Y); exists x; (split; [exact X|]); apply concrete_eq_iff; exact Y.
Qed.
Lemma same_refl b : same_backend b b.
Proof. repeat split; reflexivity. Qed.
Lemma same_sym a b : same_backend a b -> same_backend b a.
Proof. unfold same_backend. intuition congruence. Qed.
Lemma same_trans a b c : same_backend a b -> same_backend b c -> same_backend a c.
Proof. unfold same_backend. intuition congruence. Qed.

(** ** The set of backends *)
Definition http_backends {M F P} (rts : list (route M (route_policy F P))) : list backend :=
  flat_map (fun rt => flat_map (fun ru => distribution_backends (rp_distribution (ru_policy ru))) (rt_rules rt)) rts.
Definition opaq_backends (o : option opaq_policy) : list backend :=
  match o with Some p => distribution_backends (rp_distribution p) | None => [] end.
Definition protocol_backends (p : protocol) : list backend :=
  match p with
  | Detect _ h1 h2 o => http_backends (rs_routes h1) ++ http_backends (rs_routes h2) ++ opaq_backends o
  | Http1 h | Http2 h => http_backends (rs_routes h)
  | Grpc g => http_backends (rs_routes g)
  | Opaq o => opaq_backends o
  | Tls t => flat_map (fun rt => distribution_backends (rp_distribution (TlsRouteModel.tr_policy rt))) t
  end.
Lemma fill_http {M F P} (rts : list (route M (route_policy F P))) set :
  fill_route_backends rts set = fold_left insert (http_backends rts) set.
Proof.
  unfold fill_route_backends, http_backends. revert set. induction rts as [|rt rts J]; intros set; [reflexivity|].
  cbn [fold_left flat_map]. rewrite J, fold_left_app. f_equal. clear. generalize (rt_rules rt) as rules. intros rules. revert set.
  induction rules as [|ru rules J]; intros set; [reflexivity|]. cbn [fold_left flat_map]. rewrite J, fold_left_app. reflexivity.
Qed.
Lemma fill_all p : fill_protocol p = fold_left insert (protocol_backends p) [].
Proof.
  destruct p as [t h1 h2 o|h|h|g|o|t]; cbn [fill_protocol protocol_backends].
  - rewrite !fill_http, !fold_left_app. destruct o; reflexivity.
  - apply fill_http.
  - apply fill_http.
  - apply fill_http.
  - destruct o; reflexivity.
  - generalize (@nil backend) as set. induction t as [|rt t J]; intros set; [reflexivity|]. cbn [fold_left flat_map]. rewrite J, fold_left_app. reflexivity.
Qed.
Lemma in_distribution_iff {F} b (d : distribution F) : In b (distribution_backends d) <-> in_distribution b d.
Proof.
  destruct d as [|l|l]; cbn [distribution_backends in_distribution].
  - tauto.
  - rewrite in_map_iff. split; intros (x & A & B); exists x; auto.
  - rewrite in_map_iff. split; [intros ([x w] & A & B); exists x, w; auto|]. intros (x & w & A & B). exists (x, w). auto.
Qed.
Lemma in_http_iff {M F P} b (rts : list (route M (route_policy F P))) : In b (http_backends rts) <-> in_http_routes b rts.
Proof.
  unfold http_backends, in_http_routes, in_policy. rewrite in_flat_map. split.
  - intros (rt & A & B). apply in_flat_map in B as (ru & B & C). exists rt, ru. rewrite <- in_distribution_iff. auto.
  - intros (rt & ru & A & B & C). exists rt. split; [exact A|]. apply in_flat_map. exists ru. split; [exact B|]. apply in_distribution_iff. exact C.
Qed.
Lemma in_opaq_iff b o : In b (opaq_backends o) <-> in_opaq b o.
Proof.
  unfold in_opaq, in_policy. destruct o as [p|]; cbn [opaq_backends].
  - rewrite in_distribution_iff. split; [intros H; exists p; auto|]. intros (q & E & H). injection E as <-. exact H.
  - split; [intros []|]. intros (q & E & _). discriminate.
Qed.
Lemma in_protocol_iff b p : In b (protocol_backends p) <-> in_protocol b p.
Proof.
  destruct p as [t h1 h2 o|h|h|g|o|t]; cbn [protocol_backends in_protocol].
  - rewrite !in_app_iff, !in_http_iff, in_opaq_iff. tauto.
  - apply in_http_iff.
  - apply in_http_iff.
  - apply in_http_iff.
  - apply in_opaq_iff.
  - unfold in_policy. rewrite in_flat_map. split; intros (rt & A & B); exists rt; (split; [exact A|]); apply in_distribution_iff; exact B.
Qed.
Definition distinct (l : list backend) : Prop := forall a x b y c, l = a ++ x :: b ++ y :: c -> ~ same_backend x y.
Lemma insert_in l b x : In x (insert l b) -> In x l \/ x = b.
Proof.
  unfold insert. destruct (existsb (backend_eq b) l); [auto|]. rewrite in_app_iff. cbn. intuition.
Qed.
Lemma insert_keeps l b x : In x l -> In x (insert l b).
Proof. unfold insert. destruct (existsb (backend_eq b) l); [auto|]. rewrite in_app_iff. auto. Qed.
Lemma insert_has l b : exists x, In x (insert l b) /\ same_backend b x.
Proof.
  unfold insert. destruct (existsb (backend_eq b) l) eqn:E.
  - apply existsb_exists in E as (x & X & Y). exists x. split; [exact X|]. apply backend_eq_iff. exact Y.
  - exists b. split; [apply in_app_iff; right; left; reflexivity|apply same_refl].
Qed.
Lemma insert_distinct l b : distinct l -> distinct (insert l b).
Proof.
  unfold insert. destruct (existsb (backend_eq b) l) eqn:E; [auto|]. intros D a x m y c Q S.
  assert (N0 : forall z, In z l -> ~ same_backend b z).
  { intros z Z K. apply backend_eq_iff in K. assert (existsb (backend_eq b) l = true) by (apply existsb_exists; exists z; auto). congruence. }
  destruct c as [|c0 c'] eqn:EC using rev_ind.
  - assert (Q' : l ++ [b] = (a ++ x :: m) ++ [y]) by (rewrite Q, <- app_assoc; reflexivity).
    apply app_inj_tail in Q' as [-> <-]. apply (N0 x); [apply in_app_iff; right; left; reflexivity|]. apply same_sym. exact S.
  - assert (Q' : l ++ [b] = (a ++ x :: m ++ y :: c') ++ [c0]) by (rewrite Q, <- !app_assoc; cbn; rewrite <- app_assoc; reflexivity).
    apply app_inj_tail in Q' as [-> _]. exact (D a x m y c' eq_refl S).
Qed.
Lemma filled l : forall set, distinct set ->
  let r := fold_left insert l set in
  (forall x, In x r -> In x set \/ In x l) /\ (forall x, In x set -> In x r) /\
  (forall b, In b l -> exists x, In x r /\ same_backend b x) /\ distinct r.
Proof.
  induction l as [|b l J]; intros set D; cbn [fold_left]; cbv zeta.
  - repeat split; auto. intros b [].
  - destruct (J _ (insert_distinct set b D)) as (A & B & C & E). cbv zeta in *. split; [|split; [|split]].
    + intros x X. destruct (A x X) as [Y|Y]; [|right; right; exact Y]. destruct (insert_in _ _ _ Y) as [Z| ->]; [left; exact Z|right; left; reflexivity].
    + intros x X. apply B. apply insert_keeps. exact X.
    + intros c [<-|K]; [|exact (C c K)]. destruct (insert_has set b) as (x & X & Y). exists x. split; [apply B; exact X|exact Y].
    + exact E.
Qed.
Lemma distinct_nil : distinct [].
Proof. intros a x b y c E. destruct a; discriminate. Qed.
(** C97 *)
Theorem backends_of_routes p :
  (forall b, In b (fill_protocol p) -> in_protocol b p) /\
  (forall b, in_protocol b p -> exists b', In b' (fill_protocol p) /\ same_backend b b') /\
  (forall l a m b n, fill_protocol p = l ++ a :: m ++ b :: n -> ~ same_backend a b).
Proof.
  rewrite fill_all. destruct (filled (protocol_backends p) [] distinct_nil) as (A & B & C & D). cbv zeta in *. split; [|split].
  - intros b H. destruct (A b H) as [[]|K]. apply in_protocol_iff. exact K.
  - intros b H. apply C. apply in_protocol_iff. exact H.
  - exact D.
Qed.
Lemma from_backends L export pb cp : try_from L export pb = Some cp -> cp_backends cp = fill_protocol (cp_protocol cp).
Proof.
  unfold try_from. intros H. apply bind_iff in H as (m & _ & H). apply bind_iff in H as (k & _ & H). apply bind_iff in H as (k' & _ & H).
  apply bind_iff in H as (p & _ & H). injection H as <-. reflexivity.
Qed.
Theorem policy_backends L export pb cp : try_from L export pb = Some cp ->
  (forall b, In b (cp_backends cp) -> in_protocol b (cp_protocol cp)) /\
  (forall b, in_protocol b (cp_protocol cp) -> exists b', In b' (cp_backends cp) /\ same_backend b b') /\
  (forall l a m b n, cp_backends cp = l ++ a :: m ++ b :: n -> ~ same_backend a b).
Proof. intros H. rewrite (from_backends _ _ _ _ H). apply backends_of_routes. Qed.

(** ** Targets *)
Lemma mk_dispatch_some tcp b c : mk_dispatch tcp b = Some c -> dispatched tcp b c.
Proof.
  unfold mk_dispatch, dispatched. destruct (b_dispatcher b) as [a md|l path|m].
  - intros H. apply bind_iff in H as (p & A & H). apply non_zero_iff in A as [_ A]. injection H as <-. cbn. auto.
  - destruct (name_addr_from_str path) as [a|e]; [|discriminate]. intros H. injection H as <-. cbn [c_backend_ref c_authority c_target].
    exists a. split; [reflexivity|]. split; [reflexivity|]. destruct tcp; [|auto]. split; [reflexivity|].
    destruct l as [d r|d r p q m]; cbn [peak_ewma_rtt]; exists d, r; (split; [reflexivity|]); [left; reflexivity|right; exists p, q, m; reflexivity].
  - intros H. injection H as <-. cbn. auto.
Qed.
Lemma mk_dispatch_usable tcp b : usable b <-> exists c, mk_dispatch tcp b = Some c.
Proof.
  unfold mk_dispatch, usable. destruct (b_dispatcher b) as [a md|l path|m].
  - unfold non_zero. destruct (s_port a =? 0) eqn:E; [apply N.eqb_eq in E|apply N.eqb_neq in E].
    + split; [congruence|]. intros [c K]. discriminate.
    + split; [intros _; eexists; reflexivity|auto].
  - destruct (name_addr_from_str path) as [a|e]; split.
    + intros _. eexists. reflexivity.
    + intros _. exists a. reflexivity.
    + intros [a K]. discriminate.
    + intros [c K]. discriminate.
  - split; [intros _; eexists; reflexivity|auto].
Qed.
Lemma mk_dispatch_same tcp a b ca cb : same_backend a b -> mk_dispatch tcp a = Some ca -> mk_dispatch tcp b = Some cb -> same_target ca cb.
Proof.
  intros (G & Kd & Nm & _ & D) A B. unfold mk_dispatch in A, B. rewrite <- D in B. destruct (b_dispatcher a) as [ad md|l path|m].
  - rewrite A in B. injection B as <-. repeat split; reflexivity.
  - destruct (name_addr_from_str path); [|discriminate]. injection A as <-. injection B as <-. unfold same_target. cbn. auto.
  - rewrite A in B. injection B as <-. repeat split; reflexivity.
Qed.
Lemma usable_same a b : same_backend a b -> usable a -> usable b.
Proof. intros (_ & _ & _ & _ & D). unfold usable. rewrite D. auto. Qed.
Lemma forall2_of_collect {A B} (f : A -> option B) l l' : collect f l = Some l' -> Forall2 (fun x y => f x = Some y) l l'.
Proof. apply (collect_says f _ (fun x y => iff_refl _)). Qed.
Lemma collect_none {A B} (f : A -> option B) l : collect f l <> None <-> forall x, In x l -> f x <> None.
Proof.
  induction l as [|x l J]; cbn [collect].
  - split; [intros _ x []|discriminate].
  - destruct (f x) as [y|] eqn:E.
    + destruct (collect f l) as [ys|] eqn:C.
      * split; [|discriminate]. intros _ z [<-|K]; [congruence|]. apply J; [discriminate|exact K].
      * split; [congruence|]. intros H. elim (proj2 J); [|reflexivity]. intros z K. apply H. right. exact K.
    + split; [congruence|]. intros H. elim (H x); [left; reflexivity|exact E].
Qed.
Lemma forall2_impl2 {A B} (R S : A -> B -> Prop) l l' : (forall x y, R x y -> S x y) -> Forall2 R l l' -> Forall2 S l l'.
Proof. intros H. induction 1; constructor; auto. Qed.

Section Policy.
Context {F P : Type}.
Lemma mk_route_backend_some tcp (rb : route_backend F) k : mk_route_backend tcp rb = Some k ->
  fst k = rb_filters rb /\ mk_dispatch tcp (rb_backend rb) = Some (snd k).
Proof. intros H. apply bind_iff in H as (c & A & H). injection H as <-. auto. Qed.
Lemma mk_distribution_some tcp (d : distribution F) d' : mk_distribution tcp d = Some d' -> distributed tcp d d'.
Proof.
  destruct d as [|l|l]; cbn [mk_distribution distributed].
  - injection 1 as <-. reflexivity.
  - intros H. apply bind_iff in H as (l' & A & H). injection H as <-. apply forall2_of_collect in A. destruct A as [|x y l l' X A]; [reflexivity|].
    exists (y :: l'). split; [reflexivity|]. apply (forall2_impl2 (fun x y => mk_route_backend tcp x = Some y)); [|constructor; assumption].
    intros u v K. apply mk_route_backend_some in K as [K1 K2]. split; [exact K1|]. apply mk_dispatch_some. exact K2.
  - intros H. apply bind_iff in H as (l' & A & H). apply forall2_of_collect in A. exists l'. split.
    + apply (forall2_impl2 (fun (x : route_backend F * N) y => (k <- mk_route_backend tcp (fst x) ;; Some (k, snd x)) = Some y)); [|exact A].
      intros u v K. apply bind_iff in K as (k & K1 & K2). injection K2 as <-. cbn [fst snd]. split; [reflexivity|].
      apply mk_route_backend_some in K1 as [K3 K4]. split; [exact K3|]. apply mk_dispatch_some. exact K4.
    + assert (E := forall2_len _ _ _ A). unfold DistributeModel.random_route, DistributeModel.random_available in H. rewrite <- E in H.
      destruct (Nat.ltb_spec (List.length l) 2).
      * left. split; [assumption|]. injection H as <-. reflexivity.
      * right. split; [assumption|]. destruct (DistributeModel.weighted_index (map snd l')); [|discriminate]. injection H as <-. reflexivity.
Qed.
Lemma mk_policy_some tcp (p : route_policy F P) t : mk_policy tcp p = Some t -> becomes tcp p t.
Proof.
  intros H. apply bind_iff in H as (d & A & H). injection H as <-. repeat split. apply mk_distribution_some. exact A.
Qed.
Lemma sum_zero : forall l : list N, DistributeModel.sum l = 0 <-> forall w, In w l -> w = 0.
Proof.
  unfold DistributeModel.sum. induction l as [|x l J]; cbn [fold_right].
  - split; [intros _ w []|reflexivity].
  - split.
    + intros H w [<-|K]; [lia|]. apply J; [lia|exact K].
    + intros H. rewrite (H x (or_introl eq_refl)). rewrite (proj2 J); [reflexivity|]. intros w K. apply H. right. exact K.
Qed.
Lemma weighted_ok (l : list N) : (2 <= List.length l)%nat ->
  ((exists ws, DistributeModel.weighted_index l = inl ws) <-> (exists w, In w l /\ w <> 0) /\ DistributeModel.sum l < 4294967296).
Proof.
  intros LEN. unfold DistributeModel.weighted_index. destruct l as [|x l]; [cbn in LEN; lia|]. set (k := x :: l) in *.
  change DistributeModel.u32_max with 4294967295.
  destruct (N.ltb_spec 4294967295 (DistributeModel.sum k)).
  - split; [intros [ws K]; discriminate|lia].
  - destruct (N.eqb_spec (DistributeModel.sum k) 0) as [Z|Z].
    + split; [intros [ws K]; discriminate|]. intros [(w & W & Q) _]. elim Q. exact (proj1 (sum_zero k) Z w W).
    + split; [|intros _; eexists; reflexivity]. intros _. split; [|lia].
      destruct (existsb (fun w => negb (w =? 0)) k) eqn:E.
      * apply existsb_exists in E as (w & W & Q). exists w. split; [exact W|]. apply negb_true_iff, N.eqb_neq in Q. exact Q.
      * elim Z. apply sum_zero. intros w W. destruct (N.eq_dec w 0) as [|Q]; [assumption|].
        assert (existsb (fun w => negb (w =? 0)) k = true) by (apply existsb_exists; exists w; split; [exact W|]; apply negb_true_iff, N.eqb_neq; exact Q). congruence.
Qed.
Lemma mk_route_backend_none tcp (rb : route_backend F) : mk_route_backend tcp rb <> None <-> usable (rb_backend rb).
Proof.
  unfold mk_route_backend. rewrite (mk_dispatch_usable tcp). destruct (mk_dispatch tcp (rb_backend rb)) as [c|].
  - split; [intros _; eexists; reflexivity|discriminate].
  - split; [congruence|]. intros [c K]. discriminate.
Qed.
Lemma mk_distribution_none tcp (d : distribution F) :
  mk_distribution tcp d <> None <-> weights_valid d /\ forall b, in_distribution b d -> usable b.
Proof.
  destruct d as [|l|l]; cbn [mk_distribution weights_valid in_distribution].
  - split; [|discriminate]. intros _. split; [exact I|intros b []].
  - transitivity (forall x, In x l -> mk_route_backend tcp x <> None).
    + rewrite <- (collect_none (mk_route_backend tcp) l). destruct (collect (mk_route_backend tcp) l); [split; discriminate|tauto].
    + split.
      * intros H. split; [exact I|]. intros b (rb & A & <-). apply (mk_route_backend_none tcp). apply H. exact A.
      * intros [_ H] x X. apply mk_route_backend_none. apply H. exists x. auto.
  - set (f := fun wb : route_backend F * N => k <- mk_route_backend tcp (fst wb) ;; Some (k, snd wb)).
    assert (X : collect f l <> None <-> forall b, (exists rb w, In (rb, w) l /\ rb_backend rb = b) -> usable b).
    { rewrite collect_none. split.
      - intros H b (rb & w & A & <-). apply (mk_route_backend_none tcp). specialize (H _ A). unfold f in H. cbn [fst snd] in H.
        destruct (mk_route_backend tcp rb); [discriminate|congruence].
      - intros H [rb w] A. unfold f. cbn [fst snd]. assert (U : usable (rb_backend rb)) by (apply H; exists rb, w; auto).
        apply (mk_route_backend_none tcp) in U. destruct (mk_route_backend tcp rb); [discriminate|congruence]. }
    destruct (collect f l) as [l'|] eqn:E.
    2: { split; [congruence|]. intros [_ H]. elim (proj2 X H). reflexivity. }
    assert (U := proj1 X ltac:(discriminate)). apply forall2_of_collect in E. assert (LEN := forall2_len _ _ _ E).
    assert (W : map snd l' = map snd l).
    { clear - E. induction E as [|x y l l' H _ J]; [reflexivity|]. cbn [map]. rewrite J. f_equal. unfold f in H. apply bind_iff in H as (k & _ & K). injection K as <-. reflexivity. }
    unfold DistributeModel.random_route, DistributeModel.random_available. rewrite <- LEN, W.
    destruct (Nat.ltb_spec (List.length l) 2).
    + split; [|discriminate]. intros _. split; [left; assumption|exact U].
    + assert (V := weighted_ok (map snd l)). rewrite map_length in V. specialize (V ltac:(assumption)).
      assert (V' : (exists rb w, In (rb, w) l /\ w <> 0) <-> (exists w, In w (map snd l) /\ w <> 0)).
      { split.
        - intros (rb & w & A & B). exists w. split; [apply in_map_iff; exists (rb, w); auto|exact B].
        - intros (w & A & B). apply in_map_iff in A as ([rb w'] & <- & A). exists rb, w'. auto. }
      rewrite V'. destruct (DistributeModel.weighted_index (map snd l)) as [ws|e].
      * split; [|discriminate]. intros _. split; [right; apply V; eexists; reflexivity|exact U].
      * split; [congruence|]. intros [[K|K] _]; [lia|]. apply V in K as [ws K]. discriminate.
Qed.
Lemma mk_policy_none tcp (p : route_policy F P) : mk_policy tcp p <> None <-> policy_usable p.
Proof.
  unfold policy_usable, in_policy. rewrite <- (mk_distribution_none tcp). unfold mk_policy.
  destruct (mk_distribution tcp (rp_distribution p)); [split; discriminate|split; congruence].
Qed.
(** Targets and backends *)
Lemma target_of tcp (p : route_policy F P) t c : mk_policy tcp p = Some t -> distributes_to c (ta_distribution t) ->
  exists b, in_policy b p /\ mk_dispatch tcp b = Some c.
Proof.
  intros H K. apply bind_iff in H as (d & A & H). injection H as <-. cbn [ta_distribution] in K. unfold in_policy.
  destruct (rp_distribution p) as [|l|l]; cbn [mk_distribution in_distribution] in *.
  - injection A as <-. destruct K.
  - apply bind_iff in A as (l' & A & B). injection B as <-. apply forall2_of_collect in A.
    assert (K' : exists fs, In (fs, c) l') by (destruct l'; [destruct K|exact K]). destruct K' as (fs & K').
    destruct (forall2_in_r _ _ _ _ A K') as (rb & X & Y). apply mk_route_backend_some in Y as [_ Y]. exists (rb_backend rb). split; [exists rb; auto|exact Y].
  - apply bind_iff in A as (l' & A & B). apply forall2_of_collect in A.
    assert (K' : exists fs w, In ((fs, c), w) l').
    { unfold DistributeModel.random_route, DistributeModel.random_available in B. destruct (List.length l' <? 2)%nat.
      - injection B as <-. destruct K as (fs & K). apply in_map_iff in K as ([[fs' c'] w] & E & K). cbn in E. injection E as <- <-. exists fs', w. exact K.
      - destruct (DistributeModel.weighted_index (map snd l')); [|discriminate]. injection B as <-. exact K. }
    destruct K' as (fs & w & K'). destruct (forall2_in_r _ _ _ _ A K') as ([rb w'] & X & Y). cbn [fst snd] in Y.
    apply bind_iff in Y as (k & Y & Z). injection Z as -> ->. apply mk_route_backend_some in Y as [_ Y]. exists (rb_backend rb). split; [exists rb, w; auto|exact Y].
Qed.
End Policy.

Lemma targets_cached tcp bs cs b c : collect (mk_dispatch tcp) bs = Some cs ->
  (exists b', In b' bs /\ same_backend b b') -> mk_dispatch tcp b = Some c -> cached cs c = true.
Proof.
  intros H (b' & I1 & S) D. apply forall2_of_collect in H. destruct (forall2_in_l _ _ _ _ H I1) as (c' & C & K).
  apply cached_iff. exists c'. split; [exact C|]. exact (mk_dispatch_same _ _ _ _ _ S D K).
Qed.

Section Routers.
Variable bs : list backend.
Lemma http_router_targets {M F P} (rts : list (route M (route_policy F P))) ro c :
  (forall b, in_http_routes b rts -> exists b', In b' bs /\ same_backend b b') ->
  mk_http_router rts bs = Some ro -> http_target c ro -> cached (ro_backends ro) c = true.
Proof.
  intros U H (rt & ru & A & B & C). unfold mk_http_router in H. apply bind_iff in H as (rts' & R & H). apply bind_iff in H as (cs & D & H). injection H as <-.
  cbn [ro_routes ro_backends] in *. apply forall2_of_collect in R. destruct (forall2_in_r _ _ _ _ R A) as (rt0 & A0 & K).
  apply bind_iff in K as (rules & K & E). injection E as <-. cbn [rt_rules] in B. apply forall2_of_collect in K. destruct (forall2_in_r _ _ _ _ K B) as (ru0 & B0 & K0).
  apply bind_iff in K0 as (t & K0 & E). injection E as <-. cbn [ru_policy] in C. destruct (target_of _ _ _ _ K0 C) as (b & X & Y).
  apply (targets_cached false bs cs b c D); [|exact Y]. apply U. exists rt0, ru0. auto.
Qed.
Lemma opaq_router_targets o ro c :
  (forall b, in_opaq b o -> exists b', In b' bs /\ same_backend b b') ->
  mk_opaq_router o bs = Some ro -> opaq_target c ro -> cached (ro_backends ro) c = true.
Proof.
  intros U H (t & A & C). unfold mk_opaq_router in H. apply bind_iff in H as (rt & R & H). apply bind_iff in H as (cs & D & H). injection H as <-.
  cbn [ro_routes ro_backends] in *. subst rt. destruct o as [p|]; [|discriminate]. cbn [transpose] in R. apply bind_iff in R as (t' & R & E). injection E as <-.
  destruct (target_of _ _ _ _ R C) as (b & X & Y). apply (targets_cached true bs cs b c D); [|exact Y]. apply U. exists p. auto.
Qed.
Lemma tls_router_targets (rts : list (TlsRouteModel.tls_route tls_policy)) ro c :
  (forall b, (exists rt, In rt rts /\ in_policy b (TlsRouteModel.tr_policy rt)) -> exists b', In b' bs /\ same_backend b b') ->
  mk_tls_router rts bs = Some ro -> tls_target c ro -> cached (ro_backends ro) c = true.
Proof.
  intros U H (rt & A & C). unfold mk_tls_router in H. apply bind_iff in H as (rts' & R & H). apply bind_iff in H as (cs & D & H). injection H as <-.
  cbn [ro_routes ro_backends] in *. apply forall2_of_collect in R. destruct (forall2_in_r _ _ _ _ R A) as (rt0 & A0 & K).
  apply bind_iff in K as (t & K & E). injection E as <-. cbn [TlsRouteModel.tr_policy] in C. destruct (target_of _ _ _ _ K C) as (b & X & Y).
  apply (targets_cached true bs cs b c D); [|exact Y]. apply U. exists rt0. auto.
Qed.
Lemma collect_dispatch_none tcp : collect (mk_dispatch tcp) bs <> None <-> forall b, In b bs -> usable b.
Proof.
  rewrite collect_none. split; intros H b B.
  - apply (mk_dispatch_usable tcp). specialize (H b B). destruct (mk_dispatch tcp b) as [c|]; [exists c; reflexivity|congruence].
  - specialize (H b B). apply (mk_dispatch_usable tcp) in H as [c H]. congruence.
Qed.
Lemma http_router_none {M F P} (rts : list (route M (route_policy F P))) :
  mk_http_router rts bs <> None <-> all_http rts /\ forall b, In b bs -> usable b.
Proof.
  unfold mk_http_router. set (f := fun rt : route M (route_policy F P) => _).
  assert (X : collect f rts <> None <-> all_http rts).
  { rewrite collect_none. unfold all_http. split.
    - intros H rt ru A B. specialize (H rt A). unfold f in H.
      destruct (collect (fun ru0 => t <- mk_policy false (ru_policy ru0) ;; Some (Rule (ru_matches ru0) t)) (rt_rules rt)) eqn:E; [|congruence].
      assert (E' := proj1 (collect_none _ (rt_rules rt)) ltac:(rewrite E; discriminate) ru B). cbn beta in E'.
      apply (mk_policy_none false). destruct (mk_policy false (ru_policy ru)); [discriminate|congruence].
    - intros H rt A. unfold f. assert (E : collect (fun ru0 => t <- mk_policy false (ru_policy ru0) ;; Some (Rule (ru_matches ru0) t)) (rt_rules rt) <> None).
      { apply collect_none. intros ru B. specialize (H rt ru A B). apply (mk_policy_none false) in H. destruct (mk_policy false (ru_policy ru)); [discriminate|congruence]. }
      destruct (collect _ (rt_rules rt)); [discriminate|congruence]. }
  rewrite <- X, <- (collect_dispatch_none false). destruct (collect f rts); [|split; [congruence|tauto]].
  destruct (collect (mk_dispatch false) bs); [split; [split|]; discriminate|split; [congruence|tauto]].
Qed.
Lemma opaq_router_none o :
  mk_opaq_router o bs <> None <-> (forall p, o = Some p -> policy_usable p) /\ forall b, In b bs -> usable b.
Proof.
  unfold mk_opaq_router. assert (X : transpose (mk_policy true) o <> None <-> forall p, o = Some p -> policy_usable p).
  { destruct o as [p|]; cbn [transpose].
    - split.
      + intros H q E. injection E as <-. apply (mk_policy_none true). destruct (mk_policy true p); [discriminate|congruence].
      + intros H. specialize (H p eq_refl). apply (mk_policy_none true) in H. destruct (mk_policy true p); [discriminate|congruence].
    - split; [intros _ p E; discriminate|discriminate]. }
  rewrite <- X, <- (collect_dispatch_none true). destruct (transpose (mk_policy true) o); [|split; [congruence|tauto]].
  destruct (collect (mk_dispatch true) bs); [split; [split|]; discriminate|split; [congruence|tauto]].
Qed.
Lemma tls_router_none (rts : list (TlsRouteModel.tls_route tls_policy)) :
  mk_tls_router rts bs <> None <-> (forall rt, In rt rts -> policy_usable (TlsRouteModel.tr_policy rt)) /\ forall b, In b bs -> usable b.
Proof.
  unfold mk_tls_router. match goal with |- context [collect ?g rts] => set (f := g) end.
  assert (X : collect f rts <> None <-> forall rt, In rt rts -> policy_usable (TlsRouteModel.tr_policy rt)).
  { rewrite collect_none. split; intros H rt A; specialize (H rt A); unfold f, tls_policy in *.
    - apply (mk_policy_none true). intros Z. apply H. rewrite Z. reflexivity.
    - apply (mk_policy_none true) in H. intros Z. apply H. destruct (mk_policy true (TlsRouteModel.tr_policy rt)) eqn:E; [discriminate|reflexivity]. }
  rewrite <- X, <- (collect_dispatch_none true). destruct (collect f rts); [|split; [congruence|tauto]].
  destruct (collect (mk_dispatch true) bs); [split; [split|]; discriminate|split; [congruence|tauto]].
Qed.
End Routers.

(** C98 *)
Lemma usable_in_protocol p : protocol_usable p -> forall b, in_protocol b p -> usable b.
Proof.
  assert (HH : forall M F P (rts : list (route M (route_policy F P))) b, all_http rts -> in_http_routes b rts -> usable b).
  { intros M F P rts b H (rt & ru & A & B & C). exact (proj2 (H rt ru A B) b C). }
  assert (HO : forall o b, (forall p, o = Some p -> policy_usable p) -> in_opaq b o -> usable b).
  { intros o b H (q & A & B). exact (proj2 (H q A) b B). }
  destruct p as [t h1 h2 o|h|h|g|o|t]; cbn [protocol_usable in_protocol]; intros U b K.
  - destruct U as (U1 & U2 & U3). destruct K as [K|[K|K]]; eauto.
  - eauto.
  - eauto.
  - eauto.
  - eauto.
  - destruct K as (rt & A & B). exact (proj2 (U rt A) b B).
Qed.
Theorem builds_iff L export pb cp : try_from L export pb = Some cp -> (routers_build cp <-> protocol_usable (cp_protocol cp)).
Proof.
  intros H. destruct (policy_backends _ _ _ _ H) as (A & _ & _). unfold routers_build. cbv zeta.
  assert (X : protocol_usable (cp_protocol cp) -> forall b, In b (cp_backends cp) -> usable b).
  { intros U b B. exact (usable_in_protocol _ U b (A b B)). }
  destruct (cp_protocol cp) as [t h1 h2 o|h|h|g|o|t] eqn:E; cbn [protocol_usable] in *; rewrite ?http_router_none, ?opaq_router_none, ?tls_router_none; tauto.
Qed.
Theorem http_cached {M F P} L export pb cp (rts : list (route M (route_policy F P))) ro c :
  try_from L export pb = Some cp -> (forall b, in_http_routes b rts -> in_protocol b (cp_protocol cp)) ->
  mk_http_router rts (cp_backends cp) = Some ro -> http_target c ro -> cached (ro_backends ro) c = true.
Proof.
  intros H U. destruct (policy_backends _ _ _ _ H) as (_ & B & _). apply http_router_targets. intros b K. apply B. apply U. exact K.
Qed.

(** ** Lookups in routers *)
Section Lookup.
Context {M P Q S : Type}.
Variable R : P -> Q -> Prop.
Definition keyed {K} (a : K * P) (b : K * Q) : Prop := fst a = fst b /\ R (snd a) (snd b).
Local Notation found := (ClientPolicySpec.found R).
Lemma best_found {K} (cmp : K -> K -> comparison) (l : list (K * P)) (l' : list (K * Q)) :
  Forall2 keyed l l' -> found (best cmp l) (best cmp l').
Proof.
  destruct 1 as [|x y l l' H K0]; [exact I|]. unfold best.
  assert (X : keyed (fold_left (fun a b => match cmp (fst a) (fst b) with Lt => b | _ => a end) l x)
                    (fold_left (fun a b => match cmp (fst a) (fst b) with Lt => b | _ => a end) l' y)).
  { revert x y H. induction K0 as [|u v l l' U _ J]; intros x y H; [exact H|]. cbn [fold_left]. apply J.
    destruct H as [H1 H2], U as [U1 U2]. rewrite <- H1, <- U1. destruct (cmp (fst x) (fst u)); split; assumption. }
  destruct (fold_left _ l x) as [k p], (fold_left _ l' y) as [k' q]. exact X.
Qed.
Lemma filter_map_found {A B K} (RA : A -> B -> Prop) (f : A -> option (K * P)) (g : B -> option (K * Q)) l l' :
  (forall x y, RA x y -> found (f x) (g y)) -> Forall2 RA l l' -> Forall2 keyed (RouteModel.filter_map f l) (RouteModel.filter_map g l').
Proof.
  intros H. induction 1 as [|x y l l' X _ J]; [constructor|]. cbn [RouteModel.filter_map]. specialize (H x y X).
  destruct (f x) as [[k p]|], (g y) as [[k' q]|]; cbn in H; try contradiction; [constructor; assumption|exact J].
Qed.
Variable matches : M -> request -> option S.
Variable scmp : S -> S -> comparison.
Variable default : S.
Definition same_rule (a : rule M P) (b : rule M Q) : Prop := ru_matches a = ru_matches b /\ R (ru_policy a) (ru_policy b).
Definition same_route (a : route M P) (b : route M Q) : Prop :=
  rt_hosts a = rt_hosts b /\ Forall2 same_rule (rt_rules a) (rt_rules b).
Lemma find_found l l' req : Forall2 same_route l l' ->
  found (RouteModel.find matches scmp default l req) (RouteModel.find matches scmp default l' req).
Proof.
  intros H. unfold RouteModel.find. apply best_found. apply (filter_map_found same_route); [|exact H].
  intros rt rt' [EH ER]. unfold route_summary, route_host. rewrite <- EH.
  assert (X : found (best scmp (RouteModel.filter_map (fun ru => rule_summary matches scmp default ru req) (rt_rules rt)))
                    (best scmp (RouteModel.filter_map (fun ru => rule_summary matches scmp default ru req) (rt_rules rt')))).
  { apply best_found. apply (filter_map_found same_rule); [|exact ER]. intros a b [E1 E2]. unfold rule_summary. rewrite <- E1.
    destruct (ru_matches a) as [|m ms]; [split; [reflexivity|exact E2]|].
    match goal with |- context [max_by scmp ?l] => destruct (max_by scmp l) end; [split; [reflexivity|exact E2]|exact I]. }
  assert (Y : forall h : option (option host_match), found
     (match h with None => None | Some host => match best scmp (RouteModel.filter_map (fun ru => rule_summary matches scmp default ru req) (rt_rules rt)) with
        | None => None | Some (s, p) => Some ((host, s), p) end end)
     (match h with None => None | Some host => match best scmp (RouteModel.filter_map (fun ru => rule_summary matches scmp default ru req) (rt_rules rt')) with
        | None => None | Some (s, p) => Some ((host, s), p) end end)).
  { intros [h|]; [|exact I]. revert X. match goal with |- found ?a ?b -> _ => generalize a b end. intros [[s p]|] [[s' q]|] X; cbn in X |- *; try contradiction; [|exact I].
    destruct X as [-> X]. auto. }
  apply Y.
Qed.
End Lookup.
Lemma http_router_routes {M F P} (rts : list (route M (route_policy F P))) bs ro : mk_http_router rts bs = Some ro ->
  Forall2 (same_route (becomes false)) rts (ro_routes ro).
Proof.
  intros H. unfold mk_http_router in H. apply bind_iff in H as (rts' & A & H). apply bind_iff in H as (cs & _ & H). injection H as <-. cbn [ro_routes].
  apply forall2_of_collect in A. eapply forall2_impl2; [|exact A]. cbn beta. intros rt rt' K. apply bind_iff in K as (rules & K & E). injection E as <-.
  split; [reflexivity|]. cbn [rt_rules]. apply forall2_of_collect in K. eapply forall2_impl2; [|exact K]. cbn beta. intros ru ru' K'.
  apply bind_iff in K' as (t & K' & E). injection E as <-. split; [reflexivity|]. apply mk_policy_some. exact K'.
Qed.
Theorem http_router_find {F P} (rts : list (route match_request (route_policy F P))) bs ro req : mk_http_router rts bs = Some ro ->
  found (becomes false) (http_find rts req) (http_find (ro_routes ro) req).
Proof. intros H. apply find_found. apply (http_router_routes _ bs). exact H. Qed.
Theorem grpc_router_find {F P} (rts : list (route match_grpc (route_policy F P))) bs ro req : mk_http_router rts bs = Some ro ->
  found (becomes false) (grpc_find rts req) (grpc_find (ro_routes ro) req).
Proof. intros H. apply find_found. apply (http_router_routes _ bs). exact H. Qed.
Theorem opaq_router_find o bs ro : mk_opaq_router o bs = Some ro -> optionally (becomes true) o (ro_routes ro).
Proof.
  intros H. unfold mk_opaq_router in H. apply bind_iff in H as (t & A & H). apply bind_iff in H as (cs & _ & H). injection H as <-. cbn [ro_routes].
  destruct o as [p|]; cbn [transpose] in A; [apply bind_iff in A as (t' & A & E); injection E as <-; apply mk_policy_some; exact A|injection A as <-; exact I].
Qed.
Theorem tls_router_find (rts : list (TlsRouteModel.tls_route tls_policy)) bs ro sni : mk_tls_router rts bs = Some ro ->
  optionally (becomes true) (TlsRouteModel.tls_select rts sni) (TlsRouteModel.tls_select (ro_routes ro) sni).
Proof.
  intros H. unfold mk_tls_router, tls_policy in *. apply bind_iff in H as (rts' & A & H). apply bind_iff in H as (cs & _ & H). injection H as <-. cbn [ro_routes].
  apply forall2_of_collect in A. unfold TlsRouteModel.tls_select, TlsRouteModel.tls_find.
  assert (X : found (becomes true) (best (opt_cmp TlsRouteModel.sni_cmp) (RouteModel.filter_map (TlsRouteModel.tls_summary sni) rts))
                    (best (opt_cmp TlsRouteModel.sni_cmp) (RouteModel.filter_map (TlsRouteModel.tls_summary sni) rts'))).
  { apply best_found. eapply filter_map_found; [|exact A]. cbn beta. intros x y K. apply bind_iff in K as (t & K & E). injection E as <-.
    apply mk_policy_some in K. unfold TlsRouteModel.tls_summary. cbn [TlsRouteModel.tr_snis TlsRouteModel.tr_policy].
    generalize (TlsRouteModel.tr_snis x); intros sn; destruct sn; [split; [reflexivity|exact K]|].
    match goal with |- context [max_by ?c ?l] => destruct (max_by c l) end; [split; [reflexivity|exact K]|exact I]. }
  revert X. match goal with |- found _ ?a ?b -> _ => generalize a b end. intros [[k p]|] [[k' q]|] X; cbn in X |- *; try contradiction; [exact (proj2 X)|exact I].
Qed.

Theorem opaq_cached L export pb cp o ro c :
  try_from L export pb = Some cp -> (forall b, in_opaq b o -> in_protocol b (cp_protocol cp)) ->
  mk_opaq_router o (cp_backends cp) = Some ro -> opaq_target c ro -> cached (ro_backends ro) c = true.
Proof.
  intros H U. destruct (policy_backends _ _ _ _ H) as (_ & B & _). apply opaq_router_targets. intros b K. apply B. apply U. exact K.
Qed.
Theorem tls_cached L export pb cp t ro c :
  try_from L export pb = Some cp -> cp_protocol cp = Tls t ->
  mk_tls_router t (cp_backends cp) = Some ro -> tls_target c ro -> cached (ro_backends ro) c = true.
Proof.
  intros H E. destruct (policy_backends _ _ _ _ H) as (_ & B & _). apply tls_router_targets. intros b K. apply B. rewrite E. exact K.
Qed.
Theorem cached_means bs c : cached bs c = true <-> exists c', In c' bs /\ same_target c c'.
Proof. exact (cached_iff bs c). Qed.

(** ** The policy in place of one that is refused *)
Theorem invalid_http timeout req :
  match cp_protocol (invalid timeout) with
  | Detect t h1 h2 (Some o) =>
      t = timeout /\ h1 = h2 /\
      (exists k p, http_find (rs_routes h1) req = Some (k, p) /\ fails_requests p) /\ fails_connections o
  | _ => False
  end.
Proof.
  cbn [invalid cp_protocol rs_routes]. split; [reflexivity|]. split; [reflexivity|]. split.
  - unfold http_find, RouteModel.find, rule_summary. cbn [RouteModel.filter_map rt_rules rt_hosts ru_matches ru_policy].
    cbn. eexists. eexists. split; [reflexivity|]. split; reflexivity.
  - split; reflexivity.
Qed.
Theorem invalid_builds timeout : routers_build (invalid timeout).
Proof. unfold routers_build. cbn [invalid cp_protocol cp_backends rs_routes]. cbn. repeat split; discriminate. Qed.
