(** Proofs about which rule of a message a request takes (property C95). *)
From Coq Require Import String List NArith ZArith Bool Lia.
From Verif Require Import Bytes BytesProofs NameModel RouteModel RouteSpec RouteProofs RouteMatchProofs.
From Verif Require Import EndpointModel ClientPolicyModel ClientPolicySpec ClientPolicyProofs.
From Verif Require TlsRouteModel TlsRouteSpec TlsRouteProofs.
Import ListNotations.
Open Scope N_scope.

Lemma forall2_in_l {A B} (R : A -> B -> Prop) l l' x : Forall2 R l l' -> In x l -> exists y, In y l' /\ R x y.
Proof.
  induction 1 as [|a b l l' H _ J]; [intros []|]. intros [<-|K]; [exists b; split; [left; reflexivity|exact H]|].
  destruct (J K) as (y & Y & Z). exists y. split; [right; exact Y|exact Z].
Qed.
Lemma forall2_in_r {A B} (R : A -> B -> Prop) l l' y : Forall2 R l l' -> In y l' -> exists x, In x l /\ R x y.
Proof.
  induction 1 as [|a b l l' H _ J]; [intros []|]. intros [<-|K]; [exists a; split; [left; reflexivity|exact H]|].
  destruct (J K) as (x & Y & Z). exists x. split; [right; exact Y|exact Z].
Qed.
Lemma forall2_len {A B} (R : A -> B -> Prop) l l' : Forall2 R l l' -> List.length l = List.length l'.
Proof. induction 1; cbn; congruence. Qed.
Lemma forall2_split_r {A B} (R : A -> B -> Prop) : forall l b y a, Forall2 R l (b ++ y :: a) ->
  exists b' x a', l = b' ++ x :: a' /\ Forall2 R b' b /\ R x y /\ Forall2 R a' a.
Proof.
  intros l b y a H. apply Forall2_app_inv_r in H as (b' & r & H1 & H2 & ->). inversion H2; subst. eauto 8.
Qed.

(** ** Routes that say the same *)
Section Sim.
Context {M1 M2 P1 P2 : Type}.
Variable acc1 : M1 -> request -> Prop.
Variable acc2 : M2 -> request -> Prop.
Variable rank1 : M1 -> request -> list N -> Prop.
Variable rank2 : M2 -> request -> list N -> Prop.
Variable dr : list N.
Variable RM : M1 -> M2 -> Prop.
Variable RP : P1 -> P2 -> Prop.
Hypothesis acc_iff : forall m1 m2 req, RM m1 m2 -> (acc1 m1 req <-> acc2 m2 req).
Hypothesis rank_iff : forall m1 m2 req r, RM m1 m2 -> (rank1 m1 req r <-> rank2 m2 req r).
Definition sim_rule (a : rule M1 P1) (b : rule M2 P2) : Prop :=
  Forall2 RM (ru_matches a) (ru_matches b) /\ RP (ru_policy a) (ru_policy b).
Definition sim_route (a : route M1 P1) (b : route M2 P2) : Prop :=
  rt_hosts a = rt_hosts b /\ Forall2 sim_rule (rt_rules a) (rt_rules b).
Lemma sim_applies rt1 rt2 ru1 ru2 req r : rt_hosts rt1 = rt_hosts rt2 -> sim_rule ru1 ru2 ->
  (applies acc1 rank1 dr rt1 ru1 req r <-> applies acc2 rank2 dr rt2 ru2 req r).
Proof.
  intros EH [EM _].
  assert (A : forall h, route_hosts_rank rt1 req h <-> route_hosts_rank rt2 req h).
  { intros h. unfold route_hosts_rank. rewrite EH. tauto. }
  assert (B : forall s, rule_rank acc1 rank1 dr ru1 req s <-> rule_rank acc2 rank2 dr ru2 req s).
  { intros s. unfold rule_rank. split.
    - intros [[E ->]|[(m & I1 & I2 & I3) K]].
      + left. split; [|reflexivity]. rewrite E in EM. inversion EM. reflexivity.
      + right. split.
        * destruct (forall2_in_l _ _ _ _ EM I1) as (y & Y & Z). exists y. split; [exact Y|]. split; [apply (acc_iff _ _ _ Z); exact I2|apply (rank_iff _ _ _ _ Z); exact I3].
        * intros y r' Y1 Y2 Y3. destruct (forall2_in_r _ _ _ _ EM Y1) as (x & X & Z). apply (K x r' X); [apply (acc_iff _ _ _ Z); exact Y2|apply (rank_iff _ _ _ _ Z); exact Y3].
    - intros [[E ->]|[(m & I1 & I2 & I3) K]].
      + left. split; [|reflexivity]. rewrite E in EM. inversion EM. reflexivity.
      + right. split.
        * destruct (forall2_in_r _ _ _ _ EM I1) as (y & Y & Z). exists y. split; [exact Y|]. split; [apply (acc_iff _ _ _ Z); exact I2|apply (rank_iff _ _ _ _ Z); exact I3].
        * intros y r' Y1 Y2 Y3. destruct (forall2_in_l _ _ _ _ EM Y1) as (x & X & Z). apply (K x r' X); [apply (acc_iff _ _ _ Z); exact Y2|apply (rank_iff _ _ _ _ Z); exact Y3]. }
  unfold applies. split; intros (h & s & X & Y & ->); exists h, s; (split; [apply A; exact X|]); (split; [apply B; exact Y|reflexivity]).
Qed.
Lemma sim_first_best R1 R2 req p2 : Forall2 sim_route R1 R2 -> first_best acc2 rank2 dr R2 req p2 ->
  exists p1, first_best acc1 rank1 dr R1 req p1 /\ RP p1 p2.
Proof.
  intros S (b & rt & a & rb & ru & ra & r & -> & E & <- & AP & H1 & H2 & H3 & H4).
  apply forall2_split_r in S as (b' & rt' & a' & -> & S1 & [SH S2] & S3).
  rewrite E in S2. apply forall2_split_r in S2 as (rb' & ru' & ra' & E' & T1 & T2 & T3).
  exists (ru_policy ru'). split; [|exact (proj2 T2)].
  exists b', rt', a', rb', ru', ra', r. split; [reflexivity|]. split; [exact E'|]. split; [reflexivity|].
  split; [apply (sim_applies _ _ _ _ _ _ SH T2); exact AP|].
  split. { intros x y s I1 I2 I3. destruct (forall2_in_l _ _ _ _ S1 I1) as (x' & X & [Q1 Q2]). destruct (forall2_in_l _ _ _ _ Q2 I2) as (y' & Y & Q3).
    apply (H1 x' y' s X Y). apply (sim_applies _ _ _ _ _ _ Q1 Q3). exact I3. }
  split. { intros y s I2 I3. destruct (forall2_in_l _ _ _ _ T1 I2) as (y' & Y & Q3). apply (H2 y' s Y). apply (sim_applies _ _ _ _ _ _ SH Q3). exact I3. }
  split. { intros y s I2 I3. destruct (forall2_in_l _ _ _ _ T3 I2) as (y' & Y & Q3). apply (H3 y' s Y). apply (sim_applies _ _ _ _ _ _ SH Q3). exact I3. }
  intros x y s I1 I2 I3. destruct (forall2_in_l _ _ _ _ S3 I1) as (x' & X & [Q1 Q2]). destruct (forall2_in_l _ _ _ _ Q2 I2) as (y' & Y & Q3).
  apply (H4 x' y' s X Y). apply (sim_applies _ _ _ _ _ _ Q1 Q3). exact I3.
Qed.
Lemma sim_none R1 R2 req : Forall2 sim_route R1 R2 -> (no_rule_applies acc1 rank1 dr R1 req <-> no_rule_applies acc2 rank2 dr R2 req).
Proof.
  intros S. unfold no_rule_applies. split.
  - intros H x y s I1 I2 I3. destruct (forall2_in_r _ _ _ _ S I1) as (x' & X & [Q1 Q2]). destruct (forall2_in_r _ _ _ _ Q2 I2) as (y' & Y & Q3).
    apply (H x' y' s X Y). apply (sim_applies _ _ _ _ _ _ Q1 Q3). exact I3.
  - intros H x y s I1 I2 I3. destruct (forall2_in_l _ _ _ _ S I1) as (x' & X & [Q1 Q2]). destruct (forall2_in_l _ _ _ _ Q2 I2) as (y' & Y & Q3).
    apply (H x' y' s X Y). apply (sim_applies _ _ _ _ _ _ Q1 Q3). exact I3.
Qed.
Lemma sim_well_formed R1 R2 : Forall2 sim_route R1 R2 -> well_formed R1 -> well_formed R2.
Proof.
  intros S W rt m I1 I2. destruct (forall2_in_r _ _ _ _ S I1) as (x & X & [Q _]). apply (W x m X). rewrite Q. exact I2.
Qed.
End Sim.

Lemma hosts_of_eq l l' : Forall2 host_valid l l' -> hosts_of l = l'.
Proof.
  induction 1 as [|x y l l' H _ J]; [reflexivity|]. unfold hosts_of. cbn [flat_map]. fold (hosts_of l). rewrite J.
  destruct x as [[x|x]|], y as [y|y]; cbn in H; try contradiction; subst; reflexivity.
Qed.
Lemma snis_of_eq l l' : Forall2 sni_valid l l' -> snis_of l = l'.
Proof.
  induction 1 as [|x y l l' H _ J]; [reflexivity|]. unfold snis_of. cbn [flat_map]. fold (snis_of l). rewrite J.
  destruct x as [[x|x]|], y as [y|y]; cbn in H; try contradiction; subst; reflexivity.
Qed.

Section Lib.
Variable L : lib.
Lemma path_says_iff pb p path : path_valid L pb p -> (path_says L pb path <-> path_accepts p path).
Proof.
  destruct pb as [[x|x|re]|], p as [y|y|r]; cbn [path_valid path_says path_accepts]; try contradiction.
  - intros ->. tauto.
  - intros ->. tauto.
  - intros E. split; [intros (r' & A & B)|intros A]; [congruence|exists r; auto].
Qed.
Lemma header_says_iff pb h hs : header_valid L pb h -> (header_says L pb hs <-> header_accepts h hs).
Proof.
  unfold header_valid, header_says. destruct (pbn_value pb) as [[v|re]|], h as [n w|n r]; try contradiction; intros [A B]; cbn [header_accepts].
  - split; [intros (n' & A' & w' & B' & K)|intros K; exists n; split; [exact A|]; exists w; auto].
    rewrite A in A'. rewrite B in B'. injection A' as <-. injection B' as <-. exact K.
  - split.
    + intros (n' & A' & r' & v & B' & K). rewrite A in A'. rewrite B in B'. injection A' as <-. injection B' as <-. exists v. exact K.
    + intros (v & K). exists n. split; [exact A|]. exists r, v. split; [exact B|exact K].
Qed.
Lemma query_says_iff pb q qs : query_valid L pb q -> (query_says L pb qs <-> query_accepts q qs).
Proof.
  unfold query_valid, query_says, query_accepts. intros [_ V]. destruct (pbn_value pb) as [[v|re]|], q as [n w|n r]; try contradiction; destruct V as [-> B].
  - subst w. tauto.
  - split; intros (s & -> & K); exists s; (split; [reflexivity|]).
    + destruct K as (r' & v & B' & K). rewrite B in B'. injection B' as <-. exists v. exact K.
    + destruct K as (v & K). exists r, v. split; [exact B|exact K].
Qed.
Theorem http_says_iff pb m req : http_match_valid L pb m -> (http_says L pb req <-> http_accepts m req).
Proof.
  intros (A & B & C & D). unfold http_says, http_accepts. split; intros (M & P & H & Q).
  - split; [|split; [|split]].
    + intros x E. rewrite E in D. destruct (pbm_method pb) as [y|]; [|contradiction]. cbn [optionally] in D. specialize (M y eq_refl). congruence.
    + intros x E. rewrite E in A. destruct (pbm_path pb) as [y|]; [|contradiction]. apply (path_says_iff _ _ _ A). apply P. reflexivity.
    + intros x J. destruct (forall2_in_r _ _ _ _ B J) as (y & Y & V). apply (header_says_iff _ _ _ V). apply H. exact Y.
    + intros x J. destruct (forall2_in_r _ _ _ _ C J) as (y & Y & V). apply (query_says_iff _ _ _ V). apply Q. exact Y.
  - split; [|split; [|split]].
    + intros x E. rewrite E in D. destruct (mr_method m) as [y|]; [|contradiction]. cbn [optionally] in D. specialize (M y eq_refl). congruence.
    + intros x E. rewrite E in A. destruct (mr_path m) as [y|]; [|contradiction]. apply (path_says_iff _ _ _ A). apply P. reflexivity.
    + intros x J. destruct (forall2_in_l _ _ _ _ B J) as (y & Y & V). apply (header_says_iff _ _ _ V). apply H. exact Y.
    + intros x J. destruct (forall2_in_l _ _ _ _ C J) as (y & Y & V). apply (query_says_iff _ _ _ V). apply Q. exact Y.
Qed.
Lemma http_weight_iff pb m req r : http_match_valid L pb m -> (http_weight pb req r <-> http_rank m req r).
Proof.
  intros (A & B & C & D). unfold http_weight, http_rank, path_weight.
  rewrite (forall2_len _ _ _ B), (forall2_len _ _ _ C).
  assert (match pbm_method pb with Some _ => 1 | None => 0 end = match mr_method m with Some _ => 1 | None => 0 end) as ->.
  { destruct (pbm_method pb), (mr_method m); try contradiction; reflexivity. }
  assert (E : forall w, match pbm_path pb with
    | None => w = 1 | Some None => False | Some (Some (Pb_exact_path p)) => w = len p
    | Some (Some (Pb_regex_path _)) => w = len (rq_path req)
    | Some (Some (Pb_prefix_path p)) => (p = [47] /\ w = 1) \/ (p <> [47] /\ exists q, strips_slashes p q /\ w = len q) end <->
    match mr_path m with
    | None => w = 1 | Some (PExact p) => w = len p | Some (PRegex _) => w = len (rq_path req)
    | Some (PPrefix p) => (p = [47] /\ w = 1) \/ (p <> [47] /\ exists q, strips_slashes p q /\ w = len q) end).
  { intros w. destruct (pbm_path pb) as [[[x|x|x]|]|], (mr_path m) as [[y|y|y]|]; cbn in A; try contradiction; subst; tauto. }
  split; intros (w & W & ->); exists w; (split; [apply E; exact W|reflexivity]).
Qed.
Theorem grpc_says_iff pb m req : grpc_match_valid L pb m -> (grpc_says L pb req <-> grpc_accepts m req).
Proof.
  intros (((s & t) & R & S' & T) & B). cbn [fst snd] in S', T. unfold grpc_says, grpc_accepts.
  assert (X : forall service, (s = [] \/ service = s) <-> (forall x, rpc_service (mg_rpc m) = Some x -> service = x)).
  { intros service. destruct S' as [[-> ->]|[N1 ->]]; split.
    - discriminate. - auto. - intros [E|E] x K; [congruence|]. injection K as <-. exact E. - intros K. right. apply K. reflexivity. }
  assert (Y : forall method, (t = [] \/ method = t) <-> (forall x, rpc_method (mg_rpc m) = Some x -> method = x)).
  { intros method. destruct T as [[-> ->]|[N1 ->]]; split.
    - discriminate. - auto. - intros [E|E] x K; [congruence|]. injection K as <-. exact E. - intros K. right. apply K. reflexivity. }
  split.
  - intros (P & (sv & me & s' & t' & A & E & E1 & E2) & H). rewrite R in E. injection E as <- <-. split; [exact P|]. split.
    + exists sv, me. split; [exact A|]. split; [apply X; exact E1|apply Y; exact E2].
    + intros x J. destruct (forall2_in_r _ _ _ _ B J) as (y & Z & V). apply (header_says_iff _ _ _ V). apply H. exact Z.
  - intros (P & (sv & me & A & E1 & E2) & H). split; [exact P|]. split.
    + exists sv, me, s, t. split; [exact A|]. split; [exact R|]. split; [apply X; exact E1|apply Y; exact E2].
    + intros x J. destruct (forall2_in_l _ _ _ _ B J) as (y & Z & V). apply (header_says_iff _ _ _ V). apply H. exact Z.
Qed.
Lemma grpc_weight_iff pb m req r : grpc_match_valid L pb m -> (grpc_weight pb req r <-> grpc_rank m req r).
Proof.
  intros (((s & t) & R & S' & T) & B). cbn [fst snd] in S', T. unfold grpc_weight, grpc_rank. rewrite (forall2_len _ _ _ B).
  assert (len s = olen (rpc_service (mg_rpc m))) as E1 by (destruct S' as [[-> ->]|[N1 ->]]; reflexivity).
  assert (len t = olen (rpc_method (mg_rpc m))) as E2 by (destruct T as [[-> ->]|[N1 ->]]; reflexivity).
  split.
  - intros (s' & t' & E & ->). rewrite R in E. injection E as <- <-. rewrite E1, E2. reflexivity.
  - intros ->. exists s, t. split; [exact R|]. rewrite E1, E2. reflexivity.
Qed.

Section Rules.
Context {M M' F F' C C' : Type}.
Variable match_valid : M -> M' -> Prop.
Variable filter_says : option F -> F' -> Prop.
Variable retry_says : pb_retry C -> retry C' -> Prop.
Variable export : bool.
Definition RPol (x : option pb_metadata * pb_rule M F C) (p : route_policy F' (params C')) : Prop :=
  policy_says L filter_says retry_says export (fst x) (snd x) p.
Lemma routes_sim l l' : Forall2 (route_says L match_valid filter_says retry_says export) l l' ->
  Forall2 (sim_route match_valid RPol) (routes_of l) l'.
Proof.
  induction 1 as [|x y l l' (_ & H & K) _ J]; [constructor|]. cbn [routes_of map]. constructor; [|exact J].
  split; [apply hosts_of_eq; exact H|]. cbn [rt_rules]. induction K as [|a b u u' [K1 K2] _ KJ]; [constructor|]. cbn [map].
  constructor; [|exact KJ]. split; [exact K1|exact K2].
Qed.
End Rules.

(** What the lookup of an HTTP request gives *)
Theorem http_lookup export pb r req : try_http L export pb = Some r -> well_formed (routes_of (pbp_routes pb)) ->
  match http_find (rs_routes r) req with
  | Some (_, p) => exists md ru,
      first_best (http_says L) http_weight [1; 0; 0; 0] (routes_of (pbp_routes pb)) req (md, ru) /\
      policy_says L (http_filter_says L) http_retry_says export md ru p
  | None => no_rule_applies (http_says L) http_weight [1; 0; 0; 0] (routes_of (pbp_routes pb)) req
  end.
Proof.
  intros H W. apply http_iff in H as [H _]. apply routes_sim in H.
  assert (W' := sim_well_formed _ _ _ _ H W).
  destruct (http_find (rs_routes r) req) as [[k p]|] eqn:E.
  - apply http_find_first_best in E; [|exact W'].
    destruct (sim_first_best (http_says L) http_accepts http_weight http_rank _ _ _
      (fun m1 m2 rq V => http_says_iff m1 m2 rq V) (fun m1 m2 rq s V => http_weight_iff m1 m2 rq s V) _ _ _ _ H E) as ([md ru] & A & B).
    exists md, ru. split; [exact A|exact B].
  - apply http_find_none in E; [|exact W'].
    exact (proj2 (sim_none (http_says L) http_accepts http_weight http_rank _ _ _
      (fun m1 m2 rq V => http_says_iff m1 m2 rq V) (fun m1 m2 rq s V => http_weight_iff m1 m2 rq s V) _ _ req H) E).
Qed.
Theorem grpc_lookup export pb r req : try_grpc L export pb = Some r -> well_formed (routes_of (pbp_routes pb)) ->
  match grpc_find (rs_routes r) req with
  | Some (_, p) => exists md ru,
      first_best (grpc_says L) grpc_weight [0; 0; 0] (routes_of (pbp_routes pb)) req (md, ru) /\
      policy_says L (grpc_filter_says L) grpc_retry_says export md ru p
  | None => no_rule_applies (grpc_says L) grpc_weight [0; 0; 0] (routes_of (pbp_routes pb)) req
  end.
Proof.
  intros H W. apply grpc_iff in H as [H _]. apply routes_sim in H.
  assert (W' := sim_well_formed _ _ _ _ H W).
  destruct (grpc_find (rs_routes r) req) as [[k p]|] eqn:E.
  - apply grpc_find_first_best in E; [|exact W'].
    destruct (sim_first_best (grpc_says L) grpc_accepts grpc_weight grpc_rank _ _ _
      (fun m1 m2 rq V => grpc_says_iff m1 m2 rq V) (fun m1 m2 rq s V => grpc_weight_iff m1 m2 rq s V) _ _ _ _ H E) as ([md ru] & A & B).
    exists md, ru. split; [exact A|exact B].
  - apply grpc_find_none in E; [|exact W'].
    exact (proj2 (sim_none (grpc_says L) grpc_accepts grpc_weight grpc_rank _ _ _
      (fun m1 m2 rq V => grpc_says_iff m1 m2 rq V) (fun m1 m2 rq s V => grpc_weight_iff m1 m2 rq s V) _ _ req H) E).
Qed.

(** ** TLS *)
Definition sim_tls export (a : TlsRouteModel.tls_route pb_tcp_route) (b : TlsRouteModel.tls_route tls_policy) : Prop :=
  TlsRouteModel.tr_snis a = TlsRouteModel.tr_snis b /\ tcp_route_says L export (TlsRouteModel.tr_policy a) (TlsRouteModel.tr_policy b).
Lemma tls_sim export l l' : Forall2 (tls_route_says L export) l l' -> Forall2 (sim_tls export) (tls_routes_of l) l'.
Proof.
  induction 1 as [|x y l l' [H K] _ J]; [constructor|]. cbn [tls_routes_of map]. constructor; [|exact J].
  split; [apply snis_of_eq; exact H|exact K].
Qed.
Lemma tls_applies_sim {P Q} (a : TlsRouteModel.tls_route P) (b : TlsRouteModel.tls_route Q) sni r :
  TlsRouteModel.tr_snis a = TlsRouteModel.tr_snis b -> TlsRouteSpec.tls_applies a sni r -> TlsRouteSpec.tls_applies b sni r.
Proof. intros E. unfold TlsRouteSpec.tls_applies. rewrite E. tauto. Qed.
Theorem tls_lookup export pb t sni : collect (try_tls_route L export) pb = Some t ->
  match TlsRouteModel.tls_select t sni with
  | Some p => exists rt, TlsRouteSpec.tls_first_best (tls_routes_of pb) sni rt /\ tcp_route_says L export rt p
  | None => forall rt r, In rt (tls_routes_of pb) -> ~ TlsRouteSpec.tls_applies rt sni r
  end.
Proof.
  intros H. apply (collect_says _ _ (tls_route_iff L export)) in H. apply tls_sim in H.
  destruct (TlsRouteModel.tls_select t sni) as [p|] eqn:E.
  - apply TlsRouteProofs.tls_select_some in E as (b & rt & a & r & -> & <- & AP & H1 & H2).
    apply forall2_split_r in H as (b' & x & a' & -> & S1 & [S2 S3] & S4).
    exists (TlsRouteModel.tr_policy x). split; [|exact S3]. exists b', x, a', r. split; [reflexivity|]. split; [reflexivity|].
    split; [apply (tls_applies_sim rt); [congruence|exact AP]|]. split.
    + intros y s Y K. destruct (forall2_in_l _ _ _ _ S1 Y) as (y' & Y' & [Q _]). apply (H1 y' s Y'). apply (tls_applies_sim y); assumption.
    + intros y s Y K. destruct (forall2_in_l _ _ _ _ S4 Y) as (y' & Y' & [Q _]). apply (H2 y' s Y'). apply (tls_applies_sim y); assumption.
  - intros x s X K. destruct (forall2_in_l _ _ _ _ H X) as (y & Y & [Q _]).
    apply (proj1 (TlsRouteProofs.tls_select_none t sni) E y s Y). apply (tls_applies_sim x); assumption.
Qed.

(** ** Of whole messages *)
Lemma http_parts two export k p pb r : protocol_says L export k p -> http_part two k p pb r -> try_http L export pb = Some r.
Proof.
  intros H K. apply http_iff. inversion K; subst; cbn [protocol_says] in H.
  - destruct H as (_ & (x1 & A1 & B1) & (x2 & A2 & B2) & _). destruct two; congruence.
  - exact H.
  - exact H.
Qed.
Lemma from_protocol export pb cp k : try_from L export pb = Some cp -> pb_proxy_protocol pb = Some (Some k) -> protocol_says L export k (cp_protocol cp).
Proof.
  intros H E. destruct cp as [m p b]. assert (X := proj1 (policy_iff L export pb m p) (ex_intro _ b H)). destruct X as (_ & k' & E' & K).
  rewrite E in E'. injection E' as <-. exact K.
Qed.
Theorem http_takes two export pb cp k hpb r req :
  try_from L export pb = Some cp -> pb_proxy_protocol pb = Some (Some k) -> http_part two k (cp_protocol cp) hpb r ->
  well_formed (routes_of (pbp_routes hpb)) ->
  match http_find (rs_routes r) req with
  | Some (_, p) => exists md ru,
      first_best (http_says L) http_weight [1; 0; 0; 0] (routes_of (pbp_routes hpb)) req (md, ru) /\
      policy_says L (http_filter_says L) http_retry_says export md ru p
  | None => no_rule_applies (http_says L) http_weight [1; 0; 0; 0] (routes_of (pbp_routes hpb)) req
  end.
Proof. intros H E K W. apply http_lookup; [|exact W]. exact (http_parts _ _ _ _ _ _ (from_protocol _ _ _ _ H E) K). Qed.
Theorem grpc_takes export parent pb cp req :
  try_from L export (PbPolicy parent (Some (Some (Pb_grpc pb)))) = Some cp -> well_formed (routes_of (pbp_routes pb)) ->
  exists r, cp_protocol cp = Grpc r /\
  match grpc_find (rs_routes r) req with
  | Some (_, p) => exists md ru,
      first_best (grpc_says L) grpc_weight [0; 0; 0] (routes_of (pbp_routes pb)) req (md, ru) /\
      policy_says L (grpc_filter_says L) grpc_retry_says export md ru p
  | None => no_rule_applies (grpc_says L) grpc_weight [0; 0; 0] (routes_of (pbp_routes pb)) req
  end.
Proof.
  intros H W. assert (K := from_protocol _ _ _ _ H eq_refl). cbn [protocol_says] in K. destruct (cp_protocol cp) as [| | |r| |]; try contradiction.
  exists r. split; [reflexivity|]. apply (grpc_lookup export); [|exact W]. apply grpc_iff. exact K.
Qed.
Theorem tls_takes export parent pb cp sni :
  try_from L export (PbPolicy parent (Some (Some (Pb_tls pb)))) = Some cp ->
  exists t, cp_protocol cp = Tls t /\
  match TlsRouteModel.tls_select t sni with
  | Some p => exists rt, TlsRouteSpec.tls_first_best (tls_routes_of pb) sni rt /\ tcp_route_says L export rt p
  | None => forall rt r, In rt (tls_routes_of pb) -> ~ TlsRouteSpec.tls_applies rt sni r
  end.
Proof.
  intros H. assert (K := from_protocol _ _ _ _ H eq_refl). cbn [protocol_says] in K. destruct (cp_protocol cp) as [| | | | |t]; try contradiction.
  exists t. split; [reflexivity|]. apply (tls_lookup export). apply (collect_says _ _ (tls_route_iff L export)). exact K.
Qed.
Theorem http_match_means pb m req : try_http_match L pb = Some m ->
  ((exists s, http_match m req = Some s) <-> http_says L pb req).
Proof. intros H. apply http_match_valid_iff in H. rewrite (http_says_iff _ _ _ H). apply http_match_iff. Qed.
Theorem grpc_match_means pb m req : try_grpc_match L pb = Some m ->
  ((exists s, grpc_match_request m req = Some s) <-> grpc_says L pb req).
Proof. intros H. apply grpc_match_valid_iff in H. rewrite (grpc_says_iff _ _ _ H). apply grpc_match_iff. Qed.
End Lib.
