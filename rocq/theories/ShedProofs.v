(** Proofs for C148 *)
From Coq Require Import String List NArith Bool Lia.
From Verif Require PromModel PromSpec.
From Verif Require Import Bytes BytesProofs Http1Model RespondModel RespondSpec RespondProofs ForwardModel ForwardProofs ShedModel ShedSpec.
Import ListNotations.
Open Scope N_scope.

(** ** Kinds *)
Lemma outbound_kind_iff : forall e k, outbound_kind e = k <-> counts_as Outbound e (Some k).
Proof.
  intros e k. split.
  - intros <-. induction e as [|[c t] e IH].
    + right. split; [reflexivity|]. intros ? ? ? [].
    + assert (D : (exists k, known Outbound c (Some k) /\ outbound_kind ((c, t) :: e) = k) \/
                  ((forall k, ~ known Outbound c k) /\ outbound_kind ((c, t) :: e) = outbound_kind e)).
      { destruct c; cbn; try (right; split; [intros ? H; inversion H|reflexivity]); left; eexists; split; try reflexivity; constructor. }
      destruct D as [(k & K & ->)|[N ->]].
      * left. exists [], c, t, e. split; [reflexivity|]. split; [exact K|]. intros ? ? ? [].
      * destruct IH as [(o & c' & t' & i & -> & K & O)|[-> O]].
        -- left. exists ((c, t) :: o), c', t', i. split; [reflexivity|]. split; [exact K|].
           intros c2 t2 k2 [[= <- <-]|I]; [apply N|eapply O; eassumption].
        -- right. split; [reflexivity|]. intros c2 t2 k2 [[= <- <-]|I]; [apply N|eapply O; eassumption].
  - assert (S : forall c t e, (forall k, ~ known Outbound c k) -> outbound_kind ((c, t) :: e) = outbound_kind e).
    { intros c t e' N. destruct c; try reflexivity; exfalso; eapply N; constructor. }
    intros [(o & c & t & i & -> & K & O)|[E O]].
    + induction o as [|[c' t'] o IH].
      * inversion K; subst; reflexivity.
      * cbn [app]. rewrite S; [|intros k' H; apply (O c' t' k'); [now left|exact H]]. apply IH. intros c2 t2 k2 I. apply (O c2 t2 k2). now right.
    + injection E as ->. induction e as [|[c' t'] e IH]; [reflexivity|].
      rewrite S; [|intros k' H; apply (O c' t' k'); [now left|exact H]]. apply IH. intros c2 t2 k2 I. apply (O c2 t2 k2). now right.
Qed.
Lemma inbound_kind_iff : forall e k, inbound_kind e = k <-> counts_as Inbound e k.
Proof.
  intros e k. split.
  - intros <-. induction e as [|[c t] e IH].
    + right. split; [reflexivity|]. intros ? ? ? [].
    + assert (D : (exists k, known Inbound c k /\ inbound_kind ((c, t) :: e) = k) \/
                  ((forall k, ~ known Inbound c k) /\ inbound_kind ((c, t) :: e) = inbound_kind e)).
      { destruct c; cbn; try (right; split; [intros ? H; inversion H|reflexivity]); left; eexists; split; try reflexivity; constructor. }
      destruct D as [(k & K & ->)|[N ->]].
      * left. exists [], c, t, e. split; [reflexivity|]. split; [exact K|]. intros ? ? ? [].
      * destruct IH as [(o & c' & t' & i & -> & K & O)|[-> O]].
        -- left. exists ((c, t) :: o), c', t', i. split; [reflexivity|]. split; [exact K|].
           intros c2 t2 k2 [[= <- <-]|I]; [apply N|eapply O; eassumption].
        -- right. split; [reflexivity|]. intros c2 t2 k2 [[= <- <-]|I]; [apply N|eapply O; eassumption].
  - assert (S : forall c t e, (forall k, ~ known Inbound c k) -> inbound_kind ((c, t) :: e) = inbound_kind e).
    { intros c t e' N. destruct c; try reflexivity; exfalso; eapply N; constructor. }
    intros [(o & c & t & i & -> & K & O)|[-> O]].
    + induction o as [|[c' t'] o IH].
      * inversion K; subst; reflexivity.
      * cbn [app]. rewrite S; [|intros k' H; apply (O c' t' k'); [now left|exact H]]. apply IH. intros c2 t2 k2 I. apply (O c2 t2 k2). now right.
    + induction e as [|[c' t'] e IH]; [reflexivity|].
      rewrite S; [|intros k' H; apply (O c' t' k'); [now left|exact H]]. apply IH. intros c2 t2 k2 I. apply (O c2 t2 k2). now right.
Qed.
Definition kind_of (d : side) (e : RespondModel.error) : option error_kind :=
  match d with Inbound => inbound_kind e | Outbound => Some (outbound_kind e) end.
Lemma outbound_some : forall e, ~ counts_as Outbound e None.
Proof. intros e [(o & c & t & i & _ & K & _)|[E _]]; [inversion K|discriminate]. Qed.
Lemma kind_of_iff : forall d e k, kind_of d e = k <-> counts_as d e k.
Proof.
  intros [|] e k; cbn; [apply inbound_kind_iff|]. destruct k as [k|].
  - rewrite <- outbound_kind_iff. split; [intros [= E]; exact E|intros ->; reflexivity].
  - split; [discriminate|]. intros H. now apply outbound_some in H.
Qed.
Lemma kind_wrap : forall d c e, kind_of d (wrap d c e) = kind_of d e.
Proof. now intros [|] c e. Qed.

Lemma key_eqb_iff : forall a b, key_eqb a b = true <-> a = b.
Proof.
  intros [a i] [b j]. unfold key_eqb. cbn [fst snd]. rewrite andb_true_iff, !beq_eq. split.
  - intros [-> E]. apply error_text_inj in E. now subst.
  - intros [= -> ->]. auto.
Qed.
Lemma counter_inc : forall k j l, PromSpec.value key_eqb k (PromModel.inc key_eqb j l) =
  if key_eqb j k then (PromSpec.value key_eqb k l + 1) mod 2 ^ 64 else PromSpec.value key_eqb k l.
Proof.
  apply value_inc.
  - intros a b. rewrite !key_eqb_iff. auto.
  - intros a b c. rewrite !key_eqb_iff. intros -> ->. reflexivity.
Qed.

Lemma nodup_app_r : forall {A} (a b : list A), NoDup (a ++ b) -> NoDup b.
Proof. intros A a b H. induction a; [exact H|]. inversion H; auto. Qed.
Lemma nodup_app_l : forall {A} (a b : list A), NoDup (a ++ b) -> NoDup a.
Proof.
  intros A a b H. induction a; [constructor|]. inversion H; subst. constructor; [|auto]. intros I. apply H2. apply in_app_iff. now left.
Qed.
(** ** What comes of requests, one event at a time *)
Definition flies (max : N) (es : list event) (id : N) (c : caller) : Prop :=
  exists before meanwhile, es = before ++ Arrive id c Ready :: meanwhile /\ size (serving max before) < max /\
    forall x, In x meanwhile -> ~ over x id.
Lemma snoc_split : forall {A} (l : list A) x b a c, l ++ [x] = b ++ a :: c ->
  (c = [] /\ l = b /\ x = a) \/ (exists c', c = c' ++ [x] /\ l = b ++ a :: c').
Proof.
  intros A l x b a c E. destruct c as [|y c _] using rev_ind.
  - left. apply app_inj_tail in E as [-> ->]. auto.
  - right. exists c. change (a :: c ++ [y]) with ((a :: c) ++ [y]) in E. rewrite app_assoc in E. apply app_inj_tail in E as [-> ->]. auto.
Qed.
Lemma flies_snoc : forall max es x id c, flies max (es ++ [x]) id c <->
  (flies max es id c /\ ~ over x id) \/ (x = Arrive id c Ready /\ size (serving max es) < max).
Proof.
  intros max es x id c. split.
  - intros (b & m & E & S & M). apply snoc_split in E as [(-> & -> & ->)|(m' & -> & ->)]; [right; auto|].
    left. split.
    + exists b, m'. split; [reflexivity|]. split; [exact S|]. intros y I. apply M. apply in_app_iff. now left.
    + apply M. apply in_app_iff. right. now left.
  - intros [[(b & m & -> & S & M) O]|[-> S]].
    + exists b, (m ++ [x]). split; [now rewrite <- app_assoc|]. split; [exact S|]. intros y I. apply in_app_iff in I as [I|[<-|[]]]; auto.
    + exists es, []. split; [reflexivity|]. split; [exact S|]. intros ? [].
Qed.
Lemma comes_snoc : forall max es x id c r, comes_to max (es ++ [x]) id c r <->
  comes_to max es id c r \/
  (exists rd, x = Arrive id c rd /\
     ((no_room max es rd /\ r = No_room) \/ (exists e, rd = Broken e /\ size (serving max es) < max /\ r = Broke e))) \/
  (exists res, x = Finish id res /\ flies max es id c /\ r = Gave res).
Proof.
  intros max es x id c r. split.
  - intros H. remember (es ++ [x]) as l eqn:L. destruct H as [b i c' rd a R|b i c' e a S|b i c' m res a S M]; symmetry in L.
    + apply snoc_split in L as [(-> & -> & ->)|(a' & -> & ->)].
      * right. left. exists rd. auto.
      * left. now constructor.
    + apply snoc_split in L as [(-> & -> & ->)|(a' & -> & ->)].
      * right. left. exists (Broken e). split; [reflexivity|]. right. exists e. auto.
      * left. now constructor.
    + change (b ++ Arrive i c' Ready :: m ++ Finish i res :: a) with (b ++ (Arrive i c' Ready :: m) ++ Finish i res :: a) in L.
      rewrite app_assoc in L. apply snoc_split in L as [(-> & -> & ->)|(a' & -> & ->)].
      * right. right. exists res. split; [reflexivity|]. split; [|reflexivity]. exists b, m. auto.
      * left. rewrite <- app_assoc. cbn [app]. now constructor.
  - intros [H|[(rd & -> & [[R ->]|(e & -> & S & ->)])|(res & -> & (b & m & -> & S & M) & ->)]].
    + destruct H as [b i c' rd a R|b i c' e a S|b i c' m res a S M].
      * rewrite <- app_assoc. cbn [app]. now constructor.
      * rewrite <- app_assoc. cbn [app]. now constructor.
      * rewrite <- app_assoc. cbn [app]. rewrite <- app_assoc. cbn [app]. now constructor.
    + now constructor.
    + now constructor.
    + rewrite <- app_assoc. cbn [app]. now constructor.
Qed.
Lemma serving_snoc : forall max es x, serving max (es ++ [x]) = serve max (serving max es) x.
Proof. intros. unfold serving. now rewrite fold_left_app. Qed.
Lemma run_snoc : forall d max es x, run d max (es ++ [x]) = step d (run d max es) x.
Proof. intros. unfold run. now rewrite fold_left_app. Qed.
Lemma once_snoc : forall es x, once (es ++ [x]) -> once es /\ forall id c r, x = Arrive id c r -> ~ In id (flat_map coming es).
Proof.
  intros es x. unfold once. rewrite flat_map_app. cbn [flat_map]. rewrite app_nil_r. intros H. split.
  - apply nodup_app_l in H. exact H.
  - intros id c r ->. cbn [coming] in H. apply NoDup_remove_2 in H. rewrite app_nil_r in H. exact H.
Qed.

(** ** The state after a history *)
Definition entry := (N * (caller * result))%type.
Definition counted (d : side) (k : bytes * error_kind) (x : entry) : bool :=
  let '(_, (c, r)) := x in
  let f e := match kind_of d e with Some j => key_eqb (labels d c, j) k | None => false end in
  match r with No_room => f LOAD_SHED | Broke e => f e | Gave (inr e) => f e | Gave (inl _) => false end.
Definition given (d : side) (x : entry) : N * responded :=
  let '(id, (c, r)) := x in
  (id, match r with
       | No_room => respond (server_rescue d) (c_responder c) (inr (wrap d c LOAD_SHED))
       | Broke e => Failed (wrap d c e)
       | Gave (inr e) => respond (server_rescue d) (c_responder c) (inr (wrap d c e))
       | Gave (inl rsp) => respond (server_rescue d) (c_responder c) (inl rsp)
       end).
Record related (d : side) (max : N) (es : list event) (s : state) (l : list entry) : Prop := Related {
  re_serving : serving max es = map fst (st_flying s);
  re_permits : st_permits s + size (st_flying s) = max;
  re_flying : forall id c, In (id, c) (st_flying s) <-> flies max es id c;
  re_comes : forall id c r, In (id, (c, r)) l <-> comes_to max es id c r;
  re_ids : NoDup (map fst l ++ map fst (st_flying s));
  re_came : forall id, In id (map fst l ++ map fst (st_flying s)) -> In id (flat_map coming es);
  re_answers : st_answers s = map (given d) l;
  re_counters : forall k, PromSpec.value key_eqb k (st_counters s) = N.of_nat (List.length (filter (counted d k) l)) mod 2 ^ 64 }.

Lemma monitor_counts : forall d c e k cs n l id r,
  PromSpec.value key_eqb k cs = N.of_nat (List.length (filter (counted d k) l)) mod 2 ^ 64 ->
  counted d k (id, (c, r)) = match kind_of d e with Some j => key_eqb (labels d c, j) k | None => false end ->
  n = (id, (c, r)) ->
  PromSpec.value key_eqb k (monitor_error d c (wrap d c e) cs) = N.of_nat (List.length (filter (counted d k) (n :: l))) mod 2 ^ 64.
Proof.
  intros d c e k cs n l id r V C ->. cbn [filter]. rewrite C.
  assert (M : forall j, (N.of_nat (List.length (filter (counted d k) l)) mod 2 ^ 64 + 1) mod 2 ^ 64 =
    N.of_nat (List.length (j :: filter (counted d k) l)) mod 2 ^ 64).
  { intros j. cbn [List.length]. rewrite Nat2N.inj_succ, <- N.add_1_r. now rewrite N.add_mod_idemp_l. }
  destruct d; cbn [monitor_error kind_of wrap].
  - cbn [inbound_kind]. destruct (inbound_kind e) as [j|]; [|exact V]. rewrite counter_inc.
    change (labels Inbound c) with (c_labels c). destruct (key_eqb (c_labels c, j) k); [|exact V]. rewrite V. apply M.
  - rewrite counter_inc. change ([], outbound_kind e) with (labels Outbound c, outbound_kind e).
    destruct (key_eqb (labels Outbound c, outbound_kind e) k); [|exact V]. rewrite V. apply M.
Qed.
Lemma find_flying : forall (l : list (N * caller)) id, NoDup (map fst l) ->
  match find (fun x => fst x =? id) l with
  | Some (i, c) => i = id /\ In (id, c) l
  | None => forall c, ~ In (id, c) l
  end.
Proof.
  intros l id _. destruct (find _ l) as [[i c]|] eqn:F.
  - apply find_some in F as [I E]. cbn in E. apply N.eqb_eq in E. subst. auto.
  - intros c I. apply (find_none _ _ F) in I. cbn in I. now rewrite N.eqb_refl in I.
Qed.
Lemma in_fun : forall (l : list (N * caller)) i a b, NoDup (map fst l) -> In (i, a) l -> In (i, b) l -> a = b.
Proof.
  induction l as [|[j c] l IH]; intros i a b ND A B; [easy|]. cbn in ND. inversion ND as [|? ? N ND']; subst. destruct A as [A|A], B as [B|B].
  - congruence.
  - injection A as -> ->. exfalso. apply N. apply (in_map fst) in B. exact B.
  - injection B as -> ->. exfalso. apply N. apply (in_map fst) in A. exact A.
  - now apply (IH i).
Qed.
Lemma without_map : forall (l : list (N * caller)) id,
  map fst (filter (fun x => negb (fst x =? id)) l) = filter (fun i => negb (i =? id)) (map fst l).
Proof. induction l as [|[i c] l IH]; intros id; [reflexivity|]. cbn. destruct (i =? id); cbn; now rewrite IH. Qed.
Lemma without_same : forall (l : list (N * caller)) id, ~ In id (map fst l) -> filter (fun x => negb (fst x =? id)) l = l.
Proof.
  induction l as [|[i c] l IH]; intros id N; [reflexivity|]. cbn in *. destruct (i =? id) eqn:E.
  - exfalso. apply N.eqb_eq in E. auto.
  - cbn. rewrite IH; auto.
Qed.
Lemma without_size : forall (l : list (N * caller)) id, NoDup (map fst l) -> In id (map fst l) ->
  size (filter (fun x => negb (fst x =? id)) l) + 1 = size l.
Proof.
  unfold size. induction l as [|[i c] l IH]; intros id ND I; [easy|]. cbn [map fst] in *. inversion ND; subst. cbn [filter fst].
  destruct (i =? id) eqn:E; cbn [negb].
  - apply N.eqb_eq in E. subst. rewrite without_same by assumption. cbn [List.length]. lia.
  - destruct I as [->|I]; [now rewrite N.eqb_refl in E|]. specialize (IH id H2 I). cbn [List.length] in *. lia.
Qed.
Lemma nodup_filter_r : forall (a b : list N) f, NoDup (a ++ b) -> NoDup (a ++ filter f b).
Proof.
  intros a b f H. induction a; cbn in *; [now apply NoDup_filter|]. inversion H; subst. constructor; [|auto].
  intros I. apply H2. apply in_app_iff in I as [I|I]; apply in_app_iff; [now left|]. apply filter_In in I as [I _]. now right.
Qed.
Lemma came_snoc : forall es x id, In id (flat_map coming es) -> In id (flat_map coming (es ++ [x])).
Proof. intros. rewrite flat_map_app. apply in_app_iff. now left. Qed.

(** Taking a request away *)
Lemma related_release : forall d max es s l x id, related d max es s l -> over x id ->
  forall P : state -> list entry -> Prop, True ->
  (serving max (es ++ [x]) = map fst (st_flying (release s id))) /\
  (st_permits (release s id) + size (st_flying (release s id)) = max) /\
  (forall i c, In (i, c) (st_flying (release s id)) <-> flies max (es ++ [x]) i c) /\
  st_answers (release s id) = st_answers s /\ st_counters (release s id) = st_counters s /\ st_bodies (release s id) = st_bodies s /\
  st_flying (release s id) = filter (fun y => negb (fst y =? id)) (st_flying s).
Proof.
  intros d max es s l x id R O _ _. destruct R as [SV PM FL CO ND CA AN CT].
  assert (NF : NoDup (map fst (st_flying s))) by (eapply nodup_app_r; exact ND).
  assert (U : forall i, over x i <-> i = id).
  { intros i. split; [|intros ->; exact O]. destruct O as [[r ->]| ->]; intros [[r' E]|E]; congruence. }
  assert (F : st_flying (release s id) = filter (fun y => negb (fst y =? id)) (st_flying s)).
  { unfold release. pose proof (find_flying (st_flying s) id NF) as H. destruct (find _ (st_flying s)) as [[i c]|]; [reflexivity|].
    symmetry. apply without_same. intros I. apply in_map_iff in I as ([j c] & <- & I). now apply H in I. }
  assert (Q : st_permits (release s id) + size (st_flying (release s id)) = max).
  { rewrite F. unfold release. pose proof (find_flying (st_flying s) id NF) as H. destruct (find _ (st_flying s)) as [[i c]|]; cbn [st_permits].
    - destruct H as [-> H]. rewrite <- PM. assert (I : In id (map fst (st_flying s))) by (apply (in_map fst) in H; exact H).
      pose proof (without_size _ _ NF I). lia.
    - rewrite without_same; [exact PM|]. intros I. apply in_map_iff in I as ([j c] & <- & I). now apply H in I. }
  repeat apply conj; [|exact Q| |..|exact F]; try (unfold release; destruct (find _ (st_flying s)); reflexivity).
  - rewrite F, without_map, serving_snoc, SV. destruct O as [[r ->]| ->]; reflexivity.
  - intros i c. rewrite F, filter_In, FL, flies_snoc, U. cbn [fst]. split.
    + intros [H N]. left. split; [exact H|]. intros ->. now rewrite N.eqb_refl in N.
    + intros [[H N]|[-> _]]; [|destruct O as [[? ?]|?]; discriminate]. split; [exact H|]. apply N.eqb_neq in N. now rewrite N.
Qed.

Lemma related_step : forall d max es s l x, related d max es s l -> once (es ++ [x]) ->
  exists l', related d max (es ++ [x]) (step d s x) l'.
Proof.
  intros d max es s l x R O. pose proof R as [SV PM FL CO ND CA AN CT]. apply once_snoc in O as [O NEW].
  assert (ZS : size (serving max es) = size (st_flying s)) by (rewrite SV; unfold size; now rewrite map_length).
  assert (NF : NoDup (map fst (st_flying s))) by (eapply nodup_app_r; exact ND).
  destruct x as [id c inner|id res|id|id].
  - specialize (NEW id c inner eq_refl).
    assert (NI : ~ In id (map fst l ++ map fst (st_flying s))) by (intros I; apply NEW, CA, I).
    assert (NO : forall i, ~ over (Arrive id c inner) i) by (intros i [[? ?]|?]; discriminate).
    assert (IN : In id (flat_map coming (es ++ [Arrive id c inner]))) by (rewrite flat_map_app; apply in_app_iff; right; now left).
    cbn [step].
    (* it is not taken *)
    assert (OUT : forall r e s', (serve max (serving max es) (Arrive id c inner) = serving max es) ->
      (inner = Ready -> ~ size (serving max es) < max) ->
      ((no_room max es inner /\ r = No_room) \/ (exists e, inner = Broken e /\ size (serving max es) < max /\ r = Broke e)) ->
      error_of r e ->
      st_permits s' = st_permits s -> st_flying s' = st_flying s -> st_answers s' = given d (id, (c, r)) :: st_answers s ->
      st_counters s' = monitor_error d c (wrap d c e) (st_counters s) ->
      exists l', related d max (es ++ [Arrive id c inner]) s' l').
    { intros r e s' SE NR HR EE P1 P2 P3 P4. exists ((id, (c, r)) :: l). constructor.
      - now rewrite serving_snoc, SE, P2.
      - now rewrite P1, P2.
      - intros i c'. rewrite P2, FL, flies_snoc. split; [intros H; left; split; [exact H|apply NO]|].
        intros [[H _]|[[= -> -> E] S]]; [exact H|]. now apply NR in E.
      - intros i c' r'. rewrite comes_snoc. cbn [In]. rewrite CO. split.
        + intros [[= <- <- <-]|H]; [|now left]. right. left. exists inner. auto.
        + intros [H|[(rd & [= -> -> ->] & H)|(res & E & _)]]; [now right| |discriminate]. left.
          assert (E : r = r'); [|now rewrite E].
          destruct HR as [[N1 ->]|(e1 & E1 & S1 & ->)], H as [[N2 ->]|(e2 & E2 & S2 & ->)]; try reflexivity.
          * subst. destruct N1 as [N1|N1]; [lia|discriminate].
          * subst. destruct N2 as [N2|N2]; [lia|discriminate].
          * congruence.
      - rewrite P2. cbn [map fst app]. constructor; [exact NI|exact ND].
      - rewrite P2. cbn [map fst app]. intros i [<-|I]; [exact IN|]. apply came_snoc, CA, I.
      - rewrite P3, AN. reflexivity.
      - intros k. rewrite P4. eapply monitor_counts; [apply CT| |reflexivity].
        destruct r as [|e'|[rsp|e']]; cbn in EE |- *; subst; try reflexivity. easy. }
    unfold poll_limit. destruct (st_permits s =? 0) eqn:Z.
    + apply N.eqb_eq in Z. assert (F : size (serving max es) = max) by lia. cbn [poll_shed].
      apply (OUT No_room LOAD_SHED); try reflexivity.
      * cbn. rewrite F, N.ltb_irrefl. now destruct inner.
      * intros _. lia.
      * left. split; [left; lia|reflexivity].
    + apply N.eqb_neq in Z. assert (F : size (serving max es) < max) by lia. destruct inner as [| |e]; cbn [poll_shed].
      * exists l. constructor; cbn [st_permits st_flying st_answers st_counters].
        -- rewrite serving_snoc. cbn. apply N.ltb_lt in F. rewrite F. now rewrite SV.
        -- unfold size in *. cbn [List.length]. lia.
        -- intros i c'. rewrite flies_snoc, <- FL. cbn [In]. split.
           ++ intros [[= <- <-]|I]; [right; auto|left; split; [exact I|apply NO]].
           ++ intros [[I _]|[[= <- <-] _]]; auto.
        -- intros i c' r'. rewrite comes_snoc, CO. split; [now left|]. intros [H|[(rd & [= -> -> <-] & H)|(res & E & _)]]; [exact H| |discriminate].
           destruct H as [[[N|N] _]|(e & E & _)]; [lia|discriminate|discriminate].
        -- cbn [map fst]. apply NoDup_Add with (a := id) (l := map fst l ++ map fst (st_flying s)); [apply Add_app|]. split; assumption.
        -- intros i I. cbn [map fst] in I. apply in_app_iff in I as [I|[<-|I]]; [|exact IN|]; apply came_snoc, CA, in_app_iff; auto.
        -- exact AN.
        -- exact CT.
      * apply (OUT No_room LOAD_SHED); try reflexivity; [discriminate|]. left. split; [now right|reflexivity].
      * apply (OUT (Broke e) e); try reflexivity; [discriminate|]. right. exists e. auto.
  - assert (OV : over (Finish id res) id) by (left; now exists res).
    destruct (related_release d max es s l _ id R OV (fun _ _ => True) I) as (R1 & R2 & R3 & R4 & R5 & R6 & R7).
    cbn [step]. pose proof (find_flying (st_flying s) id NF) as H. destruct (find _ (st_flying s)) as [[i c]|] eqn:FD.
    + destruct H as [-> H].
      assert (NL : ~ In id (map fst l)).
      { intros I. apply (in_map fst) in H. cbn in H. clear - ND I H. induction (map fst l) as [|a m IH]; [easy|]. cbn in ND. inversion ND; subst.
        destruct I as [->|I]; [|now apply IH]. apply H2. apply in_app_iff. now right. }
      assert (E2 : exists l', related d max (es ++ [Finish id res])
        (State (st_permits (release s id)) (st_flying (release s id)) (st_bodies (release s id))
          match res with inr e => monitor_error d c (wrap d c e) (st_counters (release s id)) | inl _ => st_counters (release s id) end
          (given d (id, (c, Gave res)) :: st_answers (release s id))) l').
      { exists ((id, (c, Gave res)) :: l). constructor; cbn [st_permits st_flying st_answers st_counters]; try assumption.
        - intros i c' r'. rewrite comes_snoc. cbn [In]. rewrite CO. split.
          + intros [[= <- <- <-]|I]; [|now left]. right. right. exists res. split; [reflexivity|]. split; [now apply FL|reflexivity].
          + intros [I|[(rd & E & _)|(res' & [= <- <-] & F & ->)]]; [now right|discriminate|]. left. apply FL in F. f_equal. f_equal.
            now apply (in_fun (st_flying s) id).
        - cbn [map fst app]. constructor.
          + intros I. apply in_app_iff in I as [I|I]; [now apply NL|]. rewrite R7, without_map in I. apply filter_In in I as [_ I].
            now rewrite N.eqb_refl in I.
          + rewrite R7, without_map. now apply nodup_filter_r.
        - cbn [map fst app]. intros i [<-|I]; [apply came_snoc, CA, in_app_iff; right; apply (in_map fst) in H; exact H|].
          apply came_snoc, CA. rewrite R7, without_map in I. apply in_app_iff in I as [I|I]; apply in_app_iff; [now left|].
          apply filter_In in I as [I _]. now right.
        - now rewrite R4, AN.
        - intros k. rewrite R5. destruct res as [rsp|e].
          + cbn [filter counted]. apply CT.
          + apply (monitor_counts d c e k _ (id, (c, Gave (inr e))) l id (Gave (inr e)) (CT k) eq_refl eq_refl). }
      destruct E2 as (l' & E2). exists l'. destruct res as [rsp|e]; cbn [st_permits st_flying st_bodies st_counters st_answers] in *; [|exact E2].
      destruct E2. constructor; assumption.
    + exists l. assert (NS : release s id = s) by (unfold release; now rewrite FD). rewrite NS in *. constructor; try assumption.
      * intros i c' r'. rewrite comes_snoc, CO. split; [now left|]. intros [I|[(rd & E & _)|(res' & [= <- <-] & F & _)]]; [exact I|discriminate|].
        apply FL in F. now apply H in F.
      * intros i I. apply came_snoc, CA, I.
  - assert (OV : over (Gone id) id) by (now right).
    destruct (related_release d max es s l _ id R OV (fun _ _ => True) I) as (R1 & R2 & R3 & R4 & R5 & R6 & R7).
    cbn [step]. exists l. constructor; cbn [st_permits st_flying st_answers st_counters]; try assumption.
    + intros i c' r'. rewrite comes_snoc, CO. split; [now left|]. intros [I|[(rd & E & _)|(res' & E & _)]]; [exact I|discriminate|discriminate].
    + rewrite R7, without_map. now apply nodup_filter_r.
    + intros i I. apply came_snoc, CA. rewrite R7, without_map in I. apply in_app_iff in I as [I|I]; apply in_app_iff; [now left|].
      apply filter_In in I as [I _]. now right.
    + now rewrite R4.
    + now rewrite R5.
  - assert (NO : forall i, ~ over (Body_end id) i) by (intros i [[? ?]|?]; discriminate).
    exists l. cbn [step]. constructor; cbn [st_permits st_flying st_answers st_counters]; try assumption.
    + rewrite serving_snoc. exact SV.
    + intros i c. rewrite FL, flies_snoc. split; [intros H; left; split; [exact H|apply NO]|]. intros [[H _]|[E _]]; [exact H|discriminate].
    + intros i c' r'. rewrite comes_snoc, CO. split; [now left|]. intros [I|[(rd & E & _)|(res' & E & _)]]; [exact I|discriminate|discriminate].
    + intros i I. apply came_snoc, CA, I.
Qed.
Lemma comes_nil : forall max id c r, ~ comes_to max [] id c r.
Proof. intros max id c r H. remember [] as es. destruct H as [b|b|b]; destruct b; discriminate. Qed.
Lemma related_run : forall d max es, once es -> exists l, related d max es (run d max es) l.
Proof.
  intros d max es. induction es as [|x es IH] using rev_ind; intros O.
  - exists []. constructor; cbn; try reflexivity.
    + unfold size. cbn. lia.
    + intros id c. split; [easy|]. intros (b & m & E & _). destruct b; discriminate.
    + intros id c r. split; [easy|]. apply comes_nil.
    + constructor.
    + easy.
  - pose proof (once_snoc _ _ O) as [O' _]. destruct (IH O') as (l & R). rewrite run_snoc. eapply related_step; eassumption.
Qed.

(** ** The theorems *)
Lemma at_most : forall d max es, once es ->
  size (serving max es) <= max /\ map fst (st_flying (run d max es)) = serving max es /\ st_permits (run d max es) + size (serving max es) = max.
Proof.
  intros d max es O. destruct (related_run d max es O) as (l & [SV PM _ _ _ _ _ _]). rewrite SV. unfold size in *. rewrite map_length. repeat split; lia.
Qed.
Lemma one_answer : forall d max es id a, once es ->
  (In (id, a) (st_answers (run d max es)) <-> exists c r, comes_to max es id c r /\ answer d c r a).
Proof.
  intros d max es id a O. destruct (related_run d max es O) as (l & [_ _ _ CO _ _ AN _]). rewrite AN, in_map_iff. split.
  - intros ([i [c r]] & [= -> <-] & I). exists c, r. split; [now apply CO|].
    destruct r as [|e|[rsp|e]]; cbn; [exists LOAD_SHED; split; [reflexivity|]| | |]; destruct d; reflexivity.
  - intros (c & r & H & A). exists (id, (c, r)). split; [|now apply CO]. cbn. f_equal.
    destruct r as [|e|[rsp|e]]; cbn in A; [destruct A as (e & -> & ->)|subst a..]; destruct d; reflexivity.
Qed.
Lemma once_answered : forall d max es, once es -> NoDup (map fst (st_answers (run d max es))).
Proof.
  intros d max es O. destruct (related_run d max es O) as (l & [_ _ _ _ ND _ AN _]). rewrite AN, map_map.
  apply nodup_app_l in ND. erewrite map_ext; [exact ND|]. now intros [i [c r]].
Qed.
Lemma counted_iff : forall d k id c r, counted d k (id, (c, r)) = true <->
  exists e, error_of r e /\ labels d c = fst k /\ counts_as d e (Some (snd k)).
Proof.
  intros d [b j] id c r. cbn [fst snd].
  assert (F : forall e, match kind_of d e with Some j0 => key_eqb (labels d c, j0) (b, j) | None => false end = true <->
    labels d c = b /\ counts_as d e (Some j)).
  { intros e. rewrite <- kind_of_iff. destruct (kind_of d e) as [j0|].
    - rewrite key_eqb_iff. split; [intros [= -> ->]; auto|intros [-> [= ->]]; reflexivity].
    - split; [discriminate|intros [_ E]; discriminate]. }
  unfold counted. destruct r as [|e|[rsp|e]]; cbn [error_of].
  - rewrite F. split; [intros H; now exists LOAD_SHED|intros (e & -> & H); exact H].
  - rewrite F. split; [intros H; now exists e|intros (e' & -> & H); exact H].
  - split; [discriminate|intros (e & [] & _)].
  - rewrite F. split; [intros H; now exists e|intros (e' & -> & H); exact H].
Qed.
Lemma counters_many : forall d max es b k, once es ->
  PromSpec.how_many (fun id => exists c r e, comes_to max es id c r /\ error_of r e /\ labels d c = b /\ counts_as d e (Some k))
    (counter (b, k) (run d max es)).
Proof.
  intros d max es b k O. destruct (related_run d max es O) as (l & [_ _ _ CO ND _ _ CT]).
  exists (map fst (filter (counted d (b, k)) l)). apply nodup_app_l in ND. split; [|split].
  - clear - ND. induction l as [|[i x] l IH]; [constructor|]. cbn [map fst] in ND. inversion ND; subst. cbn [filter].
    destruct (counted d (b, k) (i, x)); [|auto]. cbn [map fst]. constructor; [|auto].
    intros I. apply H1. apply in_map_iff in I as (y & <- & I). apply filter_In in I as [I _]. now apply in_map.
  - intros id. rewrite in_map_iff. split.
    + intros ([i [c r]] & <- & I). apply filter_In in I as [I C]. apply counted_iff in C as (e & E & L & K). exists c, r, e. cbn [fst snd] in *.
      split; [now apply CO|]. auto.
    + intros (c & r & e & H & E & L & K). exists (id, (c, r)). split; [reflexivity|]. apply filter_In. split; [now apply CO|].
      apply counted_iff. exists e. auto.
  - unfold counter. rewrite CT, map_length. reflexivity.
Qed.
Lemma fate : forall max es id, In id (flat_map coming es) ->
  (exists c, flies max es id c) \/ (exists c r, comes_to max es id c r) \/ In (Gone id) es.
Proof.
  intros max es. induction es as [|x es IH] using rev_ind; intros id I; [easy|].
  rewrite flat_map_app in I. apply in_app_iff in I as [I|I].
  - destruct (IH id I) as [(c & F)|[(c & r & F)|G]].
    + destruct x as [j c' rd|j res|j|j].
      * left. exists c. apply flies_snoc. left. split; [exact F|]. intros [[? ?]|?]; discriminate.
      * destruct (N.eq_dec j id) as [->|N].
        -- right. left. exists c, (Gave res). apply comes_snoc. right. right. exists res. auto.
        -- left. exists c. apply flies_snoc. left. split; [exact F|]. intros [[r E]|E]; congruence.
      * destruct (N.eq_dec j id) as [->|N].
        -- right. right. apply in_app_iff. right. now left.
        -- left. exists c. apply flies_snoc. left. split; [exact F|]. intros [[r E]|E]; congruence.
      * left. exists c. apply flies_snoc. left. split; [exact F|]. intros [[? ?]|?]; discriminate.
    + right. left. exists c, r. apply comes_snoc. now left.
    + right. right. apply in_app_iff. now left.
  - cbn in I. rewrite app_nil_r in I. destruct x as [j c rd|j res|j|j]; try easy. destruct I as [->|[]].
    destruct (N.lt_ge_cases (size (serving max es)) max) as [L|G].
    + destruct rd as [| |e].
      * left. exists c. apply flies_snoc. right. auto.
      * right. left. exists c, No_room. apply comes_snoc. right. left. exists Pending. split; [reflexivity|]. left. split; [now right|reflexivity].
      * right. left. exists c, (Broke e). apply comes_snoc. right. left. exists (Broken e). split; [reflexivity|]. right. exists e. auto.
    + right. left. exists c, No_room. apply comes_snoc. right. left. exists rd. split; [reflexivity|]. left. split; [now left|reflexivity].
Qed.
Lemma settled : forall d max es id, once es -> In id (flat_map coming es) ->
  In id (serving max es) \/ (exists a, In (id, a) (st_answers (run d max es))) \/ In (Gone id) es.
Proof.
  intros d max es id O I. destruct (related_run d max es O) as (l & [SV _ FL CO _ _ AN _]).
  destruct (fate max es id I) as [(c & F)|[(c & r & F)|G]].
  - left. apply FL in F. rewrite SV. apply (in_map fst) in F. exact F.
  - right. left. apply CO in F. exists (snd (given d (id, (c, r)))). rewrite AN. apply in_map_iff. exists (id, (c, r)). auto.
  - auto.
Qed.

(** ** Requests that there is no room for *)
Lemma shed_decided : forall d c e, error_of No_room e ->
  decided (match d with Inbound => inbound_rules | Outbound => outbound_rules end) (told d c e)
    (Answers (Answer 503 14 true (match d with Inbound => c_text c | Outbound => [] end ++ bs "service unavailable"%string) None)).
Proof.
  intros d c e ->. destruct d; cbn [told RespondModel.to_string].
  - exists 9%nat. eexists. exists [(RespondModel.Other, c_text c ++ bs "service unavailable"%string)], RespondModel.Load_shed, (bs "service unavailable"%string), [].
    split; [reflexivity|]. split; [reflexivity|]. split; [reflexivity|]. split.
    + intros k t [[= <- <-]|[]]. reflexivity.
    + intros j r k t J N I. do 9 (destruct j as [|j]; [injection N as <-; destruct I as [[= <- <-]|[[= <- <-]|[]]]; reflexivity|]). lia.
  - exists 1%nat. eexists. exists [], RespondModel.Load_shed, (bs "service unavailable"%string), [].
    split; [reflexivity|]. split; [reflexivity|]. split; [reflexivity|]. split.
    + intros k t [].
    + intros j r k t J N I. destruct j as [|j]; [injection N as <-; destruct I as [[= <- <-]|[]]; reflexivity|]. lia.
Qed.
Lemma shed_answer : forall d max es id c emit client q, once es -> comes_to max es id c No_room -> c_responder c = new_respond emit client q ->
  exists rsp a, In (id, Synthesized rsp client) (st_answers (run d max es)) /\
    a = Answer 503 14 true (match d with Inbound => c_text c | Outbound => [] end ++ bs "service unavailable"%string) None /\
    (grpc_request q -> grpc_answer emit a rsp) /\
    (~ grpc_request q -> exists mention, mentions q mention /\ http_answer emit mention (q_version q) a rsp).
Proof.
  intros d max es id c emit client q O H Q. set (e := [(RespondModel.Load_shed, bs "service unavailable"%string)]).
  pose proof (shed_decided d c e eq_refl) as D.
  destruct (answered (answers d) (match d with Inbound => inbound_rules | Outbound => outbound_rules end) (told d c e) _ emit client q
              ltac:(destruct d; constructor) ltac:(destruct d; discriminate) D ltac:(discriminate)) as (rsp & R & G).
  exists rsp. eexists. split; [|split; [reflexivity|exact G]]. apply one_answer; [exact O|]. exists c, No_room. split; [exact H|].
  exists e. split; [reflexivity|]. rewrite Q. symmetry. exact R.
Qed.

(** ** Bodies *)
Fixpoint one_by_one (c : caller) (rsp : response) (n : nat) : list event :=
  match n with
  | O => []
  | S n => one_by_one c rsp n ++ [Arrive (N.of_nat n) c Ready; Finish (N.of_nat n) (inl rsp)]
  end.
Lemma one_by_one_coming : forall c rsp n, flat_map coming (one_by_one c rsp n) = map N.of_nat (seq 0 n).
Proof.
  intros c rsp n. induction n as [|n IH]; [reflexivity|]. rewrite seq_S, map_app, <- IH. cbn [one_by_one]. rewrite flat_map_app. reflexivity.
Qed.
Lemma one_by_one_once : forall c rsp n, once (one_by_one c rsp n).
Proof.
  intros. unfold once. rewrite one_by_one_coming. apply FinFun.Injective_map_NoDup; [intros a b; apply Nat2N.inj|apply seq_NoDup].
Qed.
Lemma one_by_one_bodies : forall d max c rsp n, 0 < max ->
  st_permits (run d max (one_by_one c rsp n)) = max /\ st_flying (run d max (one_by_one c rsp n)) = [] /\
  List.length (st_bodies (run d max (one_by_one c rsp n))) = n.
Proof.
  intros d max c rsp n M. induction n as [|n (P & F & B)]; [repeat split|]. cbn [one_by_one].
  change [Arrive (N.of_nat n) c Ready; Finish (N.of_nat n) (inl rsp)] with ([Arrive (N.of_nat n) c Ready] ++ [Finish (N.of_nat n) (inl rsp)]).
  rewrite app_assoc, !run_snoc. cbn [step]. unfold poll_limit. rewrite P. destruct (max =? 0) eqn:Z; [apply N.eqb_eq in Z; lia|].
  cbn [poll_shed st_flying find fst]. rewrite N.eqb_refl. unfold release. cbn [st_flying find fst]. rewrite N.eqb_refl.
  cbn [st_permits st_flying st_bodies filter fst]. rewrite N.eqb_refl, F. cbn [negb filter List.length]. rewrite B. repeat split. lia.
Qed.
