From Coq Require Import List NArith Bool Lia PeanoNat.
From Verif Require Import Bytes ReplayModel ReplaySpec.
Import ListNotations.
Open Scope N_scope.

(** ** Lists *)
Lemma len_app' (a b : bytes) : len (a ++ b) = len a + len b.
Proof. unfold len. rewrite app_length. lia. Qed.
Lemma len_zero (a : bytes) : len a = 0 <-> a = [].
Proof. unfold len. destruct a; cbn [length]; split; intros; try reflexivity; try discriminate; lia. Qed.

Lemma data_of_app i t u : data_of i (t ++ u) = data_of i t ++ data_of i u.
Proof.
  induction t as [|[j p] t IH]; [reflexivity|]. cbn [app data_of]. destruct p; try exact IH.
  destruct (Nat.eqb i j); rewrite IH; [apply app_assoc|reflexivity].
Qed.
Lemma trailers_of_app i t u : trailers_of i (t ++ u) = trailers_of i t ++ trailers_of i u.
Proof.
  induction t as [|[j p] t IH]; [reflexivity|]. cbn [app trailers_of]. destruct p; try exact IH.
  destruct (Nat.eqb i j); rewrite IH; reflexivity.
Qed.
Lemma untouched_data i t : untouched i t -> data_of i t = [].
Proof.
  induction t as [|[j p] t IH]; intros H; [reflexivity|].
  assert (Ht : untouched i t) by (intros q Hq; apply (H q); now right).
  cbn [data_of]. destruct p; auto. destruct (Nat.eqb i j) eqn:E; auto.
  apply Nat.eqb_eq in E. subst j. exfalso. apply (H (PData b)). now left.
Qed.
Lemma untouched_trailers i t : untouched i t -> trailers_of i t = [].
Proof.
  induction t as [|[j p] t IH]; intros H; [reflexivity|].
  assert (Ht : untouched i t) by (intros q Hq; apply (H q); now right).
  cbn [trailers_of]. destruct p; auto. destruct (Nat.eqb i j) eqn:E; auto.
  apply Nat.eqb_eq in E. subst j. exfalso. eapply (H (PTrailers _)). now left.
Qed.
Lemma untouched_snoc i t j p : i <> j -> untouched i t -> untouched i (t ++ [(j, p)]).
Proof.
  intros Hij H q Hq. apply in_app_iff in Hq. destruct Hq as [Hq|[Hq|[]]]; [now apply (H q)|congruence].
Qed.

Lemma nth_set_same {A} (l : list A) i x y : nth_error l i = Some y -> nth_error (set_nth l i x) i = Some x.
Proof. revert i. induction l as [|z l IH]; intros [|i] H; cbn in *; try discriminate; auto. Qed.
Lemma nth_set_other {A} (l : list A) i j x : i <> j -> nth_error (set_nth l i x) j = nth_error l j.
Proof. revert i j. induction l as [|z l IH]; intros [|i] [|j] H; cbn; auto; congruence. Qed.
Lemma length_set {A} (l : list A) i x : length (set_nth l i x) = length l.
Proof. revert i. induction l as [|z l IH]; intros [|i]; cbn; auto. Qed.
Lemma nth_set {A} (l : list A) i j x y : nth_error (set_nth l i x) j = Some y ->
  (i = j /\ y = x) \/ (i <> j /\ nth_error l j = Some y).
Proof.
  intros H. destruct (Nat.eq_dec i j) as [<-|Hne].
  - left. split; [reflexivity|]. destruct (nth_error l i) eqn:E.
    + rewrite (nth_set_same _ _ _ _ E) in H. congruence.
    + apply nth_error_None in E. rewrite <- (length_set l i x) in E. apply nth_error_None in E. congruence.
  - right. split; [exact Hne|]. now rewrite nth_set_other in H.
Qed.

(** ** The run as a sequence of steps at the end *)
Lemma run_app w a b : run w (a ++ b) =
  let '(w1, t1) := run w a in let '(w2, t2) := run w1 b in (w2, t1 ++ t2).
Proof.
  revert w. induction a as [|o a IH]; intros w; cbn [app run].
  - destruct (run w b). reflexivity.
  - destruct (step w o) as [w1 t1]. rewrite IH. destruct (run w1 a) as [w2 t2]. destruct (run w2 b). now rewrite app_assoc.
Qed.

Section B.
Variable b : body.
Variable limit : N.

(** [D] is the data read from the initial body so far. *)
Definition st_ok (D : bytes) (s : bstate) : Prop :=
  st_max s = limit + 1 - len D /\
  (st_max s <> 0 -> concat (st_replay s) = D) /\
  (st_max s = 0 -> concat (st_replay s) = []) /\
  match st_trailers s with
  | None => body_data b = D ++ body_data (st_rest s) /\ body_trailers b = body_trailers (st_rest s) /\
            (st_completed s = true -> st_rest s = [])
  | Some t => body_data b = D /\ body_trailers b = Some t /\ st_completed s = true
  end.

Lemma init_ok : st_ok [] (init_state b limit).
Proof.
  unfold st_ok, init_state. cbn [st_max st_replay st_trailers st_rest st_completed concat app len length].
  repeat split; try lia; try discriminate. cbn. lia.
Qed.

Lemma has_remaining_true l : has_remaining l = true <-> concat l <> [].
Proof. unfold has_remaining, total. rewrite negb_true_iff, N.eqb_neq, len_zero. reflexivity. Qed.
Lemma has_remaining_false l : has_remaining l = false <-> concat l = [].
Proof. unfold has_remaining, total. rewrite negb_false_iff, N.eqb_eq. apply len_zero. Qed.

Lemma record_ok D s d r : st_ok D s -> st_trailers s = None -> st_completed s = false -> st_rest s = IData d :: r ->
  st_ok (D ++ d) (record_bytes (set_rest s r) d).
Proof.
  intros (Hm & Hr & Hc & Ht) Et Ec Er. rewrite Et, Er in Ht. destruct Ht as (Ht1 & Ht2 & _).
  unfold record_bytes, set_rest. cbn [st_max st_replay st_trailers st_rest st_completed].
  destruct (st_max s - len d =? 0) eqn:E.
  - apply N.eqb_eq in E. unfold st_ok. cbn [st_max st_replay st_trailers st_rest st_completed]. rewrite E, Et, Ec.
    split; [rewrite len_app'; lia|]. split; [lia|]. split.
    + intros _. destruct (has_remaining (st_replay s)) eqn:Eh; [reflexivity|]. now apply has_remaining_false.
    + cbn [body_data body_trailers] in Ht1, Ht2. rewrite <- app_assoc. repeat split; auto. discriminate.
  - apply N.eqb_neq in E. unfold st_ok. cbn [st_max st_replay st_trailers st_rest st_completed]. rewrite Et, Ec.
    split; [rewrite len_app'; lia|]. split; [|split; [lia|]].
    + intros _. rewrite concat_app. cbn [concat]. rewrite app_nil_r. rewrite Hr by lia. reflexivity.
    + cbn [body_data body_trailers] in Ht1, Ht2. rewrite <- app_assoc. repeat split; auto. discriminate.
Qed.

(** What a poll can do, in terms of the data read so far. *)
Inductive poll_case (D : bytes) (s : bstate) (rb rt : bool) : bytes -> bstate -> bool -> bool -> poll -> Prop :=
| pc_replay : rb = true -> D <> [] -> st_max s <> 0 -> poll_case D s rb rt D s false rt (PData D)
| pc_capped : rb = true -> st_max s = 0 -> poll_case D s rb rt D s rb rt PCapped
| pc_trailers t : (rb = false \/ (D = [] /\ st_max s <> 0)) -> rt = true -> st_trailers s = Some t ->
    poll_case D s rb rt D s rb false (PTrailers t)
| pc_completed : (rb = false \/ (D = [] /\ st_max s <> 0)) -> (rt = false \/ st_trailers s = None) ->
    st_completed s = true -> poll_case D s rb rt D s rb false PEnd
| pc_end s' : (rb = false \/ (D = [] /\ st_max s <> 0)) -> st_completed s = false -> st_trailers s = None ->
    st_completed s' = true -> st_trailers s' = None -> st_rest s = [] -> poll_case D s rb rt D s' rb false PEnd
| pc_data s' d : (rb = false \/ (D = [] /\ st_max s <> 0)) -> st_completed s = false -> st_trailers s = None ->
    st_trailers s' = None -> st_completed s' = false -> poll_case D s rb rt (D ++ d) s' rb false (PData d)
| pc_new_trailers s' t : (rb = false \/ (D = [] /\ st_max s <> 0)) -> st_completed s = false -> st_trailers s = None ->
    st_trailers s' = Some t -> poll_case D s rb rt D s' rb false (PTrailers t)
| pc_other s' p : (rb = false \/ (D = [] /\ st_max s <> 0)) -> st_completed s = false -> st_trailers s = None ->
    st_trailers s' = None -> st_completed s' = false -> (p = Pend \/ exists e, p = PErr e) ->
    poll_case D s rb rt D s' rb false p.

Lemma poll_state_ok D s rb rt s' rb' rt' p :
  st_ok D s -> poll_state s rb rt = (s', rb', rt', p) ->
  exists D', st_ok D' s' /\ poll_case D s rb rt D' s' rb' rt' p /\
    (length (st_rest s') <= length (st_rest s))%nat.
Proof.
  intros Hok H. pose proof Hok as (Hm & Hr & Hc & Ht).
  unfold poll_state in H.
  destruct (rb && has_remaining (st_replay s)) eqn:E1.
  { apply andb_true_iff in E1. destruct E1 as [-> E1]. injection H as <- <- <- <-.
    apply has_remaining_true in E1. exists D. split; [exact Hok|].
    assert (Hm0 : st_max s <> 0) by (intros H0; apply E1; auto).
    rewrite Hr by exact Hm0. rewrite Hr in E1 by exact Hm0. split; [now apply pc_replay|lia]. }
  destruct (rb && st_capped s) eqn:E2.
  { apply andb_true_iff in E2. destruct E2 as [-> E2]. injection H as <- <- <- <-.
    exists D. split; [exact Hok|]. split; [|lia]. apply pc_capped; [reflexivity|]. now apply N.eqb_eq in E2. }
  assert (Hrb : rb = false \/ (D = [] /\ st_max s <> 0)).
  { destruct rb; [right|now left]. cbn [andb] in E1, E2. apply has_remaining_false in E1.
    unfold st_capped in E2. apply N.eqb_neq in E2. split; [now rewrite <- (Hr E2)|exact E2]. }
  clear E1 E2.
  destruct rt; [destruct (st_trailers s) as [t|] eqn:Et|].
  { injection H as <- <- <- <-. exists D. split; [exact Hok|]. split; [|lia]. now apply pc_trailers. }
  all: destruct (st_completed s) eqn:Ec;
    [injection H as <- <- <- <-; exists D; split; [exact Hok|]; split; [apply pc_completed; auto|lia]|].
  2: destruct (st_trailers s) as [t|] eqn:Et; [destruct Ht as (_ & _ & Ht); discriminate|].
  all: destruct (poll_rest s) as [s1 p1] eqn:Ep; injection H as <- <- <- <-;
    destruct Ht as (Ht1 & Ht2 & _); unfold poll_rest in Ep;
    destruct (st_rest s) as [|[|d|t|e] r] eqn:Er; injection Ep as <- <-.
  all: try match goal with |- context [record_bytes (set_rest _ _) ?d] =>
      eexists (_ ++ d); split; [apply record_ok; eauto|]; split;
      [apply pc_data; auto; unfold record_bytes, set_rest; destruct (_ =? 0); cbn [st_trailers st_completed]; auto
      |unfold record_bytes, set_rest; destruct (_ =? 0); cbn [st_rest length]; lia] end.
  all: exists D; unfold set_done, set_rest; cbn [st_trailers st_completed st_rest length].
  all: split; [unfold st_ok; cbn [st_max st_replay st_trailers st_rest st_completed body_data body_trailers] in *;
     rewrite ?Et, ?Ec, ?Er, ?app_nil_r in *; cbn [body_data body_trailers]; rewrite ?app_nil_r; repeat split; auto; try discriminate; try congruence|].
  all: split; [|rewrite ?Er; cbn [length]; lia].
  all: first [ eapply pc_end; now auto | eapply pc_new_trailers; now eauto
             | eapply pc_other; cbn [st_trailers st_completed]; eauto ].
Qed.

Lemma poll_case_prefix D s rb rt D' s' rb' rt' p : poll_case D s rb rt D' s' rb' rt' p -> exists d, D' = D ++ d.
Proof. intros []; try (exists []; now rewrite app_nil_r). now exists d. Qed.

(** ** What a handle that owns the state has been given *)
Definition olist (o : option hmap) : list hmap := match o with Some t => [t] | None => [] end.

Definition faithful (D : bytes) (s : bstate) (rb rt : bool) (i : nat) (T : list event) : Prop :=
  data_of i T = D /\ (rb = false \/ body_data b = []) /\
  (if rt then trailers_of i T = [] /\ ~ ended i T
   else trailers_of i T = olist (st_trailers s) /\ (ended i T -> st_completed s = true)).
Definition refused (s : bstate) (rb : bool) (i : nat) (T : list event) : Prop :=
  rb = true /\ st_max s = 0 /\ data_of i T = [] /\ trailers_of i T = [] /\ ~ ended i T.

Definition public (i : nat) (T : list event) : Prop :=
  (exists r, body_data b = data_of i T ++ r) /\
  (ended i T -> data_of i T = body_data b /\ trailers_of i T = olist (body_trailers b)) /\
  (trailers_of i T = [] \/ (trailers_of i T = olist (body_trailers b) /\ data_of i T = body_data b)).

Lemma faithful_public D s rb rt i T : st_ok D s -> faithful D s rb rt i T -> public i T.
Proof.
  intros (Hm & Hr & Hc & Ht) (Hd & _ & Hrt). unfold public. rewrite Hd.
  destruct rt.
  - destruct Hrt as [-> Hne]. repeat split; try contradiction; [|now left].
    destruct (st_trailers s); destruct Ht as (-> & _); [exists []; now rewrite app_nil_r|eexists; reflexivity].
  - destruct Hrt as [Htr He]. destruct (st_trailers s) as [t|].
    + destruct Ht as (Hb & Hbt & _). rewrite Htr, Hb, Hbt. repeat split; [exists []; now rewrite app_nil_r|now right].
    + destruct Ht as (Hb & Hbt & Hcr). split; [eexists; exact Hb|]. rewrite Htr. split; [|now left].
      intros H. apply He in H. rewrite (Hcr H) in Hb, Hbt. cbn in Hb, Hbt. rewrite app_nil_r in Hb. now rewrite Hb, Hbt.
Qed.
Lemma refused_public s rb i T : refused s rb i T -> public i T.
Proof.
  intros (_ & _ & Hd & Ht & He). unfold public. rewrite Hd, Ht. split; [eexists; reflexivity|].
  split; [contradiction|now left].
Qed.
Lemma untouched_public i T : untouched i T -> public i T.
Proof.
  intros H. unfold public. rewrite (untouched_data i T H), (untouched_trailers i T H).
  split; [eexists; reflexivity|]. split; [intros He; now apply H in He|now left].
Qed.

Lemma ended_snoc i T p : ended i (T ++ [(i, p)]) <-> ended i T \/ p = PEnd.
Proof.
  unfold ended. rewrite in_app_iff. cbn [In]. split.
  - intros [H|[H|[]]]; [now left|right; congruence].
  - intros [H| ->]; [now left|right; now left].
Qed.
Lemma data_snoc i T p : data_of i (T ++ [(i, p)]) = data_of i T ++ (match p with PData d => d | _ => [] end).
Proof. rewrite data_of_app. cbn [data_of]. rewrite Nat.eqb_refl. destruct p; try reflexivity. now rewrite app_nil_r. Qed.
Lemma trailers_snoc i T p :
  trailers_of i (T ++ [(i, p)]) = trailers_of i T ++ (match p with PTrailers d => [d] | _ => [] end).
Proof. rewrite trailers_of_app. cbn [trailers_of]. rewrite Nat.eqb_refl. destruct p; reflexivity. Qed.

(** A poll by the owner. *)
Lemma faithful_step D s rb rt D' s' rb' rt' p i T :
  st_ok D s -> st_ok D' s' -> poll_case D s rb rt D' s' rb' rt' p ->
  faithful D s rb rt i T -> faithful D' s' rb' rt' i (T ++ [(i, p)]).
Proof.
  intros Hok Hok' Hp (Hd & Hrb & Hrt).
  assert (Hempty : body_data b = [] -> D = [] /\ st_max s <> 0).
  { intros Hb. destruct Hok as (Hm & _ & _ & Ht). assert (D = []) as ->.
    { destruct (st_trailers s); destruct Ht as (Ht & _); rewrite Hb in Ht; [now symmetry|].
      symmetry in Ht. now apply app_eq_nil in Ht. }
    split; [reflexivity|]. rewrite Hm. unfold len. cbn [length N.of_nat]. lia. }
  unfold faithful.
  destruct Hp as [H1 H2 H3|H1 H2|t H1 H2 H3|H1 H2 H3|s' H1 H2 H3 H4 H5 H6|s' d H1 H2 H3 H4 H5|s' t H1 H2 H3 H4|s' p H1 H2 H3 H4 H5 H6].
  - exfalso. destruct Hrb as [Hrb|Hrb]; [congruence|]. apply Hempty in Hrb. tauto.
  - exfalso. destruct Hrb as [Hrb|Hrb]; [congruence|]. apply Hempty in Hrb. tauto.
  - rewrite data_snoc, trailers_snoc, ended_snoc, Hd. subst rt. rewrite H3. destruct Hrt as [-> Hn]. rewrite app_nil_r. repeat split; auto.
    intros [H|H]; [contradiction|discriminate].
  - rewrite data_snoc, trailers_snoc, ended_snoc, Hd. rewrite !app_nil_r. split; [reflexivity|]. split; [exact Hrb|]. split; [|auto].
    destruct rt; [|tauto]. destruct H2 as [H2|H2]; [discriminate|]. rewrite H2. apply Hrt.
  - rewrite data_snoc, trailers_snoc, ended_snoc, Hd. rewrite !app_nil_r. split; [reflexivity|]. split; [exact Hrb|]. split; [|auto].
    rewrite H5. destruct rt; [apply Hrt|]. rewrite H3 in Hrt. apply Hrt.
  - rewrite data_snoc, trailers_snoc, ended_snoc, Hd. split; [reflexivity|]. split; [exact Hrb|]. rewrite app_nil_r, H4. split.
    + destruct rt; [apply Hrt|]. rewrite H3 in Hrt. apply Hrt.
    + intros [H|H]; [|discriminate]. destruct rt; [now apply Hrt in H|]. apply Hrt in H. congruence.
  - rewrite data_snoc, trailers_snoc, ended_snoc, Hd. rewrite app_nil_r. split; [reflexivity|]. split; [exact Hrb|]. rewrite H4. split.
    + destruct rt; [destruct Hrt as [-> _]; reflexivity|]. rewrite H3 in Hrt. destruct Hrt as [-> _]. reflexivity.
    + intros _. destruct Hok' as (_ & _ & _ & Ht). rewrite H4 in Ht. apply Ht.
  - rewrite data_snoc, trailers_snoc, ended_snoc, Hd. assert (E : (match p with PData d => d | _ => [] end) = [] /\ (match p with PTrailers d => [d] | _ => [] end) = [] /\ p <> PEnd)
      by (destruct H6 as [->|[e ->]]; repeat split; discriminate).
    destruct E as (-> & -> & Hpe). rewrite !app_nil_r. split; [reflexivity|]. split; [exact Hrb|]. rewrite H4. split.
    + destruct rt; [apply Hrt|]. rewrite H3 in Hrt. apply Hrt.
    + intros [H|H]; [|contradiction]. destruct rt; [now apply Hrt in H|]. apply Hrt in H. congruence.
Qed.

Lemma refused_step D s rb rt D' s' rb' rt' p i T :
  poll_case D s rb rt D' s' rb' rt' p -> refused s rb i T ->
  p = PCapped /\ refused s' rb' i (T ++ [(i, p)]).
Proof.
  intros Hp (-> & Hm & Hd & Ht & He).
  assert (Hx : ~ (true = false \/ D = [] /\ st_max s <> 0)) by (intros [?|[_ ?]]; [discriminate|contradiction]).
  destruct Hp; try contradiction. split; [reflexivity|]. unfold refused. rewrite data_snoc, trailers_snoc, ended_snoc, Hd, Ht.
  repeat split; auto. intros [?|?]; [contradiction|discriminate].
Qed.

(** The first poll of a clone. *)
Lemma first_poll D s D' s' rb' rt' p i T :
  st_ok D s -> st_ok D' s' -> poll_case D s true true D' s' rb' rt' p -> untouched i T ->
  (D <> [] \/ body_data b = []) ->
  (faithful D' s' rb' rt' i (T ++ [(i, p)]) \/ (refused s' rb' i (T ++ [(i, p)]) /\ st_max s = 0)).
Proof.
  intros Hok Hok' Hp Hu Hlate.
  pose proof (untouched_data i T Hu) as Hd. pose proof (untouched_trailers i T Hu) as Htr.
  assert (He : ~ ended i T) by (intros H; now apply Hu in H).
  assert (Hc : forall q, q <> PEnd -> ~ ended i (T ++ [(i, q)])).
  { intros q Hq. rewrite ended_snoc. tauto. }
  destruct Hlate as [Hlate|Hb].
  - destruct Hp as [H1 H2 H3|H1 H2|t H1 H2 H3|H1 H2 H3|s' H1 H2 H3 H4 H5 H6|s' d H1 H2 H3 H4 H5|s' t H1 H2 H3 H4|s' p H1 H2 H3 H4 H5 H6];
      try (destruct H1 as [H1|[H1 _]]; [discriminate|contradiction]).
    + left. unfold faithful. rewrite data_snoc, trailers_snoc, Hd, Htr. repeat split; auto. apply Hc. discriminate.
    + right. split; [|exact H2]. unfold refused. rewrite data_snoc, trailers_snoc, Hd, Htr. repeat split; auto. apply Hc. discriminate.
  - left. eapply faithful_step; [exact Hok|exact Hok'|exact Hp|].
    unfold faithful. rewrite Hd, Htr. repeat split; auto.
    destruct Hok as (_ & _ & _ & Ht). destruct (st_trailers s); destruct Ht as (Ht & _); rewrite Hb in Ht; [exact Ht|].
    symmetry in Ht. apply app_eq_nil in Ht. symmetry. apply Ht.
Qed.

(** ** The invariant *)
Definition owner (w : world) (k : nat) (s : bstate) : Prop :=
  w_shared w = None /\
  (exists h, nth_error (w_handles w) k = Some (Some h) /\ h_state h = Some s) /\
  (forall i h, i <> k -> nth_error (w_handles w) i = Some (Some h) -> h_state h = None).
Definition parked (w : world) (s : bstate) : Prop :=
  w_shared w = Some s /\ (forall i h, nth_error (w_handles w) i = Some (Some h) -> h_state h = None).

Definition exceeded_before (i : nat) (T : list event) : Prop :=
  exists t1 t2 j, T = t1 ++ t2 /\ untouched i t1 /\ limit < len (data_of j t1).

Record inv (w : world) (T : list event) (D : bytes) (s : bstate) : Prop := {
  i_st : st_ok D s;
  i_loc : parked w s \/ exists k, owner w k s;
  i_f1 : forall j d, In (j, PData d) T -> d <> [] -> D <> [];
  i_f2 : exists j, len D <= len (data_of j T);
  i_f3 : forall i, (length (w_handles w) <= i)%nat -> untouched i T;
  i_f4 : forall i h, nth_error (w_handles w) i = Some (Some h) -> h_state h = None ->
           untouched i T /\ h_rb h = true /\ h_rt h = true /\ i <> 0%nat;
  i_f5 : forall i h s', nth_error (w_handles w) i = Some (Some h) -> h_state h = Some s' ->
           s' = s /\ (i = 0%nat \/ ~ untouched i T) /\
           (len D <= len (data_of i T) \/ (h_rb h = true /\ st_max s = 0)) /\
           (started_late b i T -> faithful D s (h_rb h) (h_rt h) i T \/ (refused s (h_rb h) i T /\ exceeded_before i T));
  i_f6 : forall i, started_late b i T -> public i T;
  i_f7 : forall i, started_late b i T -> In (i, PCapped) T -> exceeded_before i T;
  i_len : (0 < length (w_handles w))%nat;
  i_f8 : forall i, started_late b i T -> len (data_of i T) <= len D;
  i_rest : (length (st_rest s) <= length b)%nat
}.

Lemma app_snoc_inv {A} (t1 t2 T : list A) x : T ++ [x] = t1 ++ t2 ->
  (t2 = [] /\ t1 = T ++ [x]) \/ exists t2', t2 = t2' ++ [x] /\ T = t1 ++ t2'.
Proof.
  intros H. destruct t2 as [|y t2] using rev_ind; [left; rewrite app_nil_r in H; auto|].
  right. rewrite app_assoc in H. apply app_inj_tail in H. destruct H as [-> ->]. eauto.
Qed.

(** Whether a handle started late is settled by its first poll. *)
Lemma started_late_back i T j p : started_late b i (T ++ [(j, p)]) ->
  untouched i T \/ started_late b i T.
Proof.
  intros [H|[H|(t1 & t2 & j' & d & Hs & Hu & Hin & Hd)]]; [right; now left|right; right; now left|].
  apply app_snoc_inv in Hs. destruct Hs as [(-> & ->)|(t2' & -> & ->)].
  - left. intros q Hq. apply (Hu q). apply in_app_iff. now left.
  - right. right. right. exists t1, t2', j', d. auto.
Qed.
Lemma started_late_self i T p : i <> 0%nat -> started_late b i (T ++ [(i, p)]) ->
  body_data b = [] \/ exists j d, In (j, PData d) T /\ d <> [].
Proof.
  intros Hi [H|[H|(t1 & t2 & j' & d & Hs & Hu & Hin & Hd)]]; [contradiction|now left|].
  right. apply app_snoc_inv in Hs. destruct Hs as [(-> & ->)|(t2' & -> & ->)].
  - exfalso. apply (Hu p). apply in_app_iff. right. now left.
  - exists j', d. split; [apply in_app_iff; now left|exact Hd].
Qed.
Lemma exceeded_mono i T U : exceeded_before i T -> exceeded_before i (T ++ U).
Proof. intros (t1 & t2 & j & -> & H). exists t1, (t2 ++ U), j. rewrite app_assoc. auto. Qed.

Lemma public_other i j p T : i <> j -> public i T -> public i (T ++ [(j, p)]).
Proof.
  intros Hij H. unfold public in *. rewrite data_of_app, trailers_of_app. 
  assert (E : data_of i [(j, p)] = [] /\ trailers_of i [(j, p)] = []).
  { split; [apply untouched_data|apply untouched_trailers]; intros q [Hq|[]]; congruence. }
  destruct E as [-> ->]. rewrite !app_nil_r.
  assert (Ee : ended i (T ++ [(j, p)]) <-> ended i T).
  { unfold ended. rewrite in_app_iff. cbn [In]. split; [intros [?|[?|[]]]; [assumption|congruence]|now left]. }
  now rewrite Ee.
Qed.

Lemma inv_init : inv (init b limit) [] [] (init_state b limit).
Proof.
  constructor; unfold init; cbn [w_handles w_shared].
  - apply init_ok.
  - right. exists 0%nat. split; [reflexivity|]. split; [eexists; split; reflexivity|].
    intros [|[|i]] h Hi H; cbn in H; congruence.
  - intros j d [].
  - exists 0%nat. cbn. lia.
  - intros i _ p [].
  - intros [|[|i]] h H Hs; cbn in H; try discriminate. injection H as <-. discriminate.
  - intros [|[|i]] h s' H Hs; cbn in H; try discriminate. injection H as <-. cbn in Hs. injection Hs as <-.
    split; [reflexivity|]. split; [now left|]. split; [left; cbn; lia|]. intros _. left. repeat split; auto; intros [].
  - intros i _. apply untouched_public. intros p [].
  - intros i _ [].
  - cbn. lia.
  - intros i _. cbn. lia.
  - cbn. lia.
Qed.


Lemma poll_case_data D s rb rt D' s' rb' rt' d : poll_case D s rb rt D' s' rb' rt' (PData d) -> d <> [] -> D' <> [].
Proof.
  intros H Hd. inversion H; subst; auto.
  - intros He. apply app_eq_nil in He. tauto.
  - match goal with H : PData _ = _ \/ _ |- _ => destruct H as [?|[? ?]]; discriminate end.
Qed.
Lemma poll_case_capped D s rb rt D' s' rb' rt' : poll_case D s rb rt D' s' rb' rt' PCapped ->
  rb' = true /\ st_max s' = 0 /\ D' = D /\ s' = s.
Proof.
  intros H. inversion H; subst; auto.
  match goal with H : PCapped = _ \/ _ |- _ => destruct H as [?|[? ?]]; discriminate end.
Qed.
Lemma ok_no_data D s : st_ok D s -> body_data b = [] -> D = [] /\ st_max s <> 0.
Proof.
  intros (Hm & _ & _ & Ht) Hb. assert (D = []) as ->.
  { destruct (st_trailers s); destruct Ht as (Ht & _); rewrite Hb in Ht; [now symmetry|].
    symmetry in Ht. now apply app_eq_nil in Ht. }
  split; [reflexivity|]. rewrite Hm. unfold len. cbn [length N.of_nat]. lia.
Qed.
Lemma poll_case_len D s rb rt D' s' rb' rt' p i T :
  poll_case D s rb rt D' s' rb' rt' p ->
  (len D <= len (data_of i T) \/ (rb = true /\ st_max s = 0) \/ D = [] \/ rb = true) ->
  (len D' <= len (data_of i (T ++ [(i, p)])) \/ (rb' = true /\ st_max s' = 0)).
Proof.
  intros Hp H. rewrite data_snoc, len_app'.
  assert (Hr : rb = false \/ (D = [] /\ st_max s <> 0) -> len D <= len (data_of i T)).
  { intros [-> |[-> Hm]]; [|cbn; lia]. destruct H as [H|[[? _]|[-> |?]]]; try discriminate; [exact H|cbn; lia]. }
  destruct Hp; try (right; auto; fail); left; try (specialize (Hr ltac:(assumption)));
    rewrite ?len_app'; cbn [len length]; try lia.
Qed.

(** The owner [k] polls; [T] already satisfies the invariant with the state owned by
    [k] or about to be taken by it. *)
Lemma inv_poll w T D s k h shared s' rb' rt' p :
  inv w T D s -> nth_error (w_handles w) k = Some (Some h) ->
  (h_state h = Some s /\ shared = w_shared w \/ h_state h = None /\ w_shared w = Some s /\ shared = None) ->
  poll_state s (h_rb h) (h_rt h) = (s', rb', rt', p) ->
  exists D', inv (World shared (set_nth (w_handles w) k (Some (Handle (Some s') rb' rt')))) (T ++ [(k, p)]) D' s' /\
    exists d, D' = D ++ d.
Proof.
  intros I Hk Hst Hps.
  destruct (poll_state_ok _ _ _ _ _ _ _ _ (i_st _ _ _ _ I) Hps) as (D' & Hok' & Hpc & Hrest).
  exists D'. split; [|eapply poll_case_prefix; exact Hpc].
  assert (Hothers : forall i h', i <> k -> nth_error (w_handles w) i = Some (Some h') -> h_state h' = None).
  { intros i h' Hi Hn. destruct (i_loc _ _ _ _ I) as [[_ Hp]|(k' & Hs' & _ & Ho)]; [now apply (Hp i)|].
    destruct Hst as [[Hs _]|(_ & Hs & _)]; [|congruence].
    destruct (Nat.eq_dec k k') as [<-|Hkk]; [now apply (Ho i)|]. rewrite (Ho k h Hkk Hk) in Hs. discriminate. }
  assert (Hshared : shared = None).
  { destruct Hst as [[Hs ->]|(_ & _ & ->)]; [|reflexivity].
    destruct (i_loc _ _ _ _ I) as [[_ Hp]|(k' & Hs' & _)]; [rewrite (Hp k h Hk) in Hs; discriminate|exact Hs']. }
  subst shared.
  (* what the poller has been given *)
  assert (Hself : started_late b k (T ++ [(k, p)]) ->
     faithful D' s' rb' rt' k (T ++ [(k, p)]) \/ (refused s' rb' k (T ++ [(k, p)]) /\ exceeded_before k (T ++ [(k, p)]))).
  { intros Hl. destruct Hst as [[Hs _]|(Hs & _ & _)].
    - destruct (i_f5 _ _ _ _ I k h s Hk Hs) as (_ & Ht & _ & H5).
      assert (Hl' : started_late b k T).
      { destruct Ht as [->|Ht]; [now left|]. destruct (started_late_back _ _ _ _ Hl); [contradiction|assumption]. }
      destruct (H5 Hl') as [Hf|[Hr Hx]].
      + left. exact (faithful_step _ _ _ _ _ _ _ _ _ _ _ (i_st _ _ _ _ I) Hok' Hpc Hf).
      + right. destruct (refused_step _ _ _ _ _ _ _ _ _ _ _ Hpc Hr) as [-> Hr']. split; [exact Hr'|]. now apply exceeded_mono.
    - destruct (i_f4 _ _ _ _ I k h Hk Hs) as (Hu & Erb & Ert & Hk0). rewrite Erb, Ert in *.
      assert (Hlate : D <> [] \/ body_data b = []).
      { destruct (started_late_self _ _ _ Hk0 Hl) as [Hb|(j & d & Hin & Hd)]; [now right|left].
        apply (i_f1 _ _ _ _ I j d Hin Hd). }
      destruct (first_poll _ _ _ _ _ _ _ k T (i_st _ _ _ _ I) Hok' Hpc Hu Hlate) as [Hf|[Hr Hms]]; [now left|right].
      split; [exact Hr|]. destruct (i_f2 _ _ _ _ I) as (j & Hj). exists T, [(k, p)], j.
      split; [reflexivity|]. split; [exact Hu|]. destruct (i_st _ _ _ _ I) as (Hm' & _). lia. }
  assert (Hlen : len D' <= len (data_of k (T ++ [(k, p)])) \/ (rb' = true /\ st_max s' = 0)).
  { eapply poll_case_len; [exact Hpc|]. destruct Hst as [[Hs _]|(Hs & _ & _)].
    - destruct (i_f5 _ _ _ _ I k h s Hk Hs) as (_ & _ & [Hl|Hl] & _); auto.
    - destruct (i_f4 _ _ _ _ I k h Hk Hs) as (_ & Erb & _). auto. }
  constructor; cbn [w_handles w_shared].
  - exact Hok'.
  - right. exists k. split; [reflexivity|]. split.
    + eexists. split; [eapply nth_set_same; exact Hk|reflexivity].
    + intros i h' Hi Hn. cbn [w_handles] in Hn. rewrite nth_set_other in Hn by auto. now apply (Hothers i).
  - intros j d Hin Hd. apply in_app_iff in Hin. destruct Hin as [Hin|[Hin|[]]].
    + pose proof (i_f1 _ _ _ _ I j d Hin Hd). destruct (poll_case_prefix _ _ _ _ _ _ _ _ _ Hpc) as [d' ->].
      destruct D; [contradiction|discriminate].
    + injection Hin as <- ->. now apply (poll_case_data _ _ _ _ _ _ _ _ _ Hpc).
  - destruct Hlen as [Hl|[Hrb Hm]]; [exists k; exact Hl|].
    destruct (i_f2 _ _ _ _ I) as (j & Hj).
    destruct Hpc as [H1 H2 H3|H1 H2|t H1 H2 H3|H1 H2 H3|s' H1 H2 H3 H4 H5 H6|s' d H1 H2 H3 H4 H5|s' t H1 H2 H3 H4|s' p H1 H2 H3 H4 H5 H6];
      try (exists j; rewrite data_of_app, len_app'; lia).
    destruct H1 as [H1|[-> H1]]; [congruence|].
    exists k. rewrite data_snoc, !len_app'. change (len []) with 0. cbv iota. lia.
  - intros i Hi. rewrite length_set in Hi. apply untouched_snoc; [|now apply (i_f3 _ _ _ _ I)].
    intros ->. assert (k < length (w_handles w))%nat by (apply nth_error_Some; congruence). lia.
  - intros i h' Hn Hs. apply nth_set in Hn. destruct Hn as [[<- Hn]|[Hne Hn]].
    + injection Hn as ->. discriminate.
    + destruct (i_f4 _ _ _ _ I i h' Hn Hs) as (Hu & H). split; [|exact H]. apply untouched_snoc; auto.
  - intros i h' s'' Hn Hs. apply nth_set in Hn. destruct Hn as [[<- Hn]|[Hne Hn]].
    + injection Hn as ->. cbn [h_state h_rb h_rt] in *. injection Hs as <-. split; [reflexivity|]. split.
      * right. intros Hu. apply (Hu p). apply in_app_iff. right. now left.
      * split; [exact Hlen|exact Hself].
    + rewrite (Hothers i h') in Hs by auto. discriminate.
  - intros i Hl. destruct (Nat.eq_dec i k) as [->|Hik].
    + destruct (Hself Hl) as [Hf|[Hr _]]; [eapply faithful_public; eauto|eapply refused_public; eauto].
    + apply public_other; [exact Hik|]. destruct (started_late_back _ _ _ _ Hl); [now apply untouched_public|now apply (i_f6 _ _ _ _ I)].
  - intros i Hl Hin. apply in_app_iff in Hin. destruct Hin as [Hin|[Hin|[]]].
    + apply exceeded_mono. apply (i_f7 _ _ _ _ I); [|exact Hin].
      destruct (started_late_back _ _ _ _ Hl) as [Hu|Hl']; [now apply Hu in Hin|exact Hl'].
    + injection Hin as <- ->. destruct (Hself Hl) as [(_ & Hf & _)|[_ Hx]]; [|exact Hx].
      exfalso. destruct (poll_case_capped _ _ _ _ _ _ _ _ Hpc) as (-> & Hm & _).
      destruct Hf as [Hf|Hf]; [discriminate|]. now apply (ok_no_data _ _ Hok') in Hf.
  - rewrite length_set. apply (i_len _ _ _ _ I).
  - intros i Hl. destruct (Nat.eq_dec i k) as [->|Hik].
    + destruct (Hself Hl) as [[-> _]|[(_ & _ & -> & _) _]]; [lia|cbn; lia].
    + rewrite data_of_app. assert (Ed : data_of i [(k, p)] = []) by (apply untouched_data; intros q [Hq|[]]; congruence).
      rewrite Ed, app_nil_r. destruct (poll_case_prefix _ _ _ _ _ _ _ _ _ Hpc) as [d ->]. rewrite len_app'.
      destruct (started_late_back _ _ _ _ Hl) as [Hu|Hl'].
      * rewrite (untouched_data i T Hu). cbn. lia.
      * pose proof (i_f8 _ _ _ _ I i Hl'). lia.
  - pose proof (i_rest _ _ _ _ I). lia.
Qed.

Lemma inv_step w T D s o w' t : inv w T D s -> step w o = (w', t) ->
  exists D' s', inv w' (T ++ t) D' s' /\ exists d, D' = D ++ d.
Proof.
  intros I Hs. unfold step in Hs. destruct o as [k|k|k];
    (destruct (nth_error (w_handles w) k) as [[h|]|] eqn:Hk;
     [|injection Hs as <- <-; rewrite app_nil_r; exists D, s; split; [exact I|exists []; now rewrite app_nil_r]
      |injection Hs as <- <-; rewrite app_nil_r; exists D, s; split; [exact I|exists []; now rewrite app_nil_r]]).
  - destruct (h_state h) as [s0|] eqn:Eh.
    + destruct (i_f5 _ _ _ _ I k h s0 Hk Eh) as (-> & _).
      destruct (poll_state s (h_rb h) (h_rt h)) as [[[s' rb'] rt'] p] eqn:Ep. injection Hs as <- <-.
      destruct (inv_poll w T D s k h (w_shared w) s' rb' rt' p I Hk) as (D' & I' & Hd); auto. exists D', s'. auto.
    + destruct (w_shared w) as [s0|] eqn:Ew.
      * assert (s0 = s) as ->.
        { destruct (i_loc _ _ _ _ I) as [[Hp _]|(k' & Hp & _)]; congruence. }
        destruct (poll_state s (h_rb h) (h_rt h)) as [[[s' rb'] rt'] p] eqn:Ep. injection Hs as <- <-.
        destruct (inv_poll w T D s k h None s' rb' rt' p I Hk) as (D' & I' & Hd); auto. exists D', s'. auto.
      * injection Hs as <- <-. exists D, s. split; [|exists []; now rewrite app_nil_r].
        destruct (i_f4 _ _ _ _ I k h Hk Eh) as (Hu & _ & _ & Hk0).
        constructor; cbn [w_handles w_shared].
        -- apply (i_st _ _ _ _ I).
        -- right. destruct (i_loc _ _ _ _ I) as [[Hp _]|(k' & Hp & (h' & Hh & Hh') & Ho)]; [congruence|].
           exists k'. assert (k <> k') by congruence. split; [reflexivity|]. cbn [w_handles]. split.
           ++ exists h'. rewrite nth_set_other by auto. auto.
           ++ intros i h0 Hi Hn. apply nth_set in Hn. destruct Hn as [[_ Hn]|[_ Hn]]; [discriminate|]. now apply (Ho i).
        -- intros j d Hin. apply in_app_iff in Hin. destruct Hin as [Hin|[Hin|[]]]; [|discriminate]. now apply (i_f1 _ _ _ _ I j d).
        -- destruct (i_f2 _ _ _ _ I) as (j & Hj). exists j. rewrite data_of_app, len_app'. lia.
        -- intros i Hi. rewrite length_set in Hi. apply untouched_snoc; [|now apply (i_f3 _ _ _ _ I)].
           intros ->. assert (k < length (w_handles w))%nat by (apply nth_error_Some; congruence). lia.
        -- intros i h' Hn Hs. apply nth_set in Hn. destruct Hn as [[_ Hn]|[Hne Hn]]; [discriminate|].
           destruct (i_f4 _ _ _ _ I i h' Hn Hs) as (Hu' & H). split; [|exact H]. apply untouched_snoc; auto.
        -- intros i h' s'' Hn Hs. apply nth_set in Hn. destruct Hn as [[_ Hn]|[Hne Hn]]; [discriminate|].
           destruct (i_f5 _ _ _ _ I i h' s'' Hn Hs) as (-> & Ht & Hl & H5). split; [reflexivity|]. split.
           ++ destruct Ht as [Ht|Ht]; [now left|right]. intros Hu'. apply Ht. intros q Hq. apply (Hu' q). apply in_app_iff. now left.
           ++ assert (Ed : data_of i (T ++ [(k, PPanic)]) = data_of i T) by (rewrite data_of_app; cbn; apply app_nil_r).
              assert (Et : trailers_of i (T ++ [(k, PPanic)]) = trailers_of i T) by (rewrite trailers_of_app; cbn; apply app_nil_r).
              assert (Ee : ended i (T ++ [(k, PPanic)]) <-> ended i T).
              { unfold ended. rewrite in_app_iff. cbn [In]. split; [intros [?|[?|[]]]; [assumption|discriminate]|now left]. }
              rewrite Ed. split; [exact Hl|]. intros Hlate.
              assert (Hl' : started_late b i T).
              { destruct Ht as [->|Ht]; [now left|]. destruct (started_late_back _ _ _ _ Hlate); [contradiction|assumption]. }
              destruct (H5 Hl') as [Hf|[Hr Hx]].
              ** left. unfold faithful in *. rewrite Ed, Et. destruct (h_rt h'); rewrite Ee; exact Hf.
              ** right. split; [|now apply exceeded_mono]. unfold refused in *. rewrite Ed, Et, Ee. exact Hr.
        -- intros i Hl. destruct (Nat.eq_dec i k) as [->|Hik].
           ++ destruct (untouched_public k T Hu) as (P1 & P2 & P3). unfold public.
              rewrite data_snoc, trailers_snoc, ended_snoc, !app_nil_r. split; [exact P1|]. split; [|exact P3].
              intros [H|H]; [auto|discriminate].
           ++ apply public_other; [exact Hik|]. destruct (started_late_back _ _ _ _ Hl); [now apply untouched_public|now apply (i_f6 _ _ _ _ I)].
        -- intros i Hl Hin. apply in_app_iff in Hin. destruct Hin as [Hin|[Hin|[]]]; [|discriminate].
           apply exceeded_mono. apply (i_f7 _ _ _ _ I); [|exact Hin].
           destruct (started_late_back _ _ _ _ Hl) as [Hu'|Hl']; [now apply Hu' in Hin|exact Hl'].
        -- rewrite length_set. apply (i_len _ _ _ _ I).
        -- intros i Hl. rewrite data_of_app. change (data_of i [(k, PPanic)]) with (@nil N). rewrite app_nil_r.
           destruct (started_late_back _ _ _ _ Hl) as [Hu'|Hl'].
           ++ rewrite (untouched_data i T Hu'). cbn. lia.
           ++ now apply (i_f8 _ _ _ _ I).
        -- apply (i_rest _ _ _ _ I).
  - injection Hs as <- <-. rewrite app_nil_r. exists D, s. split; [|exists []; now rewrite app_nil_r].
    assert (Hn : forall i h', nth_error (w_handles w ++ [Some (Handle None true true)]) i = Some (Some h') ->
       nth_error (w_handles w) i = Some (Some h') \/ (i = length (w_handles w) /\ h' = Handle None true true)).
    { intros i h' H. destruct (Nat.lt_ge_cases i (length (w_handles w))) as [Hi|Hi].
      - rewrite nth_error_app1 in H by exact Hi. now left.
      - rewrite nth_error_app2 in H by exact Hi. right. destruct (i - length (w_handles w))%nat as [|n] eqn:En; cbn in H.
        + split; [lia|congruence].
        + now destruct n. }
    constructor; cbn [w_handles w_shared].
    + apply (i_st _ _ _ _ I).
    + destruct (i_loc _ _ _ _ I) as [[Hp Ha]|(k' & Hp & (h' & Hh & Hh') & Ho)].
      * left. split; [exact Hp|]. intros i h' H. apply Hn in H. destruct H as [H|[_ ->]]; [now apply (Ha i)|reflexivity].
      * right. exists k'. split; [exact Hp|]. split.
        -- exists h'. cbn [w_handles]. rewrite nth_error_app1 by (apply nth_error_Some; congruence). auto.
        -- intros i h0 Hi H. apply Hn in H. destruct H as [H|[_ ->]]; [now apply (Ho i)|reflexivity].
    + apply (i_f1 _ _ _ _ I).
    + apply (i_f2 _ _ _ _ I).
    + intros i Hi. rewrite app_length in Hi. apply (i_f3 _ _ _ _ I). cbn in Hi. lia.
    + intros i h' H Hh'. apply Hn in H. destruct H as [H|[-> ->]]; [now apply (i_f4 _ _ _ _ I i)|].
      split; [apply (i_f3 _ _ _ _ I); lia|]. repeat split. pose proof (i_len _ _ _ _ I). lia.
    + intros i h' s' H Hh'. apply Hn in H. destruct H as [H|[-> ->]]; [now apply (i_f5 _ _ _ _ I i)|discriminate].
    + apply (i_f6 _ _ _ _ I).
    + apply (i_f7 _ _ _ _ I).
    + rewrite app_length. cbn. lia.
    + apply (i_f8 _ _ _ _ I).
    + apply (i_rest _ _ _ _ I).
  - injection Hs as <- <-. rewrite app_nil_r. exists D, s. split; [|exists []; now rewrite app_nil_r].
    constructor; cbn [w_handles w_shared].
    + apply (i_st _ _ _ _ I).
    + destruct (h_state h) as [s0|] eqn:Eh.
      * destruct (i_f5 _ _ _ _ I k h s0 Hk Eh) as (-> & _).
        left. split; [reflexivity|]. intros i h' H. cbn [w_handles] in H. apply nth_set in H. destruct H as [[_ H]|[Hne H]]; [discriminate|].
        destruct (i_loc _ _ _ _ I) as [[_ Ha]|(k' & _ & _ & Ho)]; [now apply (Ha i)|].
        destruct (Nat.eq_dec k k') as [<-|Hkk]; [apply (Ho i); auto|]. rewrite (Ho k h Hkk Hk) in Eh. discriminate.
      * destruct (i_loc _ _ _ _ I) as [[Hp Ha]|(k' & Hp & (h' & Hh & Hh') & Ho)].
        -- left. split; [exact Hp|]. intros i h' H. cbn [w_handles] in H. apply nth_set in H.
           destruct H as [[_ H]|[Hne H]]; [discriminate|]. now apply (Ha i).
        -- right. assert (k <> k') by congruence. exists k'. split; [exact Hp|]. split.
           ++ exists h'. cbn [w_handles]. rewrite nth_set_other by auto. auto.
           ++ intros i h0 Hi H0. cbn [w_handles] in H0. apply nth_set in H0. destruct H0 as [[_ H0]|[_ H0]]; [discriminate|]. now apply (Ho i).
    + apply (i_f1 _ _ _ _ I).
    + apply (i_f2 _ _ _ _ I).
    + intros i Hi. rewrite length_set in Hi. now apply (i_f3 _ _ _ _ I).
    + intros i h' H. apply nth_set in H. destruct H as [[_ H]|[_ H]]; [discriminate|]. now apply (i_f4 _ _ _ _ I).
    + intros i h' s' H. apply nth_set in H. destruct H as [[_ H]|[_ H]]; [discriminate|]. now apply (i_f5 _ _ _ _ I).
    + apply (i_f6 _ _ _ _ I).
    + apply (i_f7 _ _ _ _ I).
    + rewrite length_set. apply (i_len _ _ _ _ I).
    + apply (i_f8 _ _ _ _ I).
    + apply (i_rest _ _ _ _ I).
Qed.

Lemma inv_run ops : forall w T D s w' t, inv w T D s -> run w ops = (w', t) ->
  exists D' s', inv w' (T ++ t) D' s' /\ exists d, D' = D ++ d.
Proof.
  induction ops as [|o ops IH]; intros w T D s w' t I H; cbn [run] in H.
  - injection H as <- <-. rewrite app_nil_r. exists D, s. split; [exact I|]. exists []. now rewrite app_nil_r.
  - destruct (step w o) as [w1 t1] eqn:E1. destruct (run w1 ops) as [w2 t2] eqn:E2. injection H as <- <-.
    destruct (inv_step _ _ _ _ _ _ _ I E1) as (D1 & s1 & I1 & d1 & ->).
    destruct (IH _ _ _ _ _ _ I1 E2) as (D2 & s2 & I2 & d2 & ->).
    rewrite app_assoc. exists ((D ++ d1) ++ d2), s2. split; [exact I2|]. exists (d1 ++ d2). now rewrite app_assoc.
Qed.

Theorem replay_faithful ops w t i : run (init b limit) ops = (w, t) -> started_late b i t -> public i t.
Proof.
  intros H Hl. destruct (inv_run _ _ _ _ _ _ _ inv_init H) as (D & s & I & _). now apply (i_f6 _ _ _ _ I).
Qed.
Theorem capped_only_if ops w t i : run (init b limit) ops = (w, t) -> started_late b i t ->
  In (i, PCapped) t -> exceeded_before i t.
Proof.
  intros H Hl. destruct (inv_run _ _ _ _ _ _ _ inv_init H) as (D & s & I & _). now apply (i_f7 _ _ _ _ I).
Qed.

(** *** C13 *)
Lemma st_ok_bound D s : st_ok D s -> total (st_replay s) <= limit /\ (st_max s = 0 -> total (st_replay s) = 0).
Proof.
  intros (Hm & Hr & Hc & _). unfold total. destruct (N.eq_dec (st_max s) 0) as [E|E].
  - rewrite (Hc E). cbn. lia.
  - rewrite (Hr E). split; [|contradiction]. lia.
Qed.

Lemma fold_none (l : list (option handle)) :
  (forall i h, nth_error l i = Some (Some h) -> h_state h = None) ->
  fold_right (fun h n => (match h with Some h => held (h_state h) | None => 0 end) + n) 0 l = 0.
Proof.
  induction l as [|h l IH]; intros H; [reflexivity|]. cbn [fold_right].
  rewrite IH by (intros i; apply (H (S i))). destruct h as [h|]; [|reflexivity].
  now rewrite (H 0%nat h eq_refl).
Qed.
Lemma fold_one (l : list (option handle)) k h s :
  nth_error l k = Some (Some h) -> h_state h = Some s ->
  (forall i h, i <> k -> nth_error l i = Some (Some h) -> h_state h = None) ->
  fold_right (fun h n => (match h with Some h => held (h_state h) | None => 0 end) + n) 0 l = total (st_replay s).
Proof.
  revert k. induction l as [|x l IH]; intros [|k] Hk Hs Ho; cbn in Hk; try discriminate; cbn [fold_right].
  - injection Hk as ->. rewrite Hs, fold_none; [cbn [held]; lia|]. intros i h' Hn. apply (Ho (S i)); [lia|exact Hn].
  - rewrite (IH k Hk Hs) by (intros i h' Hi Hn; apply (Ho (S i)); [lia|exact Hn]).
    destruct x as [x|]; [|reflexivity]. rewrite (Ho 0%nat x); [reflexivity|lia|reflexivity].
Qed.
Lemma inv_buffered w T D s : inv w T D s -> buffered w = total (st_replay s).
Proof.
  intros I. unfold buffered. destruct (i_loc _ _ _ _ I) as [[Hp Ha]|(k & Hp & (h & Hh & Hs) & Ho)]; rewrite Hp; cbn [held].
  - rewrite fold_none by exact Ha. lia.
  - rewrite (fold_one _ k h s); auto.
Qed.
Theorem buffer_bounded ops w t : run (init b limit) ops = (w, t) -> buffered w <= limit.
Proof.
  intros H. destruct (inv_run _ _ _ _ _ _ _ inv_init H) as (D & s & I & _).
  rewrite (inv_buffered _ _ _ _ I). apply (st_ok_bound D s (i_st _ _ _ _ I)).
Qed.

Lemma inv_capped w T D s i c : inv w T D s -> is_capped w i = Some c -> c = (st_max s =? 0).
Proof.
  intros I H. unfold is_capped in H. destruct (nth_error (w_handles w) i) as [[h|]|] eqn:E; try discriminate.
  destruct (h_state h) as [s'|] eqn:Es.
  - destruct (i_f5 _ _ _ _ I i h s' E Es) as (-> & _). unfold st_capped in H. congruence.
  - destruct (i_loc _ _ _ _ I) as [[Hp _]|(k & Hp & _)]; rewrite Hp in H; [|discriminate]. cbn in H. unfold st_capped in H. congruence.
Qed.

Theorem capped_for_ever ops1 ops2 w1 t1 w2 t2 i :
  run (init b limit) ops1 = (w1, t1) -> is_capped w1 i = Some true -> run w1 ops2 = (w2, t2) ->
  buffered w2 = 0 /\ forall j c, is_capped w2 j = Some c -> c = true.
Proof.
  intros H1 Hc H2. destruct (inv_run _ _ _ _ _ _ _ inv_init H1) as (D1 & s1 & I1 & _).
  cbn [app] in I1. pose proof (inv_capped _ _ _ _ _ _ I1 Hc) as Hm1. symmetry in Hm1. apply N.eqb_eq in Hm1.
  destruct (inv_run _ _ _ _ _ _ _ I1 H2) as (D2 & s2 & I2 & d & ->).
  assert (Hm2 : st_max s2 = 0).
  { destruct (i_st _ _ _ _ I1) as (E1 & _). destruct (i_st _ _ _ _ I2) as (E2 & _). rewrite E2, len_app'. lia. }
  split.
  - rewrite (inv_buffered _ _ _ _ I2). now apply (st_ok_bound _ s2 (i_st _ _ _ _ I2)).
  - intros j c Hj. rewrite (inv_capped _ _ _ _ _ _ I2 Hj), Hm2. reflexivity.
Qed.

(** Once a handle has been given more than the limit, nothing is buffered. *)
Theorem over_limit_discarded ops w t i : run (init b limit) ops = (w, t) -> started_late b i t ->
  limit < len (data_of i t) -> buffered w = 0.
Proof.
  intros H Hl Hx. destruct (inv_run _ _ _ _ _ _ _ inv_init H) as (D & s & I & _). cbn [app] in I.
  rewrite (inv_buffered _ _ _ _ I). apply (st_ok_bound _ s (i_st _ _ _ _ I)).
  pose proof (i_f8 _ _ _ _ I i Hl). destruct (i_st _ _ _ _ I) as (Hm & _). lia.
Qed.

Theorem over_limit_capped ops w t i j c : run (init b limit) ops = (w, t) -> started_late b i t ->
  limit < len (data_of i t) -> is_capped w j = Some c -> c = true.
Proof.
  intros H Hl Hx Hc. destruct (inv_run _ _ _ _ _ _ _ inv_init H) as (D & s & I & _). cbn [app] in I.
  rewrite (inv_capped _ _ _ _ _ _ I Hc). apply N.eqb_eq.
  pose proof (i_f8 _ _ _ _ I i Hl). destruct (i_st _ _ _ _ I) as (Hm & _). lia.
Qed.

(** and replays that start then are refused. *)
Definition armed (w : world) (i : nat) : Prop :=
  forall h, nth_error (w_handles w) i = Some (Some h) -> h_rb h = true.
Lemma armed_step w T D s o w' t i : inv w T D s -> st_max s = 0 -> armed w i -> step w o = (w', t) ->
  armed w' i /\ forall p, In (i, p) t -> p = PCapped \/ p = PPanic.
Proof.
  intros I Hm Ha Hs. unfold step in Hs.
  destruct o as [k|k|k]; (destruct (nth_error (w_handles w) k) as [[h|]|] eqn:Hk;
    [|injection Hs as <- <-; split; [exact Ha|intros p []]|injection Hs as <- <-; split; [exact Ha|intros p []]]).
  - assert (Hx : forall shared s0, s0 = s ->
       (let '(s', rb, rt, p) := poll_state s0 (h_rb h) (h_rt h) in
        (World shared (set_nth (w_handles w) k (Some (Handle (Some s') rb rt))), [(k, p)])) = (w', t) ->
       armed w' i /\ forall p, In (i, p) t -> p = PCapped \/ p = PPanic).
    { intros shared s0 -> H. destruct (poll_state s (h_rb h) (h_rt h)) as [[[s' rb'] rt'] p] eqn:Ep. injection H as <- <-.
      assert (Hi : i = k -> rb' = true /\ p = PCapped).
      { intros ->. rewrite (Ha h Hk) in Ep. unfold poll_state in Ep. destruct (i_st _ _ _ _ I) as (_ & _ & Hc & _).
        assert (E : has_remaining (st_replay s) = false) by (apply has_remaining_false; auto).
        rewrite E in Ep. unfold st_capped in Ep. rewrite Hm in Ep. cbn in Ep. injection Ep as <- <- <- <-. auto. }
      split.
      - intros h' Hn. cbn [w_handles] in Hn. apply nth_set in Hn. destruct Hn as [[E Hn]|[_ Hn]]; [|now apply Ha].
        injection Hn as ->. cbn [h_rb]. now apply Hi.
      - intros q [Hq|[]]. injection Hq as Ek Eq. subst. left. now apply Hi. }
    destruct (h_state h) as [s0|] eqn:Eh.
    + destruct (i_f5 _ _ _ _ I k h s0 Hk Eh) as (Es & _). now apply (Hx (w_shared w) s0).
    + destruct (w_shared w) as [s0|] eqn:Ew.
      * apply (Hx None s0); [|exact Hs]. destruct (i_loc _ _ _ _ I) as [[Hp _]|(k' & Hp & _)]; congruence.
      * injection Hs as <- <-. split.
        -- intros h' Hn. cbn [w_handles] in Hn. apply nth_set in Hn. destruct Hn as [[_ Hn]|[_ Hn]]; [discriminate|now apply Ha].
        -- intros q [Hq|[]]. right. congruence.
  - injection Hs as <- <-. split; [|intros p []]. intros h' Hn. cbn [w_handles] in Hn.
    destruct (Nat.lt_ge_cases i (length (w_handles w))) as [Hi|Hi].
    + rewrite nth_error_app1 in Hn by exact Hi. now apply Ha.
    + rewrite nth_error_app2 in Hn by exact Hi. destruct (i - length (w_handles w))%nat as [|n]; cbn in Hn.
      * injection Hn as <-. reflexivity.
      * now destruct n.
  - injection Hs as <- <-. split; [|intros p []]. intros h' Hn. cbn [w_handles] in Hn. apply nth_set in Hn.
    destruct Hn as [[_ Hn]|[_ Hn]]; [discriminate|now apply Ha].
Qed.
Lemma armed_run ops : forall w T D s w' t i, inv w T D s -> st_max s = 0 -> armed w i -> run w ops = (w', t) ->
  forall p, In (i, p) t -> p = PCapped \/ p = PPanic.
Proof.
  induction ops as [|o ops IH]; intros w T D s w' t i I Hm Ha H p Hin; cbn [run] in H.
  - injection H as <- <-. destruct Hin.
  - destruct (step w o) as [w1 t1] eqn:E1. destruct (run w1 ops) as [w2 t2] eqn:E2. injection H as <- <-.
    destruct (armed_step _ _ _ _ _ _ _ i I Hm Ha E1) as [Ha1 H1].
    apply in_app_iff in Hin. destruct Hin as [Hin|Hin]; [now apply H1|].
    destruct (inv_step _ _ _ _ _ _ _ I E1) as (D1 & s1 & I1 & d1 & ->).
    apply (IH _ _ _ _ _ _ i I1) with (2 := Ha1) (3 := E2) (4 := Hin).
    destruct (i_st _ _ _ _ I) as (Ea & _). destruct (i_st _ _ _ _ I1) as (Eb & _). rewrite Eb, len_app'. lia.
Qed.
Theorem refused_after_limit ops1 ops2 w1 t1 w2 t2 i j :
  run (init b limit) ops1 = (w1, t1) -> run w1 ops2 = (w2, t2) ->
  started_late b j t1 -> limit < len (data_of j t1) -> i <> 0%nat -> untouched i t1 ->
  forall p, In (i, p) t2 -> p = PCapped \/ p = PPanic.
Proof.
  intros H1 H2 Hl Hx Hi Hu. destruct (inv_run _ _ _ _ _ _ _ inv_init H1) as (D & s & I & _). cbn [app] in I.
  assert (Hm : st_max s = 0).
  { pose proof (i_f8 _ _ _ _ I j Hl). destruct (i_st _ _ _ _ I) as (Hm & _). lia. }
  apply (armed_run _ _ _ _ _ _ _ i I Hm) with (2 := H2).
  intros h Hn. destruct (h_state h) as [s0|] eqn:Eh.
  - destruct (i_f5 _ _ _ _ I i h s0 Hn Eh) as (_ & Ht & _). tauto.
  - now apply (i_f4 _ _ _ _ I i h Hn Eh).
Qed.

(** *** Every read comes to an end *)
Definition b2n (x : bool) : nat := if x then 1 else 0.
Lemma poll_progress s rb rt s' rb' rt' p : poll_state s rb rt = (s', rb', rt', p) ->
  p = PEnd \/ p = PCapped \/
  (length (st_rest s') + b2n rb' + b2n rt' < length (st_rest s) + b2n rb + b2n rt)%nat.
Proof.
  intros H. unfold poll_state in H.
  destruct (rb && has_remaining (st_replay s)) eqn:E1.
  { apply andb_true_iff in E1. destruct E1 as [-> _]. injection H as <- <- <- <-. right. right. cbn. lia. }
  destruct (rb && st_capped s); [injection H as <- <- <- <-; auto|].
  assert (Hx : (if st_completed s then (s, rb, false, PEnd) else let '(s', p) := poll_rest s in (s', rb, false, p)) = (s', rb', rt', p) ->
    p = PEnd \/ p = PCapped \/ (length (st_rest s') + b2n rb' + b2n rt' < length (st_rest s) + b2n rb + b2n rt)%nat).
  { intros G. destruct (st_completed s); [injection G as <- <- <- <-; auto|].
    destruct (poll_rest s) as [s1 p1] eqn:Ep. injection G as <- <- <- <-. unfold poll_rest in Ep.
    destruct (st_rest s) as [|[|d|t|e] r]; injection Ep as <- <-; auto; right; right;
      unfold record_bytes, set_done, set_rest; cbn [b2n]; try destruct (_ =? 0); cbn [st_rest length]; lia. }
  destruct rt; [|auto]. destruct (st_trailers s); [|auto]. injection H as <- <- <- <-. right. right. cbn. lia.
Qed.
Lemma reads_end n : forall w T D s i h, inv w T D s -> nth_error (w_handles w) i = Some (Some h) ->
  (h_state h = Some s \/ w_shared w = Some s /\ h_state h = None) ->
  (length (st_rest s) + b2n (h_rb h) + b2n (h_rt h) < n)%nat ->
  exists w' t, run w (repeat (Poll i) n) = (w', t) /\ (In (i, PEnd) t \/ In (i, PCapped) t).
Proof.
  induction n as [|n IH]; intros w T D s i h I Hn Hs Hlt; [lia|].
  cbn [repeat run]. destruct (step w (Poll i)) as [w1 t1] eqn:E1.
  destruct (run w1 (repeat (Poll i) n)) as [w2 t2] eqn:E2. do 2 eexists. split; [reflexivity|].
  destruct (poll_state s (h_rb h) (h_rt h)) as [[[s' rb'] rt'] p] eqn:Ep.
  assert (Hx : exists sh, w1 = World sh (set_nth (w_handles w) i (Some (Handle (Some s') rb' rt'))) /\ t1 = [(i, p)]).
  { unfold step in E1. rewrite Hn in E1. destruct Hs as [Hs|[Hs Hs']].
    - rewrite Hs, Ep in E1. injection E1 as <- <-. eauto.
    - rewrite Hs, Hs', Ep in E1. injection E1 as <- <-. eauto. }
  destruct Hx as (sh & -> & ->).
  destruct (poll_progress _ _ _ _ _ _ _ Ep) as [->|[->|Hd]]; [left; now left|right; now left|].
  destruct (inv_step _ _ _ _ _ _ _ I E1) as (D1 & s1 & I1 & _).
  assert (Hn1 : nth_error (set_nth (w_handles w) i (Some (Handle (Some s') rb' rt'))) i = Some (Some (Handle (Some s') rb' rt')))
    by (eapply nth_set_same; exact Hn).
  destruct (i_f5 _ _ _ _ I1 i _ s' Hn1 eq_refl) as (Es & _). subst s1.
  destruct (IH _ _ _ _ i _ I1 Hn1) as (w' & t' & Hr & Ho); [now left|cbn [h_rb h_rt]; lia|].
  rewrite Hr in E2. injection E2 as <- <-. destruct Ho; [left|right]; now right.
Qed.
Theorem reads_come_to_an_end ops w t i c :
  run (init b limit) ops = (w, t) -> is_capped w i = Some c ->
  exists w' t', run w (repeat (Poll i) (length b + 3)) = (w', t') /\ (In (i, PEnd) t' \/ In (i, PCapped) t').
Proof.
  intros H Hc. destruct (inv_run _ _ _ _ _ _ _ inv_init H) as (D & s & I & _). cbn [app] in I.
  unfold is_capped in Hc. destruct (nth_error (w_handles w) i) as [[h|]|] eqn:E; try discriminate.
  assert (b2n (h_rb h) <= 1 /\ b2n (h_rt h) <= 1)%nat by (destruct (h_rb h), (h_rt h); cbn; lia).
  pose proof (i_rest _ _ _ _ I). 
  apply (reads_end (length b + 3) w t D s i h I E); [|lia].
  destruct (h_state h) as [s'|] eqn:Es.
  - destruct (i_f5 _ _ _ _ I i h s' E Es) as (-> & _). now left.
  - right. split; [|reflexivity]. destruct (i_loc _ _ _ _ I) as [[Hp _]|(k & Hp & _)]; [exact Hp|]. rewrite Hp in Hc. discriminate.
Qed.

(** *** End of stream *)
Theorem end_of_stream_sound eos ops w t i h w' t' :
  (forall r, eos r = true -> r = []) ->
  run (init b limit) ops = (w, t) -> nth_error (w_handles w) i = Some (Some h) ->
  is_end_stream eos (eos b) h = true -> step w (Poll i) = (w', t') ->
  t' = [(i, PEnd)] \/ t' = [(i, PPanic)].
Proof.
  intros Heos H Hn He Hs. destruct (inv_run _ _ _ _ _ _ _ inv_init H) as (D & s & I & _). cbn [app] in I.
  assert (Hx : forall p s1 rb rt, poll_state s (h_rb h) (h_rt h) = (s1, rb, rt, p) ->
     (st_rest s = [] /\ h_rb h = false /\ h_rt h = false \/ b = []) -> p = PEnd).
  { intros p s1 rb rt Hp [(Hr & E1 & E2)|Hb].
    - rewrite E1, E2 in Hp. unfold poll_state in Hp. cbn [andb] in Hp. destruct (st_completed s); [congruence|].
      unfold poll_rest in Hp. rewrite Hr in Hp. congruence.
    - pose proof (i_rest _ _ _ _ I) as Hr. rewrite Hb in Hr. destruct (st_rest s) eqn:Er; [|cbn in Hr; lia].
      assert (Hbd : body_data b = []) by now rewrite Hb.
      destruct (ok_no_data _ _ (i_st _ _ _ _ I) Hbd) as [-> Hm].
      destruct (i_st _ _ _ _ I) as (_ & Hrep & _ & Ht).
      assert (Et : st_trailers s = None) by (destruct (st_trailers s); [destruct Ht as (_ & Ht & _); rewrite Hb in Ht; discriminate|reflexivity]).
      unfold poll_state in Hp. assert (E : has_remaining (st_replay s) = false) by (apply has_remaining_false; auto).
      rewrite E, andb_false_r in Hp. unfold st_capped in Hp. apply N.eqb_neq in Hm. rewrite Hm, andb_false_r, Et in Hp.
      unfold poll_rest in Hp. rewrite Er in Hp. destruct (h_rt h), (st_completed s); congruence. }
  unfold step in Hs. rewrite Hn in Hs. unfold is_end_stream in He.
  destruct (h_state h) as [s0|] eqn:Eh.
  - destruct (i_f5 _ _ _ _ I i h s0 Hn Eh) as (-> & _).
    destruct (poll_state s (h_rb h) (h_rt h)) as [[[s' rb'] rt'] p] eqn:Ep. injection Hs as <- <-.
    left. rewrite (Hx _ _ _ _ eq_refl); [reflexivity|]. destruct (eos b) eqn:Eb; [right; auto|left].
    apply andb_true_iff in He. destruct He as [He He3]. apply andb_true_iff in He. destruct He as [He1 He2].
    apply negb_true_iff in He1, He2. auto.
  - destruct (w_shared w) as [s0|] eqn:Ew; [|injection Hs as <- <-; now right].
    assert (s0 = s) as -> by (destruct (i_loc _ _ _ _ I) as [[Hp _]|(k' & Hp & _)]; congruence).
    destruct (poll_state s (h_rb h) (h_rt h)) as [[[s' rb'] rt'] p] eqn:Ep. injection Hs as <- <-.
    left. rewrite (Hx _ _ _ _ eq_refl); [reflexivity|]. destruct (eos b) eqn:Eb; [right; auto|discriminate].
Qed.
End B.

(** ** The replay buffer as a [Buf] *)
Lemma len_nat (b : bytes) n : (N.to_nat n <= length b)%nat <-> n <= len b.
Proof. unfold len. lia. Qed.

Theorem advance_spec bufs : forall n, n <= total bufs ->
  exists bufs', advance bufs n = Some bufs' /\ concat bufs' = skipn (N.to_nat n) (concat bufs).
Proof.
  induction bufs as [|x r IH]; intros n Hn.
  - unfold total in Hn. cbn in Hn. replace n with 0 by lia. exists []. auto.
  - cbn [advance]. destruct (n =? 0) eqn:E0; [apply N.eqb_eq in E0; subst n; eauto|].
    apply N.eqb_neq in E0. destruct (n <? len x) eqn:E1.
    + apply N.ltb_lt in E1. eexists. split; [reflexivity|]. cbn [concat]. rewrite skipn_app.
      replace (N.to_nat n - length x)%nat with 0%nat by (unfold len in E1; lia). reflexivity.
    + apply N.ltb_ge in E1. unfold total in *. cbn [concat] in *. rewrite len_app' in Hn.
      destruct (IH (n - len x)) as (bufs' & Ha & Hc); [lia|]. exists bufs'. split; [exact Ha|]. rewrite Hc, skipn_app.
      rewrite (skipn_all2 x) by (unfold len in E1; lia). cbn [app]. f_equal. unfold len. lia.
Qed.
Theorem advance_beyond bufs : forall n, total bufs < n -> advance bufs n = None.
Proof.
  induction bufs as [|x r IH]; intros n Hn; cbn [advance].
  - destruct (n =? 0) eqn:E; [apply N.eqb_eq in E; lia|reflexivity].
  - unfold total in *. cbn [concat] in Hn. rewrite len_app' in Hn.
    destruct (n =? 0) eqn:E; [apply N.eqb_eq in E; lia|].
    destruct (n <? len x) eqn:E1; [apply N.ltb_lt in E1; lia|]. apply IH. lia.
Qed.

Definition no_empty (bufs : list bytes) : Prop := Forall (fun c => c <> []) bufs.
Lemma advance_no_empty bufs : forall n bufs', no_empty bufs -> advance bufs n = Some bufs' ->
  no_empty bufs' /\ (n <> 0 -> chunk bufs <> [] -> len (chunk bufs) <= n -> (length bufs' < length bufs)%nat).
Proof.
  induction bufs as [|x r IH]; intros n bufs' Hne H; cbn [advance] in H.
  - destruct (n =? 0); [injection H as <-; split; [exact Hne|cbn; tauto]|discriminate].
  - destruct (n =? 0) eqn:E0; [injection H as <-; apply N.eqb_eq in E0; split; [exact Hne|lia]|].
    destruct (n <? len x) eqn:E1.
    + injection H as <-. apply N.ltb_lt in E1. inversion Hne; subst. split.
      * constructor; [|assumption]. intros Hs. apply (f_equal (@length N)) in Hs. rewrite skipn_length in Hs. cbn in Hs. unfold len in E1. lia.
      * cbn [chunk]. lia.
    + inversion Hne; subst. destruct (IH _ _ H3 H) as [Hn' _]. split; [exact Hn'|]. intros _ _ _.
      assert (Hl : forall bufs n bufs', advance bufs n = Some bufs' -> (length bufs' <= length bufs)%nat).
      { clear. induction bufs as [|x r IH]; intros n bufs' H; cbn [advance] in H.
        - destruct (n =? 0); [injection H as <-; lia|discriminate].
        - destruct (n =? 0); [injection H as <-; lia|]. destruct (n <? len x); [injection H as <-; cbn; lia|].
          apply IH in H. cbn. lia. }
      apply Hl in H. cbn [length]. lia.
Qed.

Lemma advance_spec' bufs n : n <= total bufs -> exists bufs', advance bufs n = Some bufs' /\
  concat bufs' = skipn (N.to_nat n) (concat bufs) /\ (no_empty bufs -> no_empty bufs').
Proof.
  intros H. destruct (advance_spec bufs n H) as (b & E & C). exists b. split; [exact E|]. split; [exact C|].
  intros Hne. exact (proj1 (advance_no_empty _ _ _ Hne E)).
Qed.
Lemma skipn_twice {A} (l : list A) : forall a c, skipn a (skipn c l) = skipn (c + a) l.
Proof. induction l as [|x l IH]; intros a [|c]; cbn; auto. apply skipn_nil. Qed.
Lemma put_take_spec fuel : forall bufs n acc, no_empty bufs -> (length bufs <= fuel)%nat -> n <= total bufs ->
  exists bufs', put_take fuel bufs n acc = Some (acc ++ firstn (N.to_nat n) (concat bufs), bufs') /\
    concat bufs' = skipn (N.to_nat n) (concat bufs) /\ no_empty bufs'.
Proof.
  induction fuel as [|fuel IH]; intros bufs n acc Hne Hf Hn.
  - destruct bufs; [|cbn in Hf; lia]. unfold total in Hn. cbn in Hn. replace n with 0 by lia.
    cbn [put_take]. exists []. cbn. rewrite app_nil_r. repeat split. constructor.
  - cbn [put_take]. destruct (n =? 0) eqn:E0.
    { apply N.eqb_eq in E0. subst n. exists bufs. cbn. rewrite app_nil_r. repeat split. exact Hne. }
    apply N.eqb_neq in E0. cbn [orb].
    assert (Hr : has_remaining bufs = true).
    { apply has_remaining_true. intros H. unfold total in Hn. rewrite H in Hn. cbn in Hn. lia. }
    rewrite Hr. cbn [negb]. destruct bufs as [|x r]; [discriminate|]. cbn [chunk].
    set (c := firstn (N.to_nat n) x).
    assert (Hx : x <> []) by (now inversion Hne).
    assert (Hx' : 0 < len x) by (unfold len; destruct x; [contradiction|cbn; lia]).
    assert (Hc : len c = N.min n (len x)) by (unfold c, len; rewrite firstn_length; lia).
    assert (Hct : len c <= total (x :: r)) by (unfold total; cbn [concat]; rewrite len_app'; lia).
    destruct (advance_spec (x :: r) (len c) Hct) as (bufs1 & Ha & Hcc). rewrite Ha.
    destruct (advance_no_empty _ _ _ Hne Ha) as [Hne1 Hlen].
    destruct (N.le_gt_cases (len x) n) as [Hcase|Hcase].
    + assert (Hl1 : (length bufs1 < length (x :: r))%nat) by (apply Hlen; cbn [chunk]; auto; lia).
      destruct (IH bufs1 (n - len c) (acc ++ c) Hne1) as (bufs' & Hp & Hcc' & Hne').
      * cbn [length] in *. lia.
      * unfold total in *. rewrite Hcc. cbn [concat] in *. rewrite len_app' in Hn. unfold len in *. rewrite skipn_length, app_length. lia.
      * exists bufs'. rewrite Hp, Hcc. split; [|split; [|exact Hne']].
        -- f_equal. f_equal. rewrite <- app_assoc. f_equal. unfold c. cbn [concat].
           rewrite (firstn_all2 x) by (unfold len in *; lia). rewrite firstn_app.
           rewrite (firstn_all2 (n := N.to_nat n) x) by (unfold len in *; lia). f_equal.
           rewrite skipn_app, (skipn_all2 x) by (unfold len in *; lia). cbn [app].
           replace (N.to_nat (len x) - length x)%nat with 0%nat by (unfold len; lia). cbn [skipn].
           f_equal. unfold len. lia.
        -- rewrite Hcc', Hcc. rewrite skipn_twice. f_equal. lia.
    + (* the first buffer suffices *)
      assert (Ec : len c = n) by lia. rewrite Ec. rewrite N.sub_diag. exists bufs1.
      assert (E1 : put_take fuel bufs1 0 (acc ++ c) = Some (acc ++ c, bufs1)) by (destruct fuel; reflexivity).
      rewrite E1. split; [|split; [|exact Hne1]].
      * f_equal. f_equal. f_equal. unfold c. cbn [concat]. rewrite firstn_app.
        replace (N.to_nat n - length x)%nat with 0%nat by (unfold len in *; lia). cbn. now rewrite app_nil_r.
      * rewrite Hcc, Ec. reflexivity.
Qed.

Theorem copy_spec fuel bufs n : no_empty bufs -> (length bufs <= fuel)%nat ->
  (n <= total bufs -> exists rest, copy_to_bytes fuel bufs n = Copied (firstn (N.to_nat n) (concat bufs)) rest /\
     concat rest = skipn (N.to_nat n) (concat bufs) /\ no_empty rest) /\
  (total bufs < n -> copy_to_bytes fuel bufs n = CopyPanic).
Proof.
  intros Hne Hf. unfold copy_to_bytes. destruct bufs as [|x r].
  - split; intros Hn.
    + unfold total in *. cbn [concat] in *. replace n with 0 by (cbn in Hn; lia). exists []. destruct fuel; (split; [reflexivity|split; [reflexivity|constructor]]).
    + apply N.ltb_lt in Hn. now rewrite Hn.
  - destruct (n <=? len x) eqn:E.
    + apply N.leb_le in E. assert (Hle : n <= total (x :: r)) by (unfold total; cbn [concat]; rewrite len_app'; lia).
      split; [intros _|lia]. eexists. split; [|split].
      * f_equal. cbn [concat]. rewrite firstn_app. replace (N.to_nat n - length x)%nat with 0%nat by (unfold len in *; lia).
        cbn. now rewrite app_nil_r.
      * cbn [concat]. rewrite skipn_app. replace (N.to_nat n - length x)%nat with 0%nat by (unfold len in *; lia). cbn [skipn].
        destruct (len (skipn (N.to_nat n) x) =? 0) eqn:E0; [|reflexivity]. apply N.eqb_eq in E0. apply len_zero in E0. now rewrite E0.
      * inversion Hne; subst. destruct (len (skipn (N.to_nat n) x) =? 0) eqn:E0; [assumption|]. constructor; [|assumption].
        intros Hs. rewrite Hs in E0. discriminate.
    + split; intros Hn.
      * replace (total (x :: r) <? n) with false by (symmetry; apply N.ltb_ge; lia).
        destruct (put_take_spec fuel (x :: r) n [] Hne Hf Hn) as (bufs' & -> & Hc & Hn'). cbn [app]. eauto.
      * apply N.ltb_lt in Hn. now rewrite Hn.
Qed.

Lemma put_take_stuck fuel x r n acc : n <> 0 -> has_remaining ([] :: x :: r) = true ->
  put_take fuel ([] :: x :: r) n acc = None.
Proof.
  intros Hn Hr. revert acc. induction fuel as [|fuel IH]; intros acc; cbn [put_take].
  - apply N.eqb_neq in Hn. now rewrite Hn, Hr.
  - apply N.eqb_neq in Hn. rewrite Hn, Hr. cbn [orb negb chunk]. rewrite firstn_nil. cbn [len length N.of_nat advance].
    change (0 =? 0) with true. cbv iota. rewrite N.sub_0_r. apply IH.
Qed.

Theorem empty_from_the_start eos b limit ops w t i h : eos b = true -> run (init b limit) ops = (w, t) ->
  nth_error (w_handles w) i = Some (Some h) -> is_end_stream eos (eos b) h = true.
Proof. intros E _ _. unfold is_end_stream. rewrite E. reflexivity. Qed.
