(** Proofs about the counters of bytes by zone. *)
From Coq Require Import String List NArith Bool Arith Lia.
From Verif Require Import Bytes EndpointModel EndpointSpec LabelModel HistogramModel ZoneModel ZoneSpec.
Import ListNotations.
Open Scope N_scope.

Lemma label_eqb_iff a b : label_eqb a b = true <-> a = b.
Proof. destruct a as [[|] [| |]], b as [[|] [| |]]; cbn; split; intros H; congruence. Qed.
Lemma label_eqb_refl a : label_eqb a a = true.
Proof. apply label_eqb_iff. reflexivity. Qed.
Lemma create_keys l f k : In k (map fst (get_or_create l f)) <-> k = l \/ In k (map fst f).
Proof.
  induction f as [|[k' n] f IH]; cbn [get_or_create map fst In]; [intuition congruence|]. destruct (label_eqb k' l) eqn:E.
  - apply label_eqb_iff in E. subst. cbn [map fst In]. intuition.
  - cbn [map fst In]. rewrite IH. intuition.
Qed.
Lemma create_nodup l f : NoDup (map fst f) -> NoDup (map fst (get_or_create l f)).
Proof.
  induction f as [|[k n] f IH]; cbn [get_or_create map fst]; intros H; [repeat constructor; intros []|]. inversion H as [|? ? H1 H2]. subst. destruct (label_eqb k l) eqn:E; [exact H|].
  cbn [map fst]. constructor; [|exact (IH H2)]. rewrite create_keys. intros [->|I]; [rewrite label_eqb_refl in E; discriminate|exact (H1 I)].
Qed.
Lemma create_in l f k n : NoDup (map fst f) -> In (k, n) (get_or_create l f) <-> In (k, n) f \/ (k = l /\ n = 0 /\ ~ In l (map fst f)).
Proof.
  induction f as [|[k' n'] f IH]; cbn [get_or_create map fst In]; intros H.
  - split; [intros [E|[]]; injection E as <- <-; right; auto|]. intros [[]|(-> & -> & _)]. left. reflexivity.
  - inversion H as [|? ? H1 H2]. subst. destruct (label_eqb k' l) eqn:E.
    + apply label_eqb_iff in E. subst. cbn [In]. split; [tauto|]. intros [T|(-> & -> & N)]; [exact T|]. exfalso. apply N. left. reflexivity.
    + cbn [In]. rewrite (IH H2). assert (k' <> l) by (intros ->; rewrite label_eqb_refl in E; discriminate). intuition.
Qed.
Lemma inc_keys l n f : map fst (inc_by l n f) = map fst f.
Proof. induction f as [|[k m] f IH]; [reflexivity|]. cbn [inc_by]. destruct (label_eqb k l); cbn [map fst]; [reflexivity|]. now rewrite IH. Qed.
Lemma inc_in l n f k m : NoDup (map fst f) -> In (k, m) (inc_by l n f) <-> (k <> l /\ In (k, m) f) \/ (k = l /\ exists m', In (l, m') f /\ m = counter_add m' n).
Proof.
  induction f as [|[k' m'] f IH]; cbn [inc_by map fst In]; intros H.
  - split; [intros []|]. intros [[_ []]|(_ & m' & [] & _)].
  - inversion H as [|? ? H1 H2]. subst. destruct (label_eqb k' l) eqn:E.
    + apply label_eqb_iff in E. subst. cbn [In]. split.
      * intros [X|X]; [injection X as <- <-; right; split; [reflexivity|]; exists m'; split; [left; reflexivity|reflexivity]|].
        left. split; [|right; exact X]. intros ->. apply H1. apply (in_map fst) in X. exact X.
      * intros [[N [X|X]]|(-> & m0 & [X|X] & ->)].
        -- injection X as <- <-. contradiction.
        -- right. exact X.
        -- injection X as <-. left. reflexivity.
        -- exfalso. apply H1. apply (in_map fst) in X. exact X.
    + assert (D : k' <> l) by (intros ->; rewrite label_eqb_refl in E; discriminate). cbn [In]. rewrite (IH H2). split.
      * intros [X|[[N X]|(-> & m0 & X & ->)]]; [injection X as <- <-; left; split; [exact D|left; reflexivity]|left; split; [exact N|right; exact X]|].
        right. split; [reflexivity|]. exists m0. split; [right; exact X|reflexivity].
      * intros [[N [X|X]]|(-> & m0 & [X|X] & ->)].
        -- left. exact X.
        -- right. left. split; assumption.
        -- injection X as -> _. contradiction.
        -- right. right. split; [reflexivity|]. exists m0. split; [exact X|reflexivity].
Qed.

Lemma zones_app a b : zones (a ++ b) = zones a ++ zones b.
Proof. induction a as [|e a IH]; [reflexivity|]. destruct e; cbn [zones app]; rewrite ?IH; reflexivity. Qed.
Lemma set_nth_fst {A B} i (x : A * B) l y : nth_error l i = Some y -> fst x = fst y -> map fst (set_nth i x l) = map fst l.
Proof.
  revert i. induction l as [|z l IH]; intros [|i] H E; cbn [set_nth map] in *; try discriminate.
  - cbn in H. injection H as ->. now rewrite E.
  - f_equal. exact (IH i H E).
Qed.
Definition total (zs : list zone_locality) (h : list event) (o : op) (z : zone_locality) : N := fold_right N.add 0 (map (moved zs o z) h).
Lemma total_app zs a b o z : total zs (a ++ b) o z = total zs a o z + total zs b o z.
Proof.
  unfold total. rewrite map_app. generalize (map (moved zs o z) b) as y. induction (map (moved zs o z) a) as [|n l IH]; intros y; cbn [app fold_right]; [lia|]. rewrite IH. lia.
Qed.
(** What happened is on connections that had been asked for *)
Definition ids_below (n : nat) (h : list event) : Prop :=
  Forall (fun e => match e with Reads id _ | Writes id _ => (id < n)%nat | _ => True end) h.
Lemma total_more zs zs' h o z : ids_below (length zs) h -> total (zs ++ zs') h o z = total zs h o z.
Proof.
  induction 1 as [|e h H F IH]; [reflexivity|]. unfold total in *. cbn [map fold_right]. rewrite IH. f_equal.
  unfold moved. destruct o, e as [m|id|id|id [|n|]|id [|n|]|id]; try reflexivity; rewrite nth_error_app1 by exact H; reflexivity.
Qed.
Lemma below_more n m h : (n <= m)%nat -> ids_below n h -> ids_below m h.
Proof. intros L. apply Forall_impl. intros [] H; try exact I; eapply Nat.lt_le_trans; eassumption. Qed.

Record inv (h : list event) (s : state) : Prop := Inv {
  i_zones : map fst (conns s) = zones h;
  i_below : ids_below (List.length (zones h)) h;
  i_nodup : NoDup (map fst (counters s));
  i_keys : forall o z, In (o, z) (map fst (counters s)) <-> In z (zones h);
  i_value : forall o z n, In ((o, z), n) (counters s) -> n = total (zones h) h o z mod 2 ^ 64 }.

Lemma quiet h s e s' : inv h s -> counters s' = counters s -> map fst (conns s') = map fst (conns s) ->
  match e with Connects _ | Reads _ _ | Writes _ _ => False | _ => True end -> inv (h ++ [e]) s'.
Proof.
  intros [I1 I2 I3 I4 I5] C Z Q. assert (E : zones (h ++ [e]) = zones h) by (rewrite zones_app; destruct e; try contradiction; apply app_nil_r).
  constructor; rewrite ?E, ?C, ?Z; try assumption.
  - apply Forall_app. split; [exact I2|]. constructor; [|constructor]. destruct e; try contradiction; exact I.
  - intros o z n H. rewrite total_app, (I5 o z n H). replace (total (zones h) [e] o z) with 0; [now rewrite N.add_0_r|]. destruct o, e; try contradiction; reflexivity.
Qed.
Lemma counter_add_mod m n : counter_add (m mod 2 ^ 64) n = (m + n) mod 2 ^ 64.
Proof. unfold counter_add. apply N.add_mod_idemp_l. discriminate. Qed.
Lemma io_inv h s id z ph n (o : op) e : inv h s -> nth_error (conns s) id = Some (z, ph) ->
  e = match o with Recv => Reads id (Done n) | Send => Writes id (Done n) end ->
  inv (h ++ [e]) (State (inc_by (o, z) n (counters s)) (conns s)).
Proof.
  intros [I1 I2 I3 I4 I5] NE Ee. assert (Z : nth_error (zones h) id = Some z).
  { rewrite <- I1. rewrite nth_error_map, NE. reflexivity. }
  assert (E : zones (h ++ [e]) = zones h) by (rewrite zones_app; subst e; destruct o; apply app_nil_r).
  assert (L : (id < List.length (zones h))%nat) by (apply nth_error_Some; rewrite Z; discriminate).
  constructor; cbn [counters conns]; rewrite ?E, ?inc_keys; try assumption.
  - apply Forall_app. split; [exact I2|]. constructor; [|constructor]. subst e. destruct o; exact L.
  - intros o' z' m H. apply inc_in in H; [|exact I3]. rewrite total_app.
    assert (T : total (zones h) [e] o' z' = if label_eqb (o', z') (o, z) then n else 0).
    { unfold total. cbn [map fold_right]. rewrite N.add_0_r. subst e. unfold moved. destruct o, o'; cbn [label_eqb fst snd andb]; try reflexivity; rewrite Z;
      destruct (zone_eq_dec z' z) as [->|D]; destruct z; try reflexivity; destruct z'; try reflexivity; contradiction. }
    rewrite T. destruct H as [[D H]|(Eq & m' & H & ->)].
    + assert (label_eqb (o', z') (o, z) = false) as -> by (destruct (label_eqb (o', z') (o, z)) eqn:X; [apply label_eqb_iff in X; contradiction|reflexivity]).
      rewrite N.add_0_r. exact (I5 _ _ _ H).
    + injection Eq as -> ->. rewrite label_eqb_refl. rewrite (I5 _ _ _ H). apply counter_add_mod.
Qed.
Lemma inv_step h s e s' : inv h s -> step s e = Some s' -> inv (h ++ [e]) s'.
Proof.
  intros H. destruct e as [m|id|id|id r|id r|id]; cbn [step].
  - intros E. injection E as <-. destruct H as [I1 I2 I3 I4 I5].
    assert (Z : zones (h ++ [Connects m]) = zones h ++ [zone_new m]) by (rewrite zones_app; reflexivity).
    assert (B : ids_below (List.length (zones h)) (h ++ [Connects m])) by (apply Forall_app; split; [exact I2|repeat constructor]).
    constructor; cbn [counters conns]; unfold metrics; cbn [tcp_zone_labels].
    + rewrite map_app, I1, Z. reflexivity.
    + rewrite Z, app_length. exact (below_more _ _ _ (Nat.le_add_r _ _) B).
    + apply create_nodup, create_nodup, I3.
    + intros o z. rewrite !create_keys, I4, Z, in_app_iff. cbn [In]. destruct o; split.
      * intros [X|[X|X]]; [injection X as ->; auto|discriminate|auto].
      * intros [X|[<-|[]]]; auto.
      * intros [X|[X|X]]; [discriminate|injection X as ->; auto|auto].
      * intros [X|[<-|[]]]; auto.
    + intros o z n. rewrite Z, total_more by exact B. rewrite total_app. replace (total (zones h) [Connects m] o z) with 0 by (destruct o; reflexivity). rewrite N.add_0_r.
      rewrite create_in by (apply create_nodup; exact I3). rewrite create_in by exact I3.
      assert (Q : forall o z, ~ In (o, z) (map fst (counters s)) -> total (zones h) h o z = 0).
      { intros o' z' N. assert (N' : ~ In z' (zones h)) by (rewrite <- (I4 o'); exact N). clear -N'. unfold total. induction h as [|e h IH] in N' |- *; [reflexivity|].
        assert (G : forall zs, ~ In z' zs -> forall l, fold_right N.add 0 (map (moved zs o' z') l) = 0).
        { intros zs NZ. induction l as [|x l IHl]; [reflexivity|]. cbn [map fold_right]. rewrite IHl, N.add_0_r. unfold moved.
          destruct o', x as [m0|i|i|i [|k|]|i [|k|]|i]; try reflexivity; (destruct (nth_error zs i) eqn:X; [|reflexivity]); (destruct (zone_eq_dec z' z) as [->|]; [|reflexivity]); apply nth_error_In in X; contradiction. }
        apply G. exact N'. }
      intros [[X|(X & -> & N)]|(X & -> & N)].
      * exact (I5 _ _ _ X).
      * injection X as -> ->. rewrite Q by exact N. reflexivity.
      * injection X as -> ->. rewrite Q; [reflexivity|]. intros J. apply N. apply create_keys. right. exact J.
  - destruct (nth_error (conns s) id) as [[z []]|] eqn:NE; try discriminate. intros E. injection E as <-. apply (quiet _ s); [exact H|reflexivity| |exact I]. cbn [conns]; apply (set_nth_fst _ _ _ _ NE); reflexivity.
  - destruct (nth_error (conns s) id) as [[z []]|] eqn:NE; try discriminate. intros E. injection E as <-. apply (quiet _ s); [exact H|reflexivity| |exact I]. cbn [conns]; apply (set_nth_fst _ _ _ _ NE); reflexivity.
  - destruct (nth_error (conns s) id) as [[z []]|] eqn:NE; try discriminate. intros E. injection E as <-. destruct r as [|n|].
    2:{ exact (io_inv h s id z Open n Recv _ H NE eq_refl). }
    all: destruct H as [I1 I2 I3 I4 I5]; rewrite <- (app_nil_r (zones h)) in *;
      assert (L : (id < List.length (zones h))%nat) by (rewrite app_nil_r in I1; rewrite <- I1, map_length; apply nth_error_Some; rewrite NE; discriminate); rewrite app_nil_r in *;
      constructor; rewrite ?zones_app; cbn [zones]; rewrite ?app_nil_r; try assumption;
      [apply Forall_app; split; [exact I2|repeat constructor; exact L]|intros o z' k J; rewrite total_app, (I5 _ _ _ J); replace (total (zones h) [_] o z') with 0 by (destruct o; reflexivity); now rewrite N.add_0_r].
  - destruct (nth_error (conns s) id) as [[z []]|] eqn:NE; try discriminate. intros E. injection E as <-. destruct r as [|n|].
    2:{ exact (io_inv h s id z Open n Send _ H NE eq_refl). }
    all: destruct H as [I1 I2 I3 I4 I5]; 
      assert (L : (id < List.length (zones h))%nat) by (rewrite <- I1, map_length; apply nth_error_Some; rewrite NE; discriminate);
      constructor; rewrite ?zones_app; cbn [zones]; rewrite ?app_nil_r; try assumption;
      [apply Forall_app; split; [exact I2|repeat constructor; exact L]|intros o z' k J; rewrite total_app, (I5 _ _ _ J); replace (total (zones h) [_] o z') with 0 by (destruct o; reflexivity); now rewrite N.add_0_r].
  - destruct (nth_error (conns s) id) as [[z []]|] eqn:NE; try discriminate; intros E; injection E as <-; (apply (quiet _ s); [exact H|reflexivity| |exact I]); cbn [conns]; apply (set_nth_fst _ _ _ _ NE); reflexivity.
Qed.
Lemma inv_run h s : run h s -> inv h s.
Proof.
  induction 1 as [|h s e s' H IH E]; [|exact (inv_step _ _ _ _ IH E)].
  constructor; cbn [counters conns map zones]; [reflexivity|constructor|constructor|intros o z; split; intros []|intros o z n []].
Qed.
Theorem bytes h s o z n : run h s -> shown s o z n -> n = transferred h o z mod 2 ^ 64.
Proof. intros H S. destruct (inv_run _ _ H). exact (i_value0 _ _ _ S). Qed.
Theorem series h s o z : run h s -> (exists n, shown s o z n) <-> In z (zones h).
Proof.
  intros H. destruct (inv_run _ _ H). rewrite <- (i_keys0 o z). unfold shown. split.
  - intros [n I]. apply (in_map fst) in I. exact I.
  - intros I. apply in_map_iff in I as ([k n] & E & I). cbn in E. subst k. exists n. exact I.
Qed.
Theorem once h s o z n m : run h s -> shown s o z n -> shown s o z m -> n = m.
Proof.
  intros H A B. rewrite (bytes _ _ _ _ _ H A), (bytes _ _ _ _ _ H B). reflexivity.
Qed.
Theorem zone_said set_labels w m url authority duration : described url authority duration set_labels w m ->
  (zone_new m = Z_local <-> exists v, In (bs "zone_locality"%string, v) (w_labels w) /\ lowers v = bs "local"%string) /\
  (zone_new m = Z_remote <-> exists v, In (bs "zone_locality"%string, v) (w_labels w) /\ lowers v = bs "remote"%string).
Proof.
  intros D. rewrite <- (d_local _ _ _ _ _ _ D), <- (d_remote _ _ _ _ _ _ D). unfold zone_new. destruct (m_zone_local m) as [[|]|]; split; split; intros H; congruence.
Qed.
