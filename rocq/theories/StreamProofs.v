(** Proofs about log streams. *)
From Coq Require Import String List Arith NArith Bool Lia.
From Verif Require Import Bytes StreamModel StreamSpec.
Import ListNotations.
Local Open Scope nat_scope.

(** ** Lists *)
Lemma put_length {A} k (x : A) l : List.length (put k x l) = List.length l.
Proof. revert k; induction l as [|y l IH]; intros [|k]; simpl; auto. Qed.

Lemma put_same {A} k (x : A) l : k < List.length l -> nth_error (put k x l) k = Some x.
Proof. revert k; induction l as [|y l IH]; intros [|k] H; simpl in *; try lia; auto. apply IH; lia. Qed.

Lemma put_other {A} k j (x : A) l : k <> j -> nth_error (put k x l) j = nth_error l j.
Proof. revert k j; induction l as [|y l IH]; intros [|k] [|j] H; simpl; auto; try congruence. Qed.

Lemma put_nth {A} k j (x : A) l : k < List.length l -> nth_error (put k x l) j = if k =? j then Some x else nth_error l j.
Proof.
  intros H. destruct (Nat.eqb_spec k j) as [->|N]; [now apply put_same | now apply put_other].
Qed.

Lemma nth_some_lt {A} (l : list A) k x : nth_error l k = Some x -> k < List.length l.
Proof. intros H. apply nth_error_Some. congruence. Qed.

Lemma nth_snoc {A} (l : list A) x k : nth_error (l ++ [x]) k = if k =? List.length l then Some x else nth_error l k.
Proof.
  destruct (Nat.eqb_spec k (List.length l)) as [->|N].
  - rewrite nth_error_app2, Nat.sub_diag; auto.
  - destruct (Nat.lt_ge_cases k (List.length l)).
    + now rewrite nth_error_app1.
    + rewrite nth_error_app2 by auto. replace (k - List.length l) with (S (k - List.length l - 1)) by lia.
      simpl. destruct (k - List.length l - 1); simpl; symmetry; apply nth_error_None; lia.
Qed.

(** ** The slab *)
Lemma in_writers sl w : In w (writers sl) <-> exists k, nth_error (s_entries sl) k = Some (Some w).
Proof.
  unfold writers. rewrite in_flat_map. split.
  - intros (o & I & H). destruct o as [w'|]; [|destruct H]. destruct H as [->|[]].
    apply In_nth_error in I. exact I.
  - intros (k & H). exists (Some w). split; [eapply nth_error_In; eauto | now left].
Qed.

Section Streams.
Variable enabled : N -> N -> N -> bool.
Variable cares : N -> N -> interest.
Variable counts : nat -> bool.
Notation full := (full counts).

Notation step := (step enabled cares counts).
Notation run := (run enabled cares counts).

(** The filters of the streams that are started. *)
Fixpoint opened (h : list event) : list N :=
  match h with [] => [] | Open f :: h => f :: opened h | _ :: h => opened h end.

Lemma opened_app a b : opened (a ++ b) = opened a ++ opened b.
Proof. induction a as [|[] a IH]; simpl; rewrite ?IH; auto. Qed.

Lemma opens_opened h : opens h = List.length (opened h).
Proof. induction h as [|[] h IH]; simpl; auto. Qed.

Record inv (fs : list N) (s : state) : Prop := {
  i_len : List.length (st_streams s) = List.length fs;
  i_vacant : NoDup (s_vacant (st_slab s));
  i_none : forall k, In k (s_vacant (st_slab s)) -> nth_error (s_entries (st_slab s)) k = Some None;
  i_entry : forall k w, nth_error (s_entries (st_slab s)) k = Some (Some w) ->
    exists r, nth_error (st_streams s) (w_id w) = Some r /\ r_idx r = k /\ r_task r <> Ended /\ nth_error fs (w_id w) = Some (w_filter w);
  i_live : forall i r, nth_error (st_streams s) i = Some r -> r_task r <> Ended ->
    exists f, nth_error fs i = Some f /\ nth_error (s_entries (st_slab s)) (r_idx r) = Some (Some (Writer i f));
  i_filters : forall id, In id (st_filters s) <-> exists w, In w (writers (st_slab s)) /\ w_id w = id;
  i_once : NoDup (st_filters s) }.

Lemma writer_unique fs s k k' w w' : inv fs s -> nth_error (s_entries (st_slab s)) k = Some (Some w) ->
  nth_error (s_entries (st_slab s)) k' = Some (Some w') -> w_id w = w_id w' -> k = k'.
Proof.
  intros I E E' H. destruct (i_entry _ _ I _ _ E) as (r & R & <- & _). destruct (i_entry _ _ I _ _ E') as (r' & R' & <- & _).
  rewrite H in R. congruence.
Qed.

Lemma ids_nodup (es : list (option writer)) v :
  (forall k k' w w', nth_error es k = Some (Some w) -> nth_error es k' = Some (Some w') -> w_id w = w_id w' -> k = k') ->
  NoDup (map w_id (writers (Slab es v))).
Proof.
  unfold writers; simpl. induction es as [|o es IH]; intros U; simpl; [constructor|].
  assert (T : NoDup (map w_id (flat_map (fun o => match o with Some w => [w] | None => [] end) es))).
  { apply IH. intros k k' w w' A B C. specialize (U (S k) (S k') w w' A B C). lia. }
  destruct o as [w|]; simpl; auto. constructor; auto. intros J. apply in_map_iff in J. destruct J as (w' & E & J).
  apply (in_writers (Slab es [])) in J. destruct J as (k & J). specialize (U 0 (S k) w w' eq_refl J (eq_sym E)). discriminate.
Qed.

Lemma inv_nodup fs s : inv fs s -> NoDup (map w_id (writers (st_slab s))).
Proof.
  intros I. destruct (st_slab s) as [es v] eqn:E. apply ids_nodup. intros k k' w w' A B C.
  eapply (writer_unique fs s k k' w w' I); rewrite ?E; auto.
Qed.

Lemma find_writer l w : NoDup (map w_id l) -> In w l -> List.find (fun x => w_id x =? w_id w) l = Some w.
Proof.
  induction l as [|y l IH]; intros N H; [destruct H|]. simpl in *. inversion N as [|? ? N1 N2]; subst.
  destruct H as [->|H]; [now rewrite Nat.eqb_refl|].
  destruct (Nat.eqb_spec (w_id y) (w_id w)) as [E|E]; auto.
  exfalso. apply N1. rewrite E. now apply in_map.
Qed.

Lemma in_filters fs s w : inv fs s -> In w (writers (st_slab s)) -> In (w_filter w) (filters s).
Proof.
  intros I H. unfold filters. apply in_flat_map. exists (w_id w). split; [apply (i_filters _ _ I); eauto|].
  unfold upgrade. rewrite (find_writer _ _ (inv_nodup _ _ I) H). now left.
Qed.

Lemma fold_never meta l i : fold_left (fun i f => match i, cares f meta with
                        | Sometimes, Always => Always
                        | Never, Sometimes => Sometimes
                        | Never, Always => Always
                        | i, _ => i
                        end) l i = Never -> i = Never /\ forall f, In f l -> cares f meta = Never.
Proof.
  revert i; induction l as [|f l IH]; intros i H; simpl in *; [split; auto; intros ? []|].
  apply IH in H. destruct H as [H1 H2]. destruct i; [|destruct (cares f meta); discriminate|discriminate].
  split; auto. intros g [->|J]; auto. destruct (cares g meta); congruence.
Qed.

Lemma no_writers fs s meta ctx : inv fs s -> (forall f, In f (filters s) -> enabled f meta ctx = false) ->
  writers_for enabled (st_slab s) meta ctx = [].
Proof.
  intros I H. unfold writers_for. assert (G : forall w, In w (writers (st_slab s)) -> enabled (w_filter w) meta ctx = false).
  { intros w J. apply H. eapply in_filters; eauto. }
  induction (writers (st_slab s)) as [|w l IH]; simpl; auto. rewrite G by now left. apply IH. intros v J. apply G. now right.
Qed.

Lemma emit_eq fs s meta ctx line : truthful enabled cares -> inv fs s ->
  emit enabled cares counts meta ctx line s = State (st_slab s) (st_filters s)
    (fold_left (fun l w => update (w_id w) (write counts line) l) (writers_for enabled (st_slab s) meta ctx) (st_streams s)).
Proof.
  intros T I. unfold emit. destruct (callsite_enabled cares s meta) eqn:C; auto.
  - unfold callsite_enabled in C. apply fold_never in C. rewrite (no_writers fs s); auto.
    + simpl. now destruct s.
    + intros f J. apply T. now apply C.
  - unfold filter_enabled. destruct (existsb (fun f => enabled f meta ctx) (filters s)) eqn:X; auto.
    rewrite (no_writers fs s); auto.
    + simpl. now destruct s.
    + intros f J. destruct (enabled f meta ctx) eqn:E; auto. exfalso.
      assert (existsb (fun f => enabled f meta ctx) (filters s) = true) by (apply existsb_exists; eauto). congruence.
Qed.

Lemma update_nth i f l j : nth_error (update i f l) j = if i =? j then option_map f (nth_error l j) else nth_error l j.
Proof.
  unfold update. destruct (nth_error l i) as [r|] eqn:E.
  - rewrite put_nth by (eapply nth_some_lt; eauto). destruct (Nat.eqb_spec i j) as [<-|]; auto. now rewrite E.
  - destruct (Nat.eqb_spec i j) as [<-|]; auto. now rewrite E.
Qed.

Lemma update_length i f l : List.length (update i f l) = List.length l.
Proof. unfold update. destruct (nth_error l i); auto using put_length. Qed.

Lemma fold_update (g : stream -> stream) ws l i : NoDup (map w_id ws) ->
  nth_error (fold_left (fun l w => update (w_id w) g l) ws l) i =
  if existsb (fun w => w_id w =? i) ws then option_map g (nth_error l i) else nth_error l i.
Proof.
  revert l; induction ws as [|w ws IH]; intros l N; simpl; auto. inversion N as [|? ? N1 N2]; subst.
  rewrite IH, !update_nth by auto. destruct (Nat.eqb_spec (w_id w) i) as [E|E]; simpl; auto.
  destruct (existsb (fun w => w_id w =? i) ws) eqn:X; auto. exfalso. apply existsb_exists in X. destruct X as (v & J & H).
  apply Nat.eqb_eq in H. apply N1. rewrite E, <- H. now apply in_map.
Qed.

Lemma fold_update_length (g : stream -> stream) ws l :
  List.length (fold_left (fun l w => update (w_id w) g l) ws l) = List.length l.
Proof. revert l; induction ws as [|w ws IH]; intros l; simpl; auto. now rewrite IH, update_length. Qed.

Lemma nodup_filter_ids (p : writer -> bool) ws : NoDup (map w_id ws) -> NoDup (map w_id (List.filter p ws)).
Proof.
  induction ws as [|w ws IH]; simpl; intros N; auto. inversion N as [|? ? N1 N2]; subst. destruct (p w); simpl; auto.
  constructor; auto. intros J. apply N1. apply in_map_iff in J. destruct J as (v & <- & J). apply filter_In in J. now apply in_map.
Qed.

(** ** One stream *)
Definition is_ended (t : task) : bool := match t with Ended => true | _ => false end.

Definition local (f : N) (i : nat) (r : stream) (e : event) : stream :=
  match e with
  | Open _ => r
  | Emit meta ctx line => if is_ended (r_task r) then r else if enabled f meta ctx then write counts line r else r
  | Task j => if j =? i then fst (work r) else r
  | Read j => if j =? i then take r else r
  | Hang_up j => if j =? i then hang_up r else r
  end.

Lemma write_idx line r : r_idx (write counts line r) = r_idx r.
Proof. unfold write. now destruct (full _ _). Qed.
Lemma write_task line r : r_task (write counts line r) = r_task r.
Proof. unfold write. now destruct (full _ _). Qed.
Lemma take_idx r : r_idx (take r) = r_idx r.
Proof. unfold take. now destruct (r_open r), (r_body r). Qed.
Lemma take_task r : r_task (take r) = r_task r.
Proof. unfold take. now destruct (r_open r), (r_body r). Qed.

Lemma work_idx r : r_idx (fst (work r)) = r_idx r.
Proof. destruct r as [idx q d [|l|n|] b o got]; simpl; auto; [now destruct q| |]; destruct o; simpl; auto; now destruct (_ <? _). Qed.

Lemma work_ended r : snd (work r) = true <-> r_task r <> Ended /\ r_task (fst (work r)) = Ended.
Proof.
  destruct r as [idx q d [|l|n|] b o got]; unfold work; simpl.
  - destruct q; simpl; split; try discriminate; intros [_ H]; discriminate.
  - destruct o; simpl; [destruct (_ <? _); simpl; split; try discriminate; intros [_ H]; try discriminate;
      destruct (0 <? d)%N; discriminate | split; auto; split; auto; discriminate].
  - destruct o; simpl; [destruct (_ <? _); simpl; split; try discriminate; intros [_ H]; discriminate | split; auto; split; auto; discriminate].
  - split; [discriminate | intros [H _]; congruence].
Qed.

Lemma work_stays r : r_task r = Ended -> fst (work r) = r.
Proof. destruct r as [idx q d [|l|n|] b o got]; simpl; auto; discriminate. Qed.

(** Changing the streams, but not which of them have ended. *)
Lemma inv_streams fs s rs : inv fs s -> List.length rs = List.length (st_streams s) ->
  (forall i r r', nth_error (st_streams s) i = Some r -> nth_error rs i = Some r' -> r_idx r' = r_idx r /\ (r_task r' = Ended <-> r_task r = Ended)) ->
  inv fs (State (st_slab s) (st_filters s) rs).
Proof.
  intros I L H. destruct I as [I1 I2 I3 I4 I5 I6 I7]. constructor; simpl; auto.
  - congruence.
  - intros k w E. destruct (I4 k w E) as (r & R & X & T & F).
    assert (Q : exists r', nth_error rs (w_id w) = Some r').
    { destruct (nth_error rs (w_id w)) eqn:Z; eauto. apply nth_error_None in Z. apply nth_some_lt in R. lia. }
    destruct Q as (r' & Q). destruct (H _ _ _ R Q) as [A B]. exists r'. repeat (split; try congruence; try tauto).
  - intros i r' R' T.
    assert (Q : exists r, nth_error (st_streams s) i = Some r).
    { destruct (nth_error (st_streams s) i) eqn:Z; eauto. apply nth_error_None in Z. apply nth_some_lt in R'. lia. }
    destruct Q as (r & Q). destruct (H _ _ _ Q R') as [A B]. rewrite A. apply (I5 i r Q). tauto.
Qed.

(** ** Steps keep the invariant *)
Lemma inv_init : inv [] init.
Proof.
  constructor; simpl.
  - reflexivity.
  - constructor.
  - intros k [].
  - intros k w H. destruct k; discriminate.
  - intros i r H. destruct i; discriminate.
  - intros id. split; [intros [] | intros (w & [] & _)].
  - constructor.
Qed.

Lemma in_put_writers k w es v x : k < List.length es -> nth_error es k = Some None ->
  (In x (writers (Slab (put k (Some w) es) v)) <-> x = w \/ In x (writers (Slab es v))).
Proof.
  intros L N. rewrite !in_writers. simpl. split.
  - intros (j & H). rewrite put_nth in H by auto. destruct (Nat.eqb_spec k j) as [->|D]; [left; congruence | right; eauto].
  - intros [->|(j & H)].
    + exists k. now apply put_same.
    + exists j. rewrite put_nth by auto. destruct (Nat.eqb_spec k j) as [->|D]; auto. congruence.
Qed.

Lemma inv_open fs s f : inv fs s -> inv (fs ++ [f]) (add_stream f s).
Proof.
  intros I. pose proof I as J. destruct J as [I1 I2 I3 I4 I5 I6 I7].
  unfold add_stream, insert. destruct (s_vacant (st_slab s)) as [|k v] eqn:V.
  - constructor; simpl; auto; try constructor.
    + now rewrite !app_length, I1.
    + intros k [].
    + intros k w H. rewrite nth_snoc in H. destruct (Nat.eqb_spec k (List.length (s_entries (st_slab s)))) as [->|D].
      * inversion H; subst w; simpl. exists (Stream (List.length (s_entries (st_slab s))) [] 0 Waiting [] true []).
        split; [now rewrite nth_snoc, Nat.eqb_refl|]. repeat (split; auto). { simpl. discriminate. }
        now rewrite I1, nth_snoc, Nat.eqb_refl.
      * destruct (I4 k w H) as (r & R & X & T & F). exists r.
        rewrite nth_error_app1 by (eapply nth_some_lt; eauto). repeat (split; auto).
        rewrite nth_error_app1 by (eapply nth_some_lt; eauto). auto.
    + intros i r R T. rewrite nth_snoc in R. destruct (Nat.eqb_spec i (List.length (st_streams s))) as [->|D].
      * inversion R; subst r; simpl. exists f. split; [now rewrite I1, nth_snoc, Nat.eqb_refl | now rewrite nth_snoc, Nat.eqb_refl].
      * destruct (I5 i r R T) as (g & F & E). exists g. split; (rewrite nth_error_app1 by (eapply nth_some_lt; eauto)); auto.
    + intros H. apply in_app_iff in H. destruct H as [H|[<-|[]]].
      * apply I6 in H. destruct H as (w & W & <-). exists w. split; auto. unfold writers in *; simpl. rewrite flat_map_app, in_app_iff. auto.
      * exists (Writer (List.length (st_streams s)) f). split; auto. unfold writers; simpl. rewrite flat_map_app, in_app_iff. right. now left.
    + intros (w & W & <-). apply in_app_iff. unfold writers in W; simpl in W. rewrite flat_map_app, in_app_iff in W.
      destruct W as [W|[<-|[]]]; [left; apply I6; exists w; auto | right; now left].
    + apply NoDup_Add with (a := List.length (st_streams s)) (l := st_filters s).
      * rewrite <- (app_nil_r (st_filters s)) at 1. apply Add_app.
      * split; auto. intros H. apply I6 in H. destruct H as (w & W & E). apply in_writers in W. destruct W as (k & W).
        destruct (I4 k w W) as (r & R & _). apply nth_some_lt in R. lia.
  - assert (N : nth_error (s_entries (st_slab s)) k = Some None) by (apply I3; now left).
    assert (L : k < List.length (s_entries (st_slab s))) by (eapply nth_some_lt; eauto).
    inversion I2 as [|? ? V1 V2]; subst.
    constructor; simpl; auto.
    + now rewrite !app_length, I1.
    + intros j H. rewrite put_nth by auto. destruct (Nat.eqb_spec k j) as [->|D]; [tauto|]. apply I3. now right.
    + intros j w H. rewrite put_nth in H by auto. destruct (Nat.eqb_spec k j) as [->|D].
      * inversion H; subst w; simpl. exists (Stream j [] 0 Waiting [] true []).
        split; [now rewrite nth_snoc, Nat.eqb_refl|]. repeat (split; auto). { simpl. discriminate. }
        now rewrite I1, nth_snoc, Nat.eqb_refl.
      * destruct (I4 j w H) as (r & R & X & T & F). exists r.
        rewrite nth_error_app1 by (eapply nth_some_lt; eauto). repeat (split; auto).
        rewrite nth_error_app1 by (eapply nth_some_lt; eauto). auto.
    + intros i r R T. rewrite nth_snoc in R. destruct (Nat.eqb_spec i (List.length (st_streams s))) as [->|D].
      * inversion R; subst r; simpl. exists f. split; [now rewrite I1, nth_snoc, Nat.eqb_refl | now apply put_same].
      * destruct (I5 i r R T) as (g & F & E). exists g. split; [rewrite nth_error_app1 by (eapply nth_some_lt; eauto); auto|].
        rewrite put_nth by auto. destruct (Nat.eqb_spec k (r_idx r)) as [K|K]; auto. congruence.
    + intros id. rewrite in_app_iff. split.
      * intros H. destruct H as [H|[<-|[]]].
        -- apply I6 in H. destruct H as (w & W & <-). exists w. split; auto.
           apply (in_put_writers k _ (s_entries (st_slab s)) v w L N). right. exact W.
        -- exists (Writer (List.length (st_streams s)) f). split; auto. apply (in_put_writers k _ (s_entries (st_slab s)) v _ L N). now left.
      * intros (w & W & <-). apply (in_put_writers k _ (s_entries (st_slab s)) v w L N) in W.
        destruct W as [->|W]; [right; now left | left; apply I6; exists w; auto].
    + apply NoDup_Add with (a := List.length (st_streams s)) (l := st_filters s).
      * rewrite <- (app_nil_r (st_filters s)) at 1. apply Add_app.
      * split; auto. intros H. apply I6 in H. destruct H as (w & W & E). apply in_writers in W. destruct W as (k' & W).
        destruct (I4 k' w W) as (r & R & _). apply nth_some_lt in R. lia.
Qed.

Lemma find_id l id : (exists w, List.find (fun w => w_id w =? id) l = Some w) <-> exists w, In w l /\ w_id w = id.
Proof.
  split.
  - intros (w & H). apply find_some in H. destruct H as [H E]. apply Nat.eqb_eq in E. eauto.
  - intros (w & H & E). destruct (List.find (fun w => w_id w =? id) l) eqn:F; eauto.
    apply find_none with (x := w) in F; auto. apply Nat.eqb_neq in F. congruence.
Qed.

Lemma inv_remove fs s i r r' : inv fs s -> nth_error (st_streams s) i = Some r -> r_task r <> Ended ->
  r_idx r' = r_idx r -> r_task r' = Ended ->
  inv fs (remove_stream (r_idx r) (State (st_slab s) (st_filters s) (put i r' (st_streams s)))).
Proof.
  intros I R T X E. pose proof I as J. destruct J as [I1 I2 I3 I4 I5 I6 I7].
  destruct (I5 i r R T) as (f & F & W). unfold remove_stream, try_remove; simpl. rewrite W.
  assert (L : r_idx r < List.length (s_entries (st_slab s))) by (eapply nth_some_lt; eauto).
  assert (LR : i < List.length (st_streams s)) by (eapply nth_some_lt; eauto).
  assert (WR : forall w, In w (writers (Slab (put (r_idx r) None (s_entries (st_slab s))) (r_idx r :: s_vacant (st_slab s)))) <->
               In w (writers (st_slab s)) /\ w_id w <> i).
  { intros w. rewrite !in_writers. simpl. split.
    - intros (k & H). rewrite put_nth in H by auto. destruct (Nat.eqb_spec (r_idx r) k) as [K|K]; [discriminate|].
      split; eauto. intros <-. destruct (I4 k w H) as (r2 & R2 & X2 & _). congruence.
    - intros ((k & H) & N). exists k. rewrite put_nth by auto. destruct (Nat.eqb_spec (r_idx r) k) as [K|K]; auto.
      subst k. rewrite W in H. inversion H; subst w. simpl in N. congruence. }
  constructor; simpl; auto.
  - now rewrite put_length.
  - constructor; auto. intros H. apply I3 in H. congruence.
  - intros k [<-|H]; [now apply put_same|]. rewrite put_nth by auto. destruct (Nat.eqb_spec (r_idx r) k) as [K|K]; auto.
  - intros k w H. rewrite put_nth in H by auto. destruct (Nat.eqb_spec (r_idx r) k) as [K|K]; [discriminate|].
    destruct (I4 k w H) as (r2 & R2 & X2 & T2 & F2). exists r2. rewrite put_nth by auto.
    destruct (Nat.eqb_spec i (w_id w)) as [D|D]; [subst i; congruence | auto].
  - intros j r2 R2 T2. rewrite put_nth in R2 by auto. destruct (Nat.eqb_spec i j) as [D|D]; [inversion R2; subst; congruence|].
    destruct (I5 j r2 R2 T2) as (g & G & W2). exists g. split; auto. rewrite put_nth by auto.
    destruct (Nat.eqb_spec (r_idx r) (r_idx r2)) as [K|K]; auto. rewrite K in W. rewrite W in W2. inversion W2. congruence.
  - intros id. rewrite filter_In, I6. unfold upgrade. split.
    + intros (_ & H). destruct (List.find _ _) as [w|] eqn:FD; [|discriminate]. simpl in H.
      apply (proj1 (find_id _ id)). eauto.
    + intros (w & A & B). pose proof A as A'. apply WR in A. split; [exists w; tauto|].
      destruct (proj2 (find_id _ id) (ex_intro _ w (conj A' B))) as (w2 & H2). now rewrite H2.
  - now apply NoDup_filter.
Qed.

Lemma existsb_writer fs s i r f meta ctx : inv fs s -> nth_error (st_streams s) i = Some r -> nth_error fs i = Some f ->
  existsb (fun w => w_id w =? i) (writers_for enabled (st_slab s) meta ctx) = negb (is_ended (r_task r)) && enabled f meta ctx.
Proof.
  intros I R F. apply eq_true_iff_eq. rewrite existsb_exists, andb_true_iff, negb_true_iff. unfold writers_for. split.
  - intros (w & H & E). apply Nat.eqb_eq in E. apply filter_In in H. destruct H as [H G]. apply in_writers in H. destruct H as (k & H).
    destruct (i_entry _ _ I k w H) as (r2 & R2 & X2 & T2 & F2). subst i. rewrite R in R2. inversion R2; subst r2.
    rewrite F in F2. inversion F2; subst f. split; auto. destruct (r_task r); simpl; congruence.
  - intros [T G]. destruct (i_live _ _ I i r R) as (g & F2 & W). { intros E; rewrite E in T; discriminate. }
    rewrite F in F2. inversion F2; subst g. exists (Writer i f). split; [apply filter_In; split; auto; apply in_writers; eauto | apply Nat.eqb_refl].
Qed.

Lemma nth_of_len {A B} (a : list A) (b : list B) i r : List.length a = List.length b -> nth_error a i = Some r -> exists x, nth_error b i = Some x.
Proof.
  intros L H. destruct (nth_error b i) eqn:Z; eauto. apply nth_error_None in Z. apply nth_some_lt in H. lia.
Qed.

Lemma step_inv fs s e : truthful enabled cares -> inv fs s -> inv (fs ++ opened [e]) (step s e) /\
  forall i r f, nth_error (st_streams s) i = Some r -> nth_error fs i = Some f ->
    nth_error (st_streams (step s e)) i = Some (local f i r e).
Proof.
  intros T I. destruct e as [g|meta ctx line|j|j|j]; simpl opened; rewrite ?app_nil_r.
  - split; [now apply inv_open|]. intros i r f R F. simpl. unfold add_stream. destruct (insert _ _) as [idx sl]. simpl.
    rewrite nth_error_app1; auto. eapply nth_some_lt; eauto.
  - unfold StreamModel.step. rewrite (emit_eq fs) by auto.
    assert (H : forall i r f, nth_error (st_streams s) i = Some r -> nth_error fs i = Some f ->
      nth_error (fold_left (fun l w => update (w_id w) (write counts line) l) (writers_for enabled (st_slab s) meta ctx) (st_streams s)) i
      = Some (local f i r (Emit meta ctx line))).
    { intros i r f R F. rewrite fold_update by (apply nodup_filter_ids; eapply inv_nodup; eauto).
      rewrite (existsb_writer fs s i r f) by auto. rewrite R. simpl. destruct (is_ended (r_task r)); simpl; auto. now destruct (enabled f meta ctx). }
    split; [|exact H]. apply inv_streams; auto using fold_update_length.
    intros i r r' R R'. destruct (nth_of_len _ fs i r (i_len _ _ I) R) as (f & F).
    rewrite (H i r f R F) in R'. inversion R'; subst r'. simpl. destruct (is_ended (r_task r)); [split; tauto|].
    destruct (enabled f meta ctx); [|split; tauto]. rewrite write_idx, write_task. split; tauto.
  - simpl. destruct (nth_error (st_streams s) j) as [r|] eqn:R.
    + assert (L : j < List.length (st_streams s)) by (eapply nth_some_lt; eauto).
      pose proof (work_idx r) as X. pose proof (work_ended r) as E.
      destruct (work r) as [r' [|]] eqn:W; simpl in *.
      * destruct E as [E _]. specialize (E eq_refl). split; [apply inv_remove; tauto|].
        intros i r2 f R2 F. rewrite put_nth by auto. destruct (Nat.eqb_spec j i) as [<-|D]; auto. rewrite R in R2; inversion R2; subst. now rewrite W.
      * split.
        -- apply inv_streams; auto using put_length. intros i a b A B. rewrite put_nth in B by auto.
           destruct (Nat.eqb_spec j i) as [<-|D]; [|rewrite A in B; inversion B; subst; tauto].
           rewrite R in A. inversion A; inversion B; subst. split; auto.
           split; intros Z.
           ++ destruct (r_task a) eqn:TA; auto; exfalso; destruct E as [_ E]; (assert (false = true) by (apply E; split; auto; congruence)); congruence.
           ++ pose proof (work_stays a Z) as Q. rewrite W in Q. simpl in Q. congruence.
        -- intros i r2 f R2 F. rewrite put_nth by auto. destruct (Nat.eqb_spec j i) as [<-|D]; auto. rewrite R in R2; inversion R2; subst. now rewrite W.
    + split; auto. intros i r2 f R2 F. destruct (Nat.eqb_spec j i) as [<-|D]; auto. congruence.
  - simpl. split.
    + apply inv_streams; auto using update_length. intros i a b A B. rewrite update_nth, A in B.
      destruct (j =? i); inversion B; subst; auto using take_idx; [|tauto]. rewrite take_idx, take_task. tauto.
    + intros i r f R F. rewrite update_nth, R. now destruct (j =? i).
  - simpl. split.
    + apply inv_streams; auto using update_length. intros i a b A B. rewrite update_nth, A in B.
      destruct (j =? i); inversion B; subst; simpl; tauto.
    + intros i r f R F. rewrite update_nth, R. now destruct (j =? i).
Qed.

Lemma run_inv h fs s : truthful enabled cares -> inv fs s -> inv (fs ++ opened h) (run s h) /\
  forall i r f, nth_error (st_streams s) i = Some r -> nth_error fs i = Some f ->
    nth_error (st_streams (run s h)) i = Some (fold_left (local f i) h r).
Proof.
  intros T. revert fs s. induction h as [|e h IH]; intros fs s I.
  - simpl. rewrite app_nil_r. auto.
  - destruct (step_inv fs s e T I) as [I' L']. destruct (IH _ _ I') as [I2 L2].
    assert (E : opened (e :: h) = opened [e] ++ opened h) by (now rewrite <- opened_app).
    split.
    + rewrite E, app_assoc. exact I2.
    + intros i r f R F. simpl. apply L2; auto. rewrite nth_error_app1; auto. eapply nth_some_lt; eauto.
Qed.

Lemma since_local all i f h : truthful enabled cares -> since all i f h ->
  exists idx, nth_error (st_streams (run init all)) i = Some (fold_left (local f i) h (Stream idx [] 0 Waiting [] true [])).
Proof.
  intros T (before & -> & O). unfold StreamModel.run. rewrite fold_left_app. simpl.
  destruct (run_inv before [] init T inv_init) as [I _]. simpl in I. unfold StreamModel.run in I.
  set (s := fold_left step before init) in *.
  destruct (step_inv _ s (Open f) T I) as [I' _]. simpl in I'.
  assert (L : List.length (st_streams s) = i) by (rewrite (i_len _ _ I), <- opens_opened; auto).
  assert (R : exists idx, nth_error (st_streams (add_stream f s)) i = Some (Stream idx [] 0 Waiting [] true [])).
  { unfold add_stream. destruct (insert _ _) as [idx sl]. simpl. exists idx. now rewrite nth_snoc, L, Nat.eqb_refl. }
  destruct R as (idx & R). exists idx.
  destruct (run_inv h _ _ T I') as [_ H]. apply H; auto. rewrite nth_snoc, <- (i_len _ _ I), L, Nat.eqb_refl. auto.
Qed.

(** ** What a stream carries *)
Lemma without_keep {A} (all kept : list A) n x : without all kept n -> without (all ++ [x]) (kept ++ [x]) n.
Proof. induction 1; simpl; try (constructor; auto; constructor). Qed.

Lemma without_lose {A} (all kept : list A) n x : without all kept n -> without (all ++ [x]) kept (n + 1).
Proof.
  induction 1; simpl; try (now constructor).
  replace 1%N with (0 + 1)%N by reflexivity. constructor. constructor.
Qed.

Lemma without_eq {A} (all kept kept' : list A) n n' : without all kept n -> kept = kept' -> n = n' -> without all kept' n'.
Proof. now intros H <- <-. Qed.

Lemma wanted_app f a b : wanted enabled f (a ++ b) = wanted enabled f a ++ wanted enabled f b.
Proof. induction a as [|[] a IH]; simpl; auto. destruct (enabled f meta ctx); simpl; now rewrite IH. Qed.

Lemma lines_app a b : lines (a ++ b) = lines a ++ lines b.
Proof. induction a as [|[] a IH]; simpl; rewrite ?IH; auto. Qed.

Lemma reported_app a b : reported (a ++ b) = (reported a + reported b)%N.
Proof. induction a as [|[] a IH]; simpl; rewrite ?IH; auto. lia. Qed.

Definition hand (t : task) : list bytes := match t with Sending l => [l] | _ => [] end.
Definition saying (t : task) : N := match t with Reporting n => n | _ => 0%N end.

Record account (w : list bytes) (r : stream) : Prop := {
  a_open : r_open r = true;
  a_task : r_task r <> Ended;
  a_all : without w (lines (r_read r ++ r_body r) ++ hand (r_task r) ++ r_queue r)
            (reported (r_read r ++ r_body r) + saying (r_task r) + r_dropped r);
  a_later : (0 < r_dropped r)%N -> r_queue r <> [] \/ hand (r_task r) <> [] }.

Lemma T512 n held : (512 <= n -> full n held = true) /\ (full n held = true -> 512 <= n + (if held then 1 else 0)).
Proof.
  unfold StreamModel.full, channel_capacity. rewrite Nat.leb_le. destruct held; simpl andb; cbv iota; [|lia]. destruct (counts n); lia.
Qed.

Lemma account_local f i w r e : e <> Hang_up i -> account w r -> account (w ++ wanted enabled f [e]) (local f i r e).
Proof.
  intros N [A B C D]. destruct r as [idx q d t b o got]; simpl in *.
  destruct e as [g|meta ctx line|j|j|j]; simpl; rewrite ?app_nil_r.
  - constructor; auto.
  - replace (is_ended t) with false by (destruct t; auto; congruence).
    destruct (enabled f meta ctx); rewrite ?app_nil_r; [|constructor; auto].
    unfold write; simpl. destruct (full (List.length q) (holds t)) eqn:FU; constructor; simpl; auto.
    + rewrite N.add_assoc. now apply without_lose.
    + intros _. left. apply (T512 (List.length q) (holds t)) in FU. destruct q; [|discriminate]. simpl in FU. destruct (holds t); lia.
    + rewrite !app_assoc. apply without_keep. now rewrite <- app_assoc.
    + intros H. left. now destruct q.
  - destruct (Nat.eqb_spec j i) as [->|]; [|constructor; auto]. destruct t as [|l|n|]; simpl in *; try congruence.
    + destruct q as [|l q]; simpl; constructor; simpl; auto; try discriminate. intros H. right. discriminate.
    + subst o. simpl. destruct (List.length b <? body_capacity); [|constructor; auto].
      constructor; simpl; auto.
      * destruct (0 <? d)%N; discriminate.
      * eapply without_eq; [exact C | |].
        -- rewrite !lines_app. simpl. destruct (0 <? d)%N; simpl; now rewrite <- !app_assoc.
        -- rewrite !reported_app. simpl. destruct (N.ltb_spec 0 d); simpl; lia.
      * lia.
    + subst o. simpl. destruct (List.length b <? body_capacity); [|constructor; auto].
      constructor; simpl; auto; try discriminate.
      * eapply without_eq; [exact C | |].
        -- rewrite !lines_app. simpl. now rewrite app_nil_r.
        -- rewrite !reported_app. simpl. lia.
  - destruct (Nat.eqb_spec j i) as [->|]; [|constructor; auto]. subst o. unfold take; simpl.
    destruct b as [|x b]; simpl; [constructor; auto|]. constructor; simpl; auto. rewrite <- app_assoc. exact C.
  - destruct (Nat.eqb_spec j i) as [->|]; [congruence|]. constructor; auto.
Qed.

Lemma account_run f i h w r : ~ In (Hang_up i) h -> account w r -> account (w ++ wanted enabled f h) (fold_left (local f i) h r).
Proof.
  revert w r; induction h as [|e h IH]; intros w r N A.
  - simpl. now rewrite app_nil_r.
  - change (e :: h) with ([e] ++ h). rewrite wanted_app, app_assoc. simpl. apply IH.
    + intros H. apply N. now right.
    + apply account_local; auto. intros ->. apply N. now left.
Qed.

Lemma account_start idx : account [] (Stream idx [] 0 Waiting [] true []).
Proof. constructor; simpl; auto; try discriminate; constructor. Qed.

Lemma account_since all i f h : truthful enabled cares -> since all i f h -> ~ In (Hang_up i) h ->
  exists r, nth_error (st_streams (run init all)) i = Some r /\ account (wanted enabled f h) r.
Proof.
  intros T S N. destruct (since_local all i f h T S) as (idx & H). eexists. split; [exact H|].
  rewrite <- (app_nil_l (wanted enabled f h)). apply account_run; auto. apply account_start.
Qed.

(** ** Draining *)
Definition left (r : stream) : nat :=
  6 * List.length (r_queue r) + (match r_task r with Sending _ => 5 | Reporting _ => 2 | _ => 0 end) + List.length (r_body r).

Lemma round_left f i r : r_open r = true -> r_task r <> Ended ->
  left (fold_left (local f i) [Task i; Read i] r) <= pred (left r).
Proof.
  intros O E. destruct r as [idx q d t b o got]; simpl in *. subst o. rewrite Nat.eqb_refl. destruct t as [|l|n|]; simpl; try congruence.
  - destruct q as [|l q]; unfold take, left; simpl; destruct b; simpl; lia.
  - destruct (Nat.ltb_spec (List.length b) body_capacity) as [P|P]; simpl.
    + unfold take, left; simpl. destruct (b ++ [Line l]) as [|x y] eqn:Z; [now destruct b|].
      assert (List.length (b ++ [Line l]) = S (List.length y)) by now rewrite Z. rewrite app_length in H. simpl in *.
      destruct (0 <? d)%N; lia.
    + unfold take, left; simpl. destruct b as [|x b]; [simpl in P; unfold body_capacity in P; lia|]. simpl. lia.
  - destruct (Nat.ltb_spec (List.length b) body_capacity) as [P|P]; simpl.
    + unfold take, left; simpl. destruct (b ++ [Dropped n]) as [|x y] eqn:Z; [now destruct b|].
      assert (List.length (b ++ [Dropped n]) = S (List.length y)) by now rewrite Z. rewrite app_length in H. simpl in *. lia.
    + unfold take, left; simpl. destruct b as [|x b]; [simpl in P; unfold body_capacity in P; lia|]. simpl. lia.
Qed.

Lemma wanted_rounds f i n : wanted enabled f (rounds i n) = [].
Proof. induction n; simpl; auto. Qed.

Lemma no_hang_rounds i n : ~ In (Hang_up i) (rounds i n).
Proof. induction n; simpl; [tauto|]. intros [H|[H|H]]; try discriminate. auto. Qed.

Lemma rounds_left f i n w r : account w r -> left r <= n ->
  left (fold_left (local f i) (rounds i n) r) = 0 /\ account w (fold_left (local f i) (rounds i n) r).
Proof.
  revert r; induction n as [|n IH]; intros r A L.
  - simpl. split; auto. lia.
  - change (rounds i (S n)) with ([Task i; Read i] ++ rounds i n). rewrite fold_left_app. apply IH.
    + replace w with (w ++ wanted enabled f [Task i; Read i]) by (simpl; apply app_nil_r). apply account_run; auto.
      simpl. intros [H|[H|[]]]; discriminate.
    + pose proof (round_left f i r (a_open _ _ A) (a_task _ _ A)). lia.
Qed.

Lemma drained all i f h : truthful enabled cares -> since all i f h -> ~ In (Hang_up i) h ->
  exists k, forall n, k <= n -> without (wanted enabled f h) (lines (has_read (run init (all ++ rounds i n)) i)) (reported (has_read (run init (all ++ rounds i n)) i)).
Proof.
  intros T S N. destruct (since_local all i f h T S) as (idx & H).
  assert (A : account (wanted enabled f h) (fold_left (local f i) h (Stream idx [] 0 Waiting [] true []))).
  { rewrite <- (app_nil_l (wanted enabled f h)). apply account_run; auto. apply account_start. }
  set (r := fold_left (local f i) h (Stream idx [] 0 Waiting [] true [])) in *.
  exists (left r). intros n L.
  assert (S' : since (all ++ rounds i n) i f (h ++ rounds i n)).
  { destruct S as (before & -> & O). exists before. split; auto. now rewrite <- app_assoc. }
  assert (X : nth_error (st_streams (run init (all ++ rounds i n))) i = Some (fold_left (local f i) (rounds i n) r)).
  { destruct S as (before & E & O). unfold StreamModel.run. rewrite fold_left_app. fold (run init all).
    destruct (run_inv all [] init T inv_init) as [I _]. simpl in I.
    destruct (run_inv (rounds i n) _ _ T I) as [_ G]. apply G; auto. rewrite E, opened_app. simpl.
    rewrite nth_error_app2 by (rewrite <- opens_opened; lia). rewrite <- opens_opened, O, Nat.sub_diag. reflexivity. }
  destruct (rounds_left f i n _ r A L) as [Z [B1 B2 B3 B4]]. unfold has_read. rewrite X.
  set (r' := fold_left (local f i) (rounds i n) r) in *. destruct r' as [idx' q d t b o got]; simpl in *. unfold left in Z; simpl in Z.
  destruct q as [|]; [|simpl in Z; lia]. destruct b; [|simpl in Z; lia]. destruct t; simpl in *; try lia; try congruence.
  assert (d = 0%N). { destruct (N.eq_dec d 0); auto. destruct B4; try lia; congruence. }
  subst d. rewrite !app_nil_r, !N.add_0_r in B3. exact B3.
Qed.

(** ** Bounds *)
Lemma bounds_local f i r e : List.length (r_queue r) <= 512 -> List.length (r_body r) <= 1024 ->
  List.length (r_queue (local f i r e)) <= 512 /\ List.length (r_body (local f i r e)) <= 1024.
Proof.
  intros Q B. destruct r as [idx q d t b o got]; simpl in Q, B. destruct e as [g|meta ctx line|j|j|j]; simpl; auto.
  - destruct (is_ended t); auto. destruct (enabled f meta ctx); auto. unfold write; simpl.
    destruct (full (List.length q) (holds t)) eqn:FU; simpl; auto. rewrite app_length; simpl.
    destruct (Nat.le_gt_cases 512 (List.length q)) as [H|H]; [apply (T512 _ (holds t)) in H; congruence | lia].
  - destruct (j =? i); auto. destruct t as [|l|n|]; simpl; auto.
    + destruct q; simpl in *; auto. lia.
    + destruct o; simpl; auto. destruct (Nat.ltb_spec (List.length b) body_capacity) as [P|P]; simpl; auto.
      rewrite app_length; simpl. unfold body_capacity in P. lia.
    + destruct o; simpl; auto. destruct (Nat.ltb_spec (List.length b) body_capacity) as [P|P]; simpl; auto.
      rewrite app_length; simpl. unfold body_capacity in P. lia.
  - destruct (j =? i); auto. unfold take; simpl. destruct o, b; simpl in *; auto. lia.
  - destruct (j =? i); simpl; auto. lia.
Qed.

Lemma bounds_run f i h r : List.length (r_queue r) <= 512 -> List.length (r_body r) <= 1024 ->
  List.length (r_queue (fold_left (local f i) h r)) <= 512 /\ List.length (r_body (fold_left (local f i) h r)) <= 1024.
Proof.
  revert r; induction h as [|e h IH]; intros r Q B; simpl; auto. destruct (bounds_local f i r e Q B). auto.
Qed.

Lemma split_opens all i : i < List.length (opened all) -> exists f h, since all i f h.
Proof.
  revert i; induction all as [|e all IH]; intros i L; simpl in L; [lia|].
  destruct e as [g|meta ctx line|j|j|j]; simpl in L.
  - destruct i as [|i].
    + exists g, all, []. auto.
    + destruct (IH i) as (f & h & b & -> & O); [lia|]. exists f, h, (Open g :: b). simpl. auto.
  - destruct (IH i L) as (f & h & b & -> & O). exists f, h, (Emit meta ctx line :: b). auto.
  - destruct (IH i L) as (f & h & b & -> & O). exists f, h, (Task j :: b). auto.
  - destruct (IH i L) as (f & h & b & -> & O). exists f, h, (Read j :: b). auto.
  - destruct (IH i L) as (f & h & b & -> & O). exists f, h, (Hang_up j :: b). auto.
Qed.

Lemma stream_since all i r : truthful enabled cares -> nth_error (st_streams (run init all)) i = Some r -> exists f h, since all i f h.
Proof.
  intros T R. destruct (run_inv all [] init T inv_init) as [I _]. simpl in I. apply split_opens.
  rewrite <- (i_len _ _ I). eapply nth_some_lt; eauto.
Qed.

Lemma bounded all i r : truthful enabled cares -> nth_error (st_streams (run init all)) i = Some r ->
  List.length (r_queue r) <= 512 /\ List.length (r_body r) <= 1024.
Proof.
  intros T R. destruct (stream_since all i r T R) as (f & h & S). destruct (since_local all i f h T S) as (idx & H).
  rewrite R in H. inversion H. apply bounds_run; simpl; lia.
Qed.

(** ** Alone *)
Definition same (r r' : stream) : Prop :=
  r_queue r = r_queue r' /\ r_dropped r = r_dropped r' /\ r_task r = r_task r' /\ r_body r = r_body r' /\ r_open r = r_open r' /\ r_read r = r_read r'.

Lemma same_local f i r r' e : same r r' -> same (local f i r e) (local f i r' e).
Proof.
  destruct r as [x q d t b o g], r' as [x' q' d' t' b' o' g']. unfold same; simpl. intros (-> & -> & -> & -> & -> & ->).
  destruct e as [k|meta ctx line|j|j|j]; simpl; auto 10.
  - destruct (is_ended t'); simpl; auto 10. destruct (enabled f meta ctx); simpl; auto 10. unfold write; simpl. destruct (full _ _); simpl; auto 10.
  - destruct (j =? i); simpl; auto 10. destruct t' as [|l|n|]; simpl; auto 10; [destruct q'; simpl; auto 10| |]; destruct o'; simpl; auto 10; destruct (_ <? _); simpl; auto 10.
  - destruct (j =? i); simpl; auto 10. unfold take; simpl. destruct o', b'; simpl; auto 10.
  - destruct (j =? i); simpl; auto 10.
Qed.

Lemma same_run f i h r r' : same r r' -> same (fold_left (local f i) h r) (fold_left (local f i) h r').
Proof. revert r r'; induction h as [|e h IH]; intros r r' H; simpl; auto. apply IH. now apply same_local. Qed.

Lemma local_other f i r e : concerns i e = false -> local f i r e = r.
Proof. destruct e; simpl; intros H; auto; try discriminate; now rewrite H. Qed.

Lemma run_concerns f i h r : fold_left (local f i) h r = fold_left (local f i) (List.filter (concerns i) h) r.
Proof.
  revert r; induction h as [|e h IH]; intros r; simpl; auto. destruct (concerns i e) eqn:C; simpl; auto. now rewrite local_other.
Qed.

Lemma alone all all' i f h h' : truthful enabled cares -> since all i f h -> since all' i f h' ->
  List.filter (concerns i) h = List.filter (concerns i) h' -> has_read (run init all) i = has_read (run init all') i.
Proof.
  intros T S S' E. destruct (since_local all i f h T S) as (idx & H). destruct (since_local all' i f h' T S') as (idx' & H').
  unfold has_read. rewrite H, H', (run_concerns f i h), (run_concerns f i h'), E.
  apply same_run. unfold same; simpl; auto 10.
Qed.

(** ** Registration *)
Lemma registered all : truthful enabled cares ->
  NoDup (map w_id (writers (st_slab (run init all)))) /\ NoDup (st_filters (run init all)) /\
  (forall i, In i (map w_id (writers (st_slab (run init all)))) <-> live (run init all) i) /\
  (forall i, In i (st_filters (run init all)) <-> live (run init all) i).
Proof.
  intros T. destruct (run_inv all [] init T inv_init) as [I _]. simpl in I. set (s := run init all) in *.
  assert (W : forall i, In i (map w_id (writers (st_slab s))) <-> live s i).
  { intros i. rewrite in_map_iff. unfold live. split.
    - intros (w & <- & H). apply in_writers in H. destruct H as (k & H). destruct (i_entry _ _ I k w H) as (r & R & _ & E & _). eauto.
    - intros (r & R & E). destruct (i_live _ _ I i r R E) as (f & _ & H). exists (Writer i f). split; auto. apply in_writers. eauto. }
  split; [eapply inv_nodup; eauto|]. split; [apply (i_once _ _ I)|]. split; auto.
  intros i. rewrite (i_filters _ _ I), <- W, in_map_iff. split; intros (w & A & B); eauto.
Qed.

Lemma idle all meta : truthful enabled cares -> (forall i, ~ live (run init all) i) -> callsite_enabled cares (run init all) meta = Never.
Proof.
  intros T N. destruct (registered all T) as (_ & _ & _ & F). unfold callsite_enabled, filters.
  destruct (st_filters (run init all)) as [|x l] eqn:E; auto. exfalso. apply (N x). apply F. now left.
Qed.

(** ** Clients that go away *)
Definition doomed (r : stream) : Prop := r_open r = false /\ (r_task r = Ended \/ holds (r_task r) = true \/ r_queue r <> []).

Lemma closed_local f i r e : r_open r = false -> r_open (local f i r e) = false.
Proof.
  intros O. destruct r as [idx q d t b o got]; simpl in O; subst o. destruct e as [g|meta ctx line|j|j|j]; simpl; auto.
  - destruct (is_ended t); auto. destruct (enabled f meta ctx); auto. unfold write; simpl. now destruct (full _ _).
  - destruct (j =? i); auto. destruct t; simpl; auto. now destruct q.
  - now destruct (j =? i).
  - now destruct (j =? i).
Qed.

Lemma doomed_local f i r e : doomed r -> doomed (local f i r e).
Proof.
  intros [O H]. split; [now apply closed_local|]. destruct r as [idx q d t b o got]; simpl in *; subst o.
  destruct e as [g|meta ctx line|j|j|j]; simpl; auto.
  - destruct (is_ended t); auto. destruct (enabled f meta ctx); auto. unfold write; simpl. destruct (full _ _); simpl; auto.
    right; right. now destruct q.
  - destruct (j =? i); auto. destruct t; simpl; auto. destruct q; simpl; auto.
  - now destruct (j =? i).
  - now destruct (j =? i).
Qed.

Lemma doomed_emit f i r meta ctx line : r_open r = false -> enabled f meta ctx = true -> doomed (local f i r (Emit meta ctx line)).
Proof.
  intros O E. split; [now apply closed_local|]. destruct r as [idx q d t b o got]; simpl in *; subst o. rewrite E.
  destruct (is_ended t) eqn:X; simpl; [destruct t; try discriminate; auto|].
  unfold write; simpl. destruct (full (List.length q) (holds t)) eqn:FU; simpl.
  - apply (T512 (List.length q) (holds t)) in FU. right; right. intros ->. simpl in FU. destruct (holds t); lia.
  - right; right. now destruct q.
Qed.

Lemma doomed_run f i h r : doomed r -> doomed (fold_left (local f i) h r).
Proof. revert r; induction h as [|e h IH]; intros r H; simpl; auto using doomed_local. Qed.

Lemma doomed_wanted f i h r : r_open r = false -> wanted enabled f h <> [] -> doomed (fold_left (local f i) h r).
Proof.
  revert r; induction h as [|e h IH]; intros r O W; [simpl in W; congruence|].
  destruct e as [g|meta ctx line|j|j|j]; try (apply IH; [now apply closed_local | exact W]).
  simpl in W. destruct (enabled f meta ctx) eqn:E; [|apply IH; [now apply closed_local | exact W]].
  simpl. apply doomed_run. change (if is_ended (r_task r) then r else if enabled f meta ctx then write counts line r else r) with (local f i r (Emit meta ctx line)).
  now apply doomed_emit.
Qed.

Lemma doomed_two f i r : doomed r -> r_task (fold_left (local f i) [Task i; Task i] r) = Ended.
Proof.
  intros [O H]. destruct r as [idx q d t b o got]; simpl in *; subst o. rewrite Nat.eqb_refl.
  destruct t; simpl; auto. destruct q; simpl; auto. destruct H as [H|[H|H]]; try discriminate. congruence.
Qed.

Lemma hung_up all i f h h' : truthful enabled cares -> since all i f (h ++ Hang_up i :: h') -> wanted enabled f h' <> [] ->
  ~ live (run init (all ++ [Task i; Task i])) i.
Proof.
  intros T (before & -> & O) W (r & R & E).
  destruct (since_local ((before ++ Open f :: h ++ Hang_up i :: h') ++ [Task i; Task i]) i f ((h ++ Hang_up i :: h') ++ [Task i; Task i]) T) as (idx & H).
  { exists before. split; auto. now rewrite <- app_assoc. }
  rewrite R in H. inversion H as [H1]. apply E. rewrite H1, !fold_left_app. apply doomed_two. simpl. rewrite Nat.eqb_refl.
  apply doomed_wanted; auto.
Qed.

Lemma quiet_local f i h r : r_queue r = [] -> r_task r = Waiting -> wanted enabled f h = [] ->
  r_queue (fold_left (local f i) h r) = [] /\ r_task (fold_left (local f i) h r) = Waiting.
Proof.
  revert r; induction h as [|e h IH]; intros r Q E W; auto. destruct r as [idx q d t b o got]; simpl in Q, E; subst.
  destruct e as [g|meta ctx line|j|j|j]; simpl.
  - apply IH; auto.
  - simpl in W. destruct (enabled f meta ctx); [discriminate|]. apply IH; auto.
  - destruct (j =? i); apply IH; auto.
  - destruct (j =? i); apply IH; auto. all: unfold take; simpl; destruct o, b; auto.
  - destruct (j =? i); apply IH; auto.
Qed.

Lemma quiet all i f h : truthful enabled cares -> since all i f h -> wanted enabled f h = [] -> live (run init all) i.
Proof.
  intros T S W. destruct (since_local all i f h T S) as (idx & H). eexists. split; [exact H|].
  destruct (quiet_local f i h (Stream idx [] 0 Waiting [] true [])) as [_ ->]; auto. discriminate.
Qed.

(** ** Room, and what a report says *)
Lemma room all i f h r meta ctx line : truthful enabled cares -> since all i f h ->
  nth_error (st_streams (run init all)) i = Some r -> r_task r <> Ended -> enabled f meta ctx = true -> List.length (r_queue r) < 511 ->
  exists r', nth_error (st_streams (run init (all ++ [Emit meta ctx line]))) i = Some r' /\ r_queue r' = r_queue r ++ [line] /\ r_dropped r' = r_dropped r.
Proof.
  intros T S R E F L. destruct (since_local all i f h T S) as (idx & H). rewrite R in H. inversion H as [H1].
  destruct (since_local (all ++ [Emit meta ctx line]) i f (h ++ [Emit meta ctx line]) T) as (idx' & H').
  { destruct S as (before & -> & O). exists before. split; auto. now rewrite <- app_assoc. }
  eexists. split; [exact H'|]. rewrite fold_left_app.
  assert (SM : same (fold_left (local f i) h (Stream idx' [] 0 Waiting [] true [])) r).
  { rewrite H1. apply same_run. unfold same; simpl; auto 10. }
  destruct SM as (Q & D & K & _). simpl. rewrite K, F. replace (is_ended (r_task r)) with false by (destruct (r_task r); auto; congruence).
  unfold write. rewrite Q, K. destruct (full (List.length (r_queue r)) (holds (r_task r))) eqn:FU; simpl.
  - exfalso. apply (T512 (List.length (r_queue r)) (holds (r_task r))) in FU. destruct (holds (r_task r)); lia.
  - rewrite <- H1. auto.
Qed.

Definition positive (x : frame) : Prop := match x with Line _ => True | Dropped n => (0 < n)%N end.

Lemma positive_local f i r e : Forall positive (r_read r ++ r_body r) -> (forall n, r_task r = Reporting n -> (0 < n)%N) ->
  Forall positive (r_read (local f i r e) ++ r_body (local f i r e)) /\ (forall n, r_task (local f i r e) = Reporting n -> (0 < n)%N).
Proof.
  intros P Q. destruct r as [idx q d t b o got]; simpl in P, Q. destruct e as [g|meta ctx line|j|j|j]; simpl; auto.
  - destruct (is_ended t); auto. destruct (enabled f meta ctx); auto. unfold write; simpl. destruct (full _ _); simpl; auto.
  - destruct (j =? i); auto. destruct t as [|l|n|]; simpl; auto.
    + destruct q; simpl; auto. split; auto. intros n; discriminate.
    + destruct o; simpl; [|split; auto; intros; discriminate]. destruct (_ <? _); simpl; auto. split.
      * rewrite app_assoc. apply Forall_app. split; auto. repeat constructor.
      * destruct (N.ltb_spec 0 d) as [Z|Z]; intros n H; inversion H; subst; auto.
    + destruct o; simpl; [|split; auto; intros; discriminate]. destruct (_ <? _); simpl; auto. split; [|intros; discriminate].
      rewrite app_assoc. apply Forall_app. split; auto. constructor; auto. simpl. now apply Q.
  - destruct (j =? i); auto. unfold take; simpl. destruct o, b as [|x b]; simpl; auto. split; auto. now rewrite <- app_assoc.
  - destruct (j =? i); simpl; auto. split; auto. rewrite app_nil_r. apply Forall_app in P. tauto.
Qed.

Lemma positive_run f i h r : Forall positive (r_read r ++ r_body r) -> (forall n, r_task r = Reporting n -> (0 < n)%N) ->
  Forall positive (r_read (fold_left (local f i) h r) ++ r_body (fold_left (local f i) h r)).
Proof.
  revert r; induction h as [|e h IH]; intros r P Q; simpl; auto. destruct (positive_local f i r e P Q). auto.
Qed.

Lemma says all i n : truthful enabled cares -> In (Dropped n) (has_read (run init all) i) -> (0 < n)%N.
Proof.
  intros T H. unfold has_read in H. destruct (nth_error (st_streams (run init all)) i) as [r|] eqn:R; [|destruct H].
  destruct (stream_since all i r T R) as (f & h & S). destruct (since_local all i f h T S) as (idx & X).
  rewrite R in X. inversion X as [X1].
  assert (P : Forall positive (r_read r ++ r_body r)). { rewrite X1. apply positive_run; simpl; auto. intros; discriminate. }
  rewrite Forall_forall in P. apply (P (Dropped n)). apply in_or_app. now left.
Qed.

End Streams.
