From Coq Require Import List NArith ZArith Bool Arith Lia.
From Verif Require Import Bytes BytesProofs TraceModel ExportModel ExportSpec.
Import ListNotations.
Open Scope N_scope.
Ltac Zify.zify_post_hook ::= Z.div_mod_to_equations.

Lemma run_snoc es e : forall x, run x (es ++ [e]) = match run x es with Some x' => step x' e | None => None end.
Proof.
  induction es as [|a es IH]; intros x; cbn [run app].
  - destruct (step x e); reflexivity.
  - destruct (step x a); auto.
Qed.
Lemma arrivals_snoc es e : arrivals (es ++ [e]) = arrivals es ++ arrivals [e].
Proof. unfold arrivals. rewrite flat_map_app. reflexivity. Qed.
Lemma received_snoc es e : received (es ++ [e]) = received es ++ received [e].
Proof. unfold received. rewrite arrivals_snoc, map_app. reflexivity. Qed.

Definition slot_of (x : exporter) : list data := match x_slot x with Some b => b | None => [] end.
Definition held (x : exporter) : list data := match x_phase x with Collects a _ => a | Reserves b _ => b | Done => [] end.
Definition sized (b : list data) : Prop := b <> [] /\ (length b <= MAX_BATCH_SIZE)%nat.

Record inv (all : list data) (x : exporter) : Prop := {
  v_all : all = concat (calls x) ++ slot_of x ++ held x;
  v_calls : Forall sized (calls x);
  v_slot : forall b, x_slot x = Some b -> sized b;
  v_held : match x_phase x with Collects a _ => (length a < MAX_BATCH_SIZE)%nat | Reserves b _ => sized b | Done => True end;
  v_counters : x_counters x = Counters 1 0 0 }.

Lemma max_pos : (0 < MAX_BATCH_SIZE)%nat. Proof. unfold MAX_BATCH_SIZE. lia. Qed.

Lemma inv_run now es : forall x, run (start now) es = Some x -> inv (received es) x.
Proof.
  induction es as [|e es IH] using rev_ind; intros x R.
  - injection R as <-. constructor; cbn; auto; try discriminate. apply max_pos.
  - rewrite run_snoc in R. destruct (run (start now) es) as [x0|]; [|discriminate]. destruct (IH _ eq_refl) as [A B C D E].
    destruct x0 as [p slot fl an c]. cbn [x_phase x_slot x_counters] in *.
    destruct e as [t s|t|t|t| |ok]; cbn [step] in R.
    + destruct p as [a tick|b cl|]; try discriminate. rewrite received_snoc. unfold received at 2. unfold arrivals. cbn [flat_map app].
      destruct (convert_span s) as [d|]; [|injection R as <-; constructor; auto; cbn; now rewrite app_nil_r].
      injection R as <-. destruct (Nat.eqb (length (a ++ [d])) MAX_BATCH_SIZE) eqn:L; constructor; cbn [x_phase x_slot x_counters]; auto.
      * rewrite A. unfold held, slot_of. cbn [map app snd]. now rewrite <- !app_assoc.
      * apply Nat.eqb_eq in L. split; [intros F; apply app_eq_nil in F as (_ & F); discriminate|lia].
      * rewrite A. unfold held, slot_of. cbn [map app snd]. now rewrite <- !app_assoc.
      * apply Nat.eqb_neq in L. rewrite app_length in *. cbn in *. lia.
    + rewrite received_snoc, app_nil_r. destruct p as [[|d a] tick|b cl|]; try discriminate; injection R as <-; constructor; cbn [x_phase x_slot x_counters]; auto.
      split; [discriminate|lia].
    + rewrite received_snoc, app_nil_r. destruct p as [a tick|b cl|]; try discriminate. destruct (tick <=? t); [|discriminate].
      injection R as <-. destruct a as [|d a]; constructor; cbn [x_phase x_slot x_counters]; auto. split; [discriminate|lia].
    + rewrite received_snoc, app_nil_r. destruct p as [a tick|b cl|]; try discriminate. destruct slot; [discriminate|].
      injection R as <-. destruct cl; constructor; cbn [x_phase x_slot x_counters]; auto.
      * rewrite A. unfold slot_of, held. cbn. now rewrite app_nil_r.
      * intros b' F. injection F as <-. exact D.
      * rewrite A. unfold slot_of, held. cbn. now rewrite app_nil_r.
      * intros b' F. injection F as <-. exact D.
      * apply max_pos.
    + rewrite received_snoc, app_nil_r. destruct p as [a tick|b cl|]; try discriminate; destruct slot as [s|]; try discriminate; destruct fl; try discriminate;
        injection R as <-; constructor; cbn [x_phase x_slot x_counters]; auto; try discriminate;
        rewrite ?A; unfold calls, slot_of, held in *; cbn [x_answered x_flight x_slot x_phase] in *; rewrite ?app_nil_r in *.
      * rewrite concat_app. cbn. now rewrite app_nil_r, <- app_assoc.
      * apply Forall_app. split; [auto|]. constructor; [auto|constructor].
      * rewrite concat_app. cbn. now rewrite app_nil_r, <- app_assoc.
      * apply Forall_app. split; [auto|]. constructor; [auto|constructor].
    + rewrite received_snoc, app_nil_r. destruct p as [a tick|b cl|]; try discriminate; destruct fl as [f|]; try discriminate; injection R as <-;
        constructor; cbn [x_phase x_slot x_counters]; auto; unfold calls, slot_of, held in *; cbn [x_answered x_flight x_slot x_phase] in *; rewrite map_app, app_nil_r; auto.
Qed.

Lemma kept now es x : run (start now) es = Some x ->
  exists rest, received es = concat (calls x) ++ rest /\ (length rest <= 2 * MAX_BATCH_SIZE)%nat.
Proof.
  intros R. destruct (inv_run _ _ _ R) as [A _ C D _]. exists (slot_of x ++ held x). split; [exact A|].
  rewrite app_length. unfold slot_of, held. destruct (x_slot x) as [b|]; [destruct (C _ eq_refl)|];
    destruct (x_phase x); cbn [length] in *; try (destruct D); lia.
Qed.
Lemma batches now es x b : run (start now) es = Some x -> In b (calls x) -> b <> [] /\ (length b <= MAX_BATCH_SIZE)%nat.
Proof. intros R I. destruct (inv_run _ _ _ R) as [_ B _ _ _]. rewrite Forall_forall in B. now apply B. Qed.
Lemma lost_at_end now es x : run (start now) es = Some x -> x_phase x = Done ->
  received es = concat (calls x) ++ slot_of x.
Proof. intros R E. destruct (inv_run _ _ _ R) as [A _ _ _ _]. rewrite A. unfold held. rewrite E. now rewrite app_nil_r. Qed.
Lemma last_batch now es x t u y : run (start now) es = Some x -> forall d a tick, x_phase x = Collects (d :: a) tick ->
  forall l, (forall e, In e l -> e = Takes \/ exists ok, e = Answers ok) ->
  run (start now) (es ++ [Ends t] ++ l ++ [Puts u]) = Some y ->
  x_phase y = Done /\ received es = concat (calls y) ++ d :: a.
Proof.
  intros R d a tick P l L Ry.
  assert (Mid : forall l z, (forall e, In e l -> e = Takes \/ exists ok, e = Answers ok) ->
            run (start now) (es ++ [Ends t] ++ l) = Some z -> x_phase z = Reserves (d :: a) true).
  { clear l L Ry. induction l as [|e l IH] using rev_ind; intros z L Rz.
    - rewrite app_nil_r, run_snoc, R in Rz. destruct x as [p s f an c]. cbn in P. subst p. cbn in Rz. now injection Rz as <-.
    - rewrite !app_assoc, run_snoc in Rz. rewrite <- app_assoc in Rz.
      destruct (run (start now) (es ++ [Ends t] ++ l)) as [z0|] eqn:E; [|discriminate].
      specialize (IH z0 (fun e I => L e (in_or_app _ _ _ (or_introl I))) eq_refl). destruct z0 as [p s f an c]. cbn in IH. subst p.
      destruct (L e) as [->|(ok & ->)]; [apply in_or_app; right; cbn; auto| |]; cbn in Rz.
      + destruct s, f; inversion Rz; reflexivity.
      + destruct f; inversion Rz; reflexivity. }
  pose proof (inv_run _ _ _ Ry) as I. rewrite !app_assoc, run_snoc in Ry. rewrite <- app_assoc in Ry.
  destruct (run (start now) (es ++ [Ends t] ++ l)) as [z|] eqn:E; [|discriminate]. specialize (Mid _ _ L E).
  destruct z as [p s f an c]. cbn in Mid. subst p. cbn in Ry. destruct s; [discriminate|]. injection Ry as <-. split; [reflexivity|].
  destruct I as [A _ _ _ _]. unfold slot_of, held in A. cbn [x_slot x_phase] in A. rewrite app_nil_r in A. rewrite <- A.
  assert (Ra : forall a b, received (a ++ b) = received a ++ received b).
  { intros a' b'. unfold received, arrivals. now rewrite flat_map_app, map_app. }
  assert (F : received l = []).
  { clear - L Ra. induction l as [|e l IH]; [reflexivity|]. change (e :: l) with ([e] ++ l). rewrite Ra, IH by (intros; apply L; cbn; auto).
    destruct (L e (or_introl eq_refl)) as [->|(ok & ->)]; reflexivity. }
  rewrite !Ra, F. cbn. now rewrite app_nil_r.
Qed.

(* ---- time ---- *)
Lemma in_order_snoc es e : forall from, in_order from (es ++ [e]) ->
  in_order from es /\ match at_time e with Some t => from <= t /\ (forall u, In u (map at_time es) -> forall v, u = Some v -> v <= t) | None => True end.
Proof.
  induction es as [|a es IH]; intros from H; cbn in *.
  - destruct (at_time e); [|auto]. split; [auto|]. split; [tauto|]. intros u [].
  - destruct (at_time a) as [t|] eqn:T.
    + destruct H as (H & K). apply IH in K as (K & L). split; [auto|]. destruct (at_time e); [|auto]. destruct L as (L1 & L2).
      split; [lia|]. intros u [<-|U] v E; [injection E as <-; lia|eauto].
    + apply IH in H as (K & L). split; [auto|]. destruct (at_time e); [|auto]. destruct L as (L1 & L2). split; [lia|].
      intros u [<-|U] v E; [discriminate|eauto].
Qed.
(* [m]: no event so far is later *)
Definition last_time (from : N) (es : list event) : N :=
  fold_left (fun m e => match at_time e with Some t => t | None => m end) es from.
Lemma last_snoc from es e : last_time from (es ++ [e]) = match at_time e with Some t => t | None => last_time from es end.
Proof. unfold last_time. rewrite fold_left_app. reflexivity. Qed.
Lemma order_last es e : forall from, in_order from (es ++ [e]) -> in_order from es /\ forall t, at_time e = Some t -> last_time from es <= t.
Proof.
  induction es as [|a es IH]; intros from H; cbn in *.
  - split; [auto|]. intros t E. rewrite E in H. tauto.
  - destruct (at_time a) as [t|]; cbn in *.
    + destruct H as (H & K). apply IH in K as (K & L). auto.
    + apply IH in H as (K & L). auto.
Qed.
Lemma waits_ten now es : in_order now es -> forall x, run (start now) es = Some x -> forall a tick, x_phase x = Collects a tick ->
  tick <= last_time now es + BATCH_INTERVAL /\
  exists pre l, arrivals es = pre ++ l /\ map snd l = a /\ Forall (fun p => tick <= fst p + BATCH_INTERVAL) l.
Proof.
  induction es as [|e es IH] using rev_ind; intros O x R a tick P.
  - injection R as <-. injection P as <- <-. cbn. split; [lia|]. exists [], []. auto.
  - apply order_last in O as (O & T). rewrite run_snoc in R. destruct (run (start now) es) as [x0|]; [|discriminate].
    specialize (IH O _ eq_refl). rewrite last_snoc, arrivals_snoc. destruct x0 as [p slot fl an c]. cbn [x_phase] in IH.
    destruct e as [t s|t|t|t| |ok]; cbn [step at_time] in *.
    + destruct p as [a0 tick0|b cl|]; try discriminate. destruct (IH _ _ eq_refl) as (L & pre & l & A & B & C). specialize (T t eq_refl).
      unfold arrivals at 2. cbn [flat_map]. destruct (convert_span s) as [d|].
      * injection R as <-. cbn [x_phase] in P. destruct (Nat.eqb _ _); [discriminate|]. injection P as <- <-. split; [lia|].
        exists pre, (l ++ [(t, d)]). rewrite A, <- app_assoc. split; [reflexivity|]. rewrite map_app, B. split; [reflexivity|].
        apply Forall_app. split; [auto|]. constructor; [cbn; lia|constructor].
      * injection R as <-. injection P as <- <-. split; [lia|]. exists pre, l. rewrite !app_nil_r. auto.
    + destruct p as [[|d a0] tick0|b cl|]; try discriminate; injection R as <-; discriminate.
    + destruct p as [a0 tick0|b cl|]; try discriminate. destruct (tick0 <=? t) eqn:Q; [|discriminate]. apply N.leb_le in Q.
      injection R as <-. destruct a0; [|discriminate]. injection P as <- <-. split; [unfold BATCH_INTERVAL; lia|].
      exists (arrivals es), []. cbn. rewrite !app_nil_r. auto.
    + destruct p as [a0 tick0|b cl|]; try discriminate. destruct slot; [discriminate|]. injection R as <-. destruct cl; [discriminate|].
      injection P as <- <-. split; [lia|]. exists (arrivals es), []. cbn. rewrite !app_nil_r. auto.
    + destruct p as [a0 tick0|b cl|]; try discriminate; destruct slot as [sb|]; try discriminate; destruct fl as [fb|]; try discriminate; injection R as <-; [|discriminate].
      injection P as <- <-. destruct (IH _ _ eq_refl) as (L & pre & l & A & B & C). split; [auto|]. exists pre, l. cbn. rewrite app_nil_r. auto.
    + destruct p as [a0 tick0|b cl|]; try discriminate; destruct fl as [fb|]; try discriminate; injection R as <-; [|discriminate].
      injection P as <- <-. destruct (IH _ _ eq_refl) as (L & pre & l & A & B & C). split; [auto|]. exists pre, l. cbn. rewrite app_nil_r. auto.
Qed.
Lemma timely now es x a tick : in_order now es -> run (start now) es = Some x -> x_phase x = Collects a tick ->
  exists pre l, arrivals es = pre ++ l /\ map snd l = a /\
    forall t, (exists p, In p l /\ fst p + 10000 <= t) ->
      exists y, step x (Ticks t) = Some y /\ x_phase y = Reserves a false.
Proof.
  intros O R P. destruct (waits_ten _ _ O _ R _ _ P) as (_ & pre & l & A & B & C). exists pre, l. split; [auto|]. split; [auto|].
  intros t (q & I & T). destruct x as [p slot fl an c]. cbn in P. subst p. cbn.
  rewrite Forall_forall in C. pose proof (C _ I) as Q. unfold BATCH_INTERVAL in Q.
  assert (Q' : tick <= t) by lia. apply N.leb_le in Q'. rewrite Q'. destruct l as [|z l]; [destruct I|]. subst a. cbn [map].
  eexists. split; reflexivity.
Qed.

(* a batch that is not full waits until ten seconds have passed since the one before *)
Definition last_put (now : N) (es : list event) : N :=
  fold_left (fun t e => match e with Puts u => u | _ => t end) es now.
Lemma not_before now es : in_order now es -> forall x, run (start now) es = Some x -> forall a tick, x_phase x = Collects a tick ->
  last_put now es + 10000 <= tick.
Proof.
  induction es as [|e es IH] using rev_ind; intros O x R a tick P.
  - injection R as <-. injection P as <- <-. cbn. unfold BATCH_INTERVAL. lia.
  - apply order_last in O as (O & T). rewrite run_snoc in R. destruct (run (start now) es) as [x0|]; [|discriminate].
    specialize (IH O _ eq_refl). unfold last_put. rewrite fold_left_app. fold (last_put now es). cbn [fold_left].
    destruct x0 as [p slot fl an c]. cbn [x_phase] in IH.
    destruct e as [t s|t|t|t| |ok]; cbn [step at_time] in *.
    + destruct p as [a0 tick0|b cl|]; try discriminate. specialize (IH _ _ eq_refl). destruct (convert_span s) as [d|].
      * injection R as <-. cbn [x_phase] in P. destruct (Nat.eqb _ _); [discriminate|]. injection P as <- <-. exact IH.
      * injection R as <-. injection P as <- <-. exact IH.
    + destruct p as [[|d a0] tick0|b cl|]; try discriminate; injection R as <-; discriminate.
    + destruct p as [a0 tick0|b cl|]; try discriminate. specialize (IH _ _ eq_refl). destruct (tick0 <=? t) eqn:Q; [|discriminate]. apply N.leb_le in Q.
      injection R as <-. destruct a0; [|discriminate]. injection P as <- <-.
      pose proof (N.mod_lt (t - tick0) BATCH_INTERVAL ltac:(discriminate)) as M. unfold BATCH_INTERVAL in *. lia.
    + destruct p as [a0 tick0|b cl|]; try discriminate. destruct slot; [discriminate|]. injection R as <-. destruct cl; [discriminate|].
      injection P as <- <-. unfold BATCH_INTERVAL. lia.
    + destruct p as [a0 tick0|b cl|]; try discriminate; destruct slot as [sb|]; try discriminate; destruct fl as [fb|]; try discriminate; injection R as <-; [|discriminate].
      injection P as <- <-. exact (IH _ _ eq_refl).
    + destruct p as [a0 tick0|b cl|]; try discriminate; destruct fl as [fb|]; try discriminate; injection R as <-; [|discriminate].
      injection P as <- <-. exact (IH _ _ eq_refl).
Qed.
Lemma last_put_of now es t : previous now es t -> last_put now es = t.
Proof.
  intros [t0 -> N|a b t' -> N].
  - unfold last_put. revert N. generalize now. induction es as [|e es IH]; intros m N; [reflexivity|]. cbn [fold_left].
    destruct e; try (apply IH; intros u H; apply (N u); right; exact H). exfalso. apply (N now0). left. reflexivity.
  - unfold last_put. rewrite fold_left_app. cbn [fold_left]. revert t' N. induction b as [|e b IH]; intros t' N; [reflexivity|]. cbn [fold_left].
    destruct e; try (apply IH; intros u H; apply (N u); right; exact H). exfalso. apply (N now0). left. reflexivity.
Qed.
Lemma not_sooner now es x t last b : in_order now (es ++ [Ticks t]) -> run (start now) es = Some x -> previous now es last ->
  step x (Ticks t) = Some b -> last + 10000 <= t.
Proof.
  intros O R L S. apply order_last in O as (O & _). apply last_put_of in L as <-. destruct x as [p slot fl an c]. cbn in S.
  destruct p as [a tick|bt cl|]; try discriminate. pose proof (not_before _ _ O _ R a tick eq_refl) as Q.
  destruct (tick <=? t) eqn:E; [|discriminate]. apply N.leb_le in E. lia.
Qed.

(* ---- the spans ---- *)
Lemma into_iff n id b : into_bytes n id = Some b <-> len id = n /\ b = id.
Proof.
  unfold into_bytes. destruct (len id =? n) eqn:E; [apply N.eqb_eq in E|apply N.eqb_neq in E]; split.
  - intros H. injection H as <-. auto.
  - intros (_ & ->). reflexivity.
  - discriminate.
  - intros (H & _). congruence.
Qed.
Lemma convert_iff s d : convert_span s = Some d <->
  len (r_trace_id s) = 16 /\ len (r_span_id s) = 8 /\ len (r_parent_id s) = 8 /\
  d = Data (r_trace_id s) (r_span_id s) (r_parent_id s) (r_name s) (r_start s) (r_end s) (r_shared s ++ r_labels s) (r_kind s)
        (match r_kind s with Client => false | Server => true end).
Proof.
  unfold convert_span. destruct (into_bytes 8 (r_parent_id s)) as [p|] eqn:P.
  - apply into_iff in P as (P & ->). destruct (into_bytes 16 (r_trace_id s)) as [t|] eqn:T.
    + apply into_iff in T as (T & ->). destruct (into_bytes 8 (r_span_id s)) as [i|] eqn:I.
      * apply into_iff in I as (I & ->). split; [intros H; injection H as <-; auto|intros (_ & _ & _ & ->); reflexivity].
      * split; [discriminate|]. intros (_ & H & _). assert (X : into_bytes 8 (r_span_id s) = Some (r_span_id s)) by now apply into_iff. congruence.
    + split; [discriminate|]. intros (H & _). assert (X : into_bytes 16 (r_trace_id s) = Some (r_trace_id s)) by now apply into_iff. congruence.
  - split; [discriminate|]. intros (_ & _ & H & _). assert (X : into_bytes 8 (r_parent_id s) = Some (r_parent_id s)) by now apply into_iff. congruence.
Qed.
Lemma exported hs c id hs' sp name from to ls sh k : len id = 8 -> unpack_trace_context hs = Ctx c ->
  trace_call true hs id = Forward hs' (Some sp) ->
  ((exists d, convert_span (recorded sp name from to ls sh k) = Some d) <-> len (c_trace_id c) = 16 /\ len (c_parent_id c) = 8).
Proof.
  intros L U T. unfold trace_call in T. rewrite U in T. destruct (is_sampled c); [|discriminate].
  assert (sp = Span (c_trace_id c) id (c_parent_id c)) as -> by congruence. unfold recorded. cbn [s_trace_id s_span_id s_parent_id].
  split.
  - intros (d & H). apply convert_iff in H. cbn in H. tauto.
  - intros (A & B). eexists. apply convert_iff. cbn. split; [exact A|]. split; [exact L|]. split; [exact B|]. reflexivity.
Qed.
Lemma counted now es x : run (start now) es = Some x -> x_counters x = Counters 1 0 0.
Proof. intros R. destruct (inv_run _ _ _ R). auto. Qed.
Lemma never_sent now es x d batch tick : run (start now) es = Some x ->
  x_phase x = Collects (d :: batch) tick ->
  forall t l u y, (forall e, In e l -> e = Takes \/ exists ok, e = Answers ok) ->
  run (start now) (es ++ [Ends t] ++ l ++ [Puts u]) = Some y ->
  (forall e, step y e = None) /\ received es = concat (calls y) ++ d :: batch.
Proof.
  intros R P t l u y L Ry. destruct (last_batch _ _ _ _ _ _ R _ _ _ P l L Ry) as (D & E). split; [|exact E].
  intros e. destruct y as [p slot fl an c]. cbn in D. subst p. destruct e; reflexivity.
Qed.
