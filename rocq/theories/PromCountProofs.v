(** Proofs of C119 *)
From Coq Require Import String List Permutation NArith Arith Bool Lia ZifyBool ZifyN ZifyNat.
From Verif Require Import Bytes BytesProofs FilterModel PromModel PromSpec PromProofs.
Import ListNotations.
Open Scope N_scope.

(** ** Histories *)

Lemma elapsed_app : forall a b, elapsed (a ++ b) = elapsed a + elapsed b.
Proof. induction a as [|e a IH]; intros b; cbn [elapsed app]; [reflexivity|]. rewrite IH. lia. Qed.

Lemma first_snoc : forall A (f : event -> option A) es e now,
  first f now (es ++ [e]) =
  match first f now es with Some x => Some x | None => option_map (fun a => (now + elapsed es, a)) (f e) end.
Proof.
  intros A f es e. induction es as [|d es IH]; intros now; cbn [first app elapsed].
  - rewrite N.add_0_r. now destruct (f e).
  - destruct (f d); [reflexivity|]. rewrite IH. now rewrite N.add_assoc.
Qed.

Lemma first_time : forall A (f : event -> option A) es now t a, first f now es = Some (t, a) -> now <= t <= now + elapsed es.
Proof.
  intros A f es. induction es as [|d es IH]; intros now t a; cbn [first elapsed]; [discriminate|].
  destruct (f d).
  - intros [= <- <-]. lia.
  - intros H. apply IH in H. lia.
Qed.

Lemma first_none : forall A (f : event -> option A) es now, first f now es = None <-> forall e, In e es -> f e = None.
Proof.
  intros A f es. induction es as [|d es IH]; intros now; cbn [first].
  - split; [intros _ e []|reflexivity].
  - destruct (f d) eqn:F.
    + split; [discriminate|]. intros H. rewrite (H d (or_introl eq_refl)) in F. discriminate.
    + rewrite IH. split; intros H x; [intros [<-|I]; auto|intros I; apply H; now right].
Qed.

Lemma before_snoc : forall A (f : event -> option A) es e,
  before f (es ++ [e]) = if first f 0 es then before f es else match f e with Some _ => es | None => es ++ [e] end.
Proof.
  intros A f es e. cut (forall now, before f (es ++ [e]) = if first f now es then before f es else match f e with Some _ => es | None => es ++ [e] end); [auto|].
  induction es as [|d es IH]; intros now; cbn [before app first].
  - now destruct (f e).
  - destruct (f d); [reflexivity|]. rewrite (IH (now + passed d)). destruct (first f _ es); [reflexivity|]. now destruct (f e).
Qed.

Lemma calls_snoc : forall es e now,
  calls now (es ++ [e]) = calls now es ++ match e with Called r k h => [(now + elapsed es, r, k, h)] | _ => [] end.
Proof.
  induction es as [|d es IH]; intros e now.
  - cbn [app calls elapsed]. rewrite N.add_0_r. now destruct e.
  - destruct d; cbn [app calls elapsed passed]; rewrite IH, ?N.add_0_l, ?N.add_0_r, ?N.add_assoc; try reflexivity;
      cbn [app]; rewrite ?N.add_0_r; reflexivity.
Qed.

Lemma calls_time : forall es now c, In c (calls now es) -> fst (fst (fst c)) <= now + elapsed es.
Proof.
  induction es as [|d es IH]; intros now c; cbn [calls elapsed]; [intros []|].
  destruct d; try (intros I; apply IH in I; cbn [passed] in *; lia).
  intros [<-|I]; [cbn; lia|]. apply IH in I. cbn [passed]. lia.
Qed.

Lemma run_snoc : forall stack export es e st,
  run stack export st (es ++ [e]) = match run stack export st es with Some s => step stack export s e | None => None end.
Proof.
  intros stack export es e. induction es as [|d es IH]; intros st; cbn.
  - now destruct (step stack export st e).
  - destruct (step stack export st d); [apply IH|reflexivity].
Qed.

(** ** Counters *)

Section Counters.
Context {K : Type} (eqb : K -> K -> bool).
Hypothesis eqb_eq : forall a b, eqb a b = true <-> a = b.

Lemma eqb_refl : forall a, eqb a a = true.
Proof. intros a. now apply eqb_eq. Qed.

Lemma value_inc : forall k j l, value eqb k (inc eqb j l) = if eqb j k then (value eqb k l + 1) mod 2 ^ 64 else value eqb k l.
Proof.
  intros k j l. unfold value. induction l as [|[i n] l IH].
  - cbn [inc find fst]. destruct (eqb j k); reflexivity.
  - cbn [inc]. destruct (eqb i j) eqn:E.
    + apply eqb_eq in E. subst i. cbn [find fst]. destruct (eqb j k) eqn:F; [reflexivity|]. reflexivity.
    + cbn [find fst]. destruct (eqb i k) eqn:F.
      * destruct (eqb j k) eqn:G; [|reflexivity]. apply eqb_eq in F, G. subst. rewrite eqb_refl in E. discriminate.
      * exact IH.
Qed.

Definition total (ks : list K) : list (K * N) := fold_left (fun l k => inc eqb k l) ks [].

Lemma total_snoc : forall ks k, total (ks ++ [k]) = inc eqb k (total ks).
Proof. intros. unfold total. now rewrite fold_left_app. Qed.

Lemma value_total : forall k ks, value eqb k (total ks) = N.of_nat (List.length (filter (fun j => eqb j k) ks)) mod 2 ^ 64.
Proof.
  intros k ks. induction ks as [|j ks IH] using rev_ind; [reflexivity|].
  rewrite total_snoc, value_inc, IH, filter_app, app_length. cbn [filter]. destruct (eqb j k); cbn [List.length].
  - rewrite N.add_mod_idemp_l by discriminate. f_equal. lia.
  - f_equal. lia.
Qed.

(** Counted by a list of what each id has *)
Lemma total_many : forall (R : nat -> K -> Prop) ids ks k,
  NoDup ids -> Forall2 R ids ks -> (forall id a b, R id a -> R id b -> a = b) -> (forall id, R id k -> In id ids) ->
  how_many (fun id => R id k) (value eqb k (total ks)).
Proof.
  intros R ids ks k D F U A. exists (map fst (filter (fun p => eqb (snd p) k) (combine ids ks))).
  assert (I : forall id, In id (map fst (filter (fun p => eqb (snd p) k) (combine ids ks))) <-> R id k).
  { intros id. rewrite in_map_iff. split.
    - intros ([i j] & <- & I). apply filter_In in I as [I E]. apply eqb_eq in E. cbn in E. subst j. cbn.
      clear D A. revert I. induction F as [|x y xs ys H F IH]; cbn; [intros []|]. intros [[= -> ->]|I]; auto.
    - intros H. specialize (A _ H). clear D.
      induction F as [|x y xs ys HR F IH]; [destruct A|]. destruct A as [->|A].
      + exists (id, k). split; [reflexivity|]. apply filter_In. split; [|apply eqb_refl]. left. f_equal. now apply (U id).
      + destruct (IH A) as (p & P & Q). exists p. split; auto. apply filter_In in Q as [Q E]. apply filter_In. split; auto.
        now right. }
  repeat split; try apply I.
  - clear I A. revert D. induction F as [|x y xs ys HR F IH]; intros D; [constructor|]. inversion D; subst. cbn.
    destruct (eqb y k); cbn; auto. constructor; auto. intros X. apply in_map_iff in X as ([i j] & E & X). cbn in E. subst i.
    apply filter_In in X as [X _]. now apply in_combine_l in X.
  - rewrite value_total, map_length. f_equal. f_equal. clear I A D U. induction F as [|x y xs ys HR F IH]; [reflexivity|]. cbn.
    destruct (eqb y k); cbn; auto.
Qed.
End Counters.

Lemma option_eqb_eq : forall A (eqb : A -> A -> bool), (forall a b, eqb a b = true <-> a = b) ->
  forall a b, option_eqb eqb a b = true <-> a = b.
Proof.
  intros A eqb H [a|] [b|]; cbn; try (split; congruence). rewrite H. split; congruence.
Qed.
Lemma labeler_eqb_eq : forall a b, labeler_eqb a b = true <-> a = b.
Proof. intros [] []; cbn; split; congruence. Qed.
Lemma error_label_eqb_eq : forall a b, error_label_eqb a b = true <-> a = b.
Proof.
  intros a b. unfold error_label_eqb. rewrite beq_eq. split; [apply error_text_inj|now intros ->].
Qed.
Lemma parent_eqb_eq : forall a b, parent_eqb a b = true <-> a = b.
Proof.
  intros [[r h] k] [[r' h'] k']. unfold parent_eqb. cbn.
  rewrite !andb_true_iff, N.eqb_eq, labeler_eqb_eq, (option_eqb_eq _ _ beq_eq). split; [intros [[-> ->] ->]; reflexivity|].
  intros [= -> -> ->]. auto.
Qed.
Lemma labels_eqb_eq : forall a b, labels_eqb a b = true <-> a = b.
Proof.
  intros [s e] [s' e']. unfold labels_eqb. cbn.
  rewrite andb_true_iff, (option_eqb_eq _ _ N.eqb_eq), (option_eqb_eq _ _ error_label_eqb_eq).
  split; [intros [-> ->]; reflexivity|]. intros [= -> ->]. auto.
Qed.
Lemma key_eqb_eq : forall a b, key_eqb a b = true <-> a = b.
Proof.
  intros [p l] [p' l']. unfold key_eqb. cbn. rewrite andb_true_iff, parent_eqb_eq, labels_eqb_eq.
  split; [intros [-> ->]; reflexivity|]. intros [= -> ->]. auto.
Qed.

(** ** Layers *)

(** What all the layers do *)
Definition all {A B} (b : B) (l : list A) : list B := map (fun _ => b) l.

Lemma each_all : forall A (f : bool -> bool -> bool * option ending) (l : list A) o ended,
  f o (layer_ended (fst (f o ended))) = f o ended -> each f (all o l) ended = all (f o ended) l.
Proof.
  intros A f l o. induction l as [|a l IH]; intros ended H; [reflexivity|]. cbn [all map each]. f_equal.
  unfold all in IH. rewrite IH; [now rewrite H|]. now rewrite H, H.
Qed.

Lemma each_poll : forall A (l : list A) o f ended,
  each (fun o e => layer_poll o f e) (all o l) ended = all (layer_poll o f ended) l.
Proof.
  intros A l o f ended. apply (each_all _ (fun o e => layer_poll o f e)). destruct o, f, ended; reflexivity.
Qed.
Lemma each_new : forall A (l : list A) ended, each layer_new (all true l) ended = all (layer_new true ended) l.
Proof. intros A l ended. apply each_all. now destruct ended. Qed.

Lemma all_map : forall A B C (b : B) (f : B -> C) (l : list A), map f (all b l) = all (f b) l.
Proof. intros. unfold all. now rewrite map_map. Qed.

Lemma record_none : forall now s ls b m, record_all now s ls (all (b, None) ls) m = m.
Proof. intros now s ls b. induction ls as [|l ls IH]; intros m; [reflexivity|]. apply IH. Qed.

Definition layer_dec : forall a b : layer, {a = b} + {a <> b}.
Proof. decide equality. Defined.
Definition has (stack : list layer) (l : layer) : bool := if in_dec layer_dec l stack then true else false.

Lemma record_all_ok : forall now s ls b x m, NoDup ls ->
  record_all now s ls (all (b, Some x) ls) m =
  Metrics (m_requests m)
    (if has ls L_status
     then inc key_eqb (s_parent s, s_kind s, status_labels (end_response (s_kind s) (s_seen s) x)) (m_statuses m) else m_statuses m)
    (if has ls L_request_duration then m_request_seconds m ++ [((s_parent s, s_kind s), now - s_called s)] else m_request_seconds m)
    (if has ls L_response_duration
     then m_response_seconds m ++ [((s_parent s, s_kind s), match s_flushed s with Some t => now - t | None => 0 end)]
     else m_response_seconds m)
    (m_request_frames m) (m_response_frames m).
Proof.
  intros now s ls b x m D. revert m. induction D as [|l ls N D IH]; intros m.
  - destruct m; reflexivity.
  - cbn [all map record_all]. unfold all in IH. rewrite IH. unfold has in *.
    destruct l; cbn [record m_requests m_statuses m_request_seconds m_response_seconds m_request_frames m_response_frames].
    all: repeat match goal with |- context [in_dec layer_dec ?a ?b] => destruct (in_dec layer_dec a b) end; cbn in *;
      try reflexivity; try (exfalso; intuition congruence).
Qed.

(** ** The invariant *)

Section Run.
Variable stack : list layer.
Variable export : bool.
Hypothesis stack_nodup : NoDup stack.

Definition rsp_of (es : list event) (id : nat) : option (N * headers) := option_map snd (first (answers id) 0 es).
Definition ended (es : list event) (id : nat) : bool := if first (ends id) 0 es then true else false.

Record is_stream (es : list event) (id : nat) (s : stream) : Prop := {
  is_call : exists host, nth_error (calls 0 es) id = Some (s_called s, fst (s_parent s), s_kind s, host) /\
                         snd (s_parent s) = hostname export host;
  is_flushed : s_flushed s = option_map fst (first (flushes id) 0 es);
  is_seen : s_seen s = match rsp_of es id with Some (t, hs) => init_response (s_kind s) unseen t hs | None => unseen end;
  is_response : match s_response s with
                | Waiting => rsp_of es id = None /\ ended es id = false
                | Open l => l = all (negb (ended es id)) stack
                | Gone => True
                end }.

(** The part of the records *)
Definition key_is (es : list event) (id : nat) (key : parent * labeler * rsp_labels) : Prop :=
  exists start t x, over export es id (fst (fst key)) (snd (fst key)) start t x /\
    snd key = labels_at (snd (fst key)) (rsp_of es id) x.

Lemma key_is_iff : forall es id key, key_is es id key <-> counted export es id key.
Proof.
  intros es id [[p k] l]. unfold key_is, counted. cbn. fold (rsp_of es id).
  split; intros (start & t & x & O & L); exists start, t, x; (split; [exact O|]); now apply labelled_iff.
Qed.

Lemma over_unique : forall es id p k a t x p' k' a' t' x',
  over export es id p k a t x -> over export es id p' k' a' t' x' -> p = p' /\ k = k' /\ a = a' /\ t = t' /\ x = x'.
Proof.
  intros es id [r h] k a t x [r' h'] k' a' t' x' (host & C & H & F) (host' & C' & H' & F'). cbn in *.
  rewrite C in C'. injection C' as <- <- <- <-. rewrite F in F'. injection F' as <- <-. subst. auto.
Qed.

Lemma key_unique : forall es id a b, key_is es id a -> key_is es id b -> a = b.
Proof.
  intros es id [[p k] l] [[p' k'] l'] (s & t & x & O & L) (s' & t' & x' & O' & L'). cbn in *.
  destruct (over_unique _ _ _ _ _ _ _ _ _ _ _ _ O O') as (-> & -> & _ & _ & ->). congruence.
Qed.

Record records (es : list event) (m : metrics) : Prop := {
  rec : exists ids keys reqs rsps,
    NoDup ids /\ (forall id, In id ids <-> ended es id = true) /\
    Forall2 (key_is es) ids keys /\ Forall2 (took export es) ids reqs /\ Forall2 (answered_in export es) ids rsps /\
    m_statuses m = (if has stack L_status then total key_eqb keys else []) /\
    m_request_seconds m = (if has stack L_request_duration then reqs else []) /\
    m_response_seconds m = (if has stack L_response_duration then rsps else []) }.

Definition call_key (c : N * N * labeler * option bytes) : parent * labeler :=
  let '(_, r, k, h) := c in ((r, hostname export h), k).
Definition frame_is (es : list event) (x : nat * N) (o : (parent * labeler) * N) : Prop :=
  snd o = snd x /\ labels_of export es (fst x) (fst o).

Record inv (es : list event) (st : state) : Prop := {
  i_now : t_now st = elapsed es;
  i_len : List.length (t_streams st) = List.length (calls 0 es);
  i_streams : forall id s, nth_error (t_streams st) id = Some s -> is_stream es id s;
  i_unknown : forall id e, (List.length (calls 0 es) <= id)%nat -> In e es ->
                flushes id e = None /\ answers id e = None /\ ends id e = None;
  i_records : records es (t_metrics st);
  i_requests : m_requests (t_metrics st) = total parent_eqb (map call_key (calls 0 es));
  i_sent : Forall2 (frame_is es) (sizes true es) (m_request_frames (t_metrics st));
  i_given : Forall2 (frame_is es) (sizes false es) (m_response_frames (t_metrics st)) }.

Lemma nth_put : forall l i j s, nth_error (put i s l) j =
  if Nat.eqb i j then (match nth_error l j with Some _ => Some s | None => None end) else nth_error l j.
Proof.
  induction l as [|r l IH]; intros [|i] [|j] s; cbn; try reflexivity; try apply IH. now destruct (Nat.eqb i j).
Qed.
Lemma put_length : forall l i s, List.length (put i s l) = List.length l.
Proof. induction l as [|r l IH]; intros [|i] s; cbn; auto. Qed.

Lemma ended_snoc : forall es e id, ended (es ++ [e]) id = ended es id || (if ends id e then true else false).
Proof. intros. unfold ended. rewrite first_snoc. destruct (first (ends id) 0 es); [reflexivity|]. now destruct (ends id e). Qed.
Lemma rsp_snoc : forall es e id, rsp_of (es ++ [e]) id = match rsp_of es id with Some r => Some r | None => answers id e end.
Proof.
  intros. unfold rsp_of. rewrite first_snoc. destruct (first (answers id) 0 es) as [[t a]|]; [reflexivity|].
  cbn. now destruct (answers id e).
Qed.

(** What stays when the history goes on *)
Lemma over_snoc : forall es e id p k a t x, over export es id p k a t x -> over export (es ++ [e]) id p k a t x.
Proof.
  intros es e id p k a t x (host & C & H & F). exists host. split; [|split; [exact H|]].
  - rewrite calls_snoc. rewrite nth_error_app1; [exact C|]. apply nth_error_Some. congruence.
  - rewrite first_snoc. now rewrite F.
Qed.
Lemma over_ended : forall es id p k a t x, over export es id p k a t x -> ended es id = true.
Proof. intros es id p k a t x (host & _ & _ & F). unfold ended. now rewrite F. Qed.
Lemma took_snoc : forall es e id o, took export es id o -> took export (es ++ [e]) id o.
Proof. intros es e id [[p k] d] (a & t & x & O & R). exists a, t, x. split; [now apply over_snoc|exact R]. Qed.
Lemma answered_snoc : forall es e id o, answered_in export es id o -> answered_in export (es ++ [e]) id o.
Proof.
  intros es e id [[p k] d] (a & t & x & O & R). exists a, t, x. split; [now apply over_snoc|].
  destruct O as (h & _ & _ & F). rewrite before_snoc, F. exact R.
Qed.
Lemma key_snoc : forall es e id key, (ended es id = true -> answers id e = None) -> key_is es id key -> key_is (es ++ [e]) id key.
Proof.
  intros es e id key A (a & t & x & O & L). exists a, t, x. split; [now apply over_snoc|].
  rewrite rsp_snoc, L. rewrite (A (over_ended _ _ _ _ _ _ _ O)). now destruct (rsp_of es id).
Qed.
Lemma labels_snoc : forall es e id key, labels_of export es id key -> labels_of export (es ++ [e]) id key.
Proof.
  intros es e id key (a & h & C & H). exists a, h. split; [|exact H]. rewrite calls_snoc.
  rewrite nth_error_app1; [exact C|]. apply nth_error_Some. congruence.
Qed.
Lemma frames_snoc : forall es e xs os, Forall2 (frame_is es) xs os -> Forall2 (frame_is (es ++ [e])) xs os.
Proof.
  intros es e xs os F. induction F as [|x o xs os [A B] F IH]; constructor; auto. split; auto. now apply labels_snoc.
Qed.
Lemma Forall2_mono : forall A B (P Q : A -> B -> Prop) l r,
  Forall2 P l r -> (forall a b, In a l -> P a b -> Q a b) -> Forall2 Q l r.
Proof.
  intros A B P Q l r F. induction F as [|a b l r H F IH]; intros M; constructor.
  - apply M; [now left|exact H].
  - apply IH. intros x y I. apply M. now right.
Qed.

(** An event that ends nothing *)
Lemma records_quiet : forall es e m m',
  records es m -> (forall id, ended es id = false -> ends id e = None) ->
  (forall id, ended es id = true -> answers id e = None) ->
  m_statuses m' = m_statuses m -> m_request_seconds m' = m_request_seconds m -> m_response_seconds m' = m_response_seconds m ->
  records (es ++ [e]) m'.
Proof.
  intros es e m m' [(ids & keys & reqs & rsps & D & I & F1 & F2 & F3 & E1 & E2 & E3)] E A M1 M2 M3. constructor.
  exists ids, keys, reqs, rsps. repeat split; auto; try congruence.
  - intros J. rewrite ended_snoc. apply I in J. now rewrite J.
  - intros J. apply I. rewrite ended_snoc in J. destruct (ended es id) eqn:X; [reflexivity|]. rewrite (E id X) in J. discriminate.
  - eapply Forall2_mono; [exact F1|]. intros id k _. now apply key_snoc, A.
  - eapply Forall2_mono; [exact F2|]. intros id k _. apply took_snoc.
  - eapply Forall2_mono; [exact F3|]. intros id k _. apply answered_snoc.
Qed.

(** An event that ends one stream *)
Lemma records_end : forall es e m id x s s' b,
  records es m -> is_stream es id s -> ended es id = false -> ends id e = Some x ->
  (forall j, j <> id -> ends j e = None) -> (forall j, ended es j = true -> answers j e = None) ->
  s_parent s' = s_parent s -> s_kind s' = s_kind s -> s_called s' = s_called s -> s_flushed s' = s_flushed s ->
  s_seen s' = match rsp_of (es ++ [e]) id with Some (t, hs) => init_response (s_kind s) unseen t hs | None => unseen end ->
  records (es ++ [e]) (record_all (elapsed es) s' stack (all (b, Some x) stack) m).
Proof.
  intros es e m id x s s' b [(ids & keys & reqs & rsps & D & I & F1 & F2 & F3 & E1 & E2 & E3)] S N X O A P1 P2 P3 P4 P5.
  constructor. rewrite record_all_ok by exact stack_nodup. cbn [m_statuses m_request_seconds m_response_seconds].
  assert (NI : ~ In id ids) by (intros J; apply I in J; congruence).
  assert (OV : over export (es ++ [e]) id (s_parent s) (s_kind s) (s_called s) (elapsed es) x).
  { destruct (is_call _ _ _ S) as (host & C & H). exists host. split; [|split; [exact H|]].
    - rewrite calls_snoc, nth_error_app1; [exact C|]. apply nth_error_Some. congruence.
    - rewrite first_snoc. unfold ended in N. destruct (first (ends id) 0 es); [discriminate|]. rewrite X. reflexivity. }
  exists (ids ++ [id]),
    (keys ++ [(s_parent s, s_kind s, status_labels (end_response (s_kind s) (s_seen s') x))]),
    (reqs ++ [((s_parent s, s_kind s), elapsed es - s_called s)]),
    (rsps ++ [((s_parent s, s_kind s), match s_flushed s with Some t => elapsed es - t | None => 0 end)]).
  split; [|split; [|split; [|split; [|split; [|split; [|split]]]]]].
  - apply (Permutation_NoDup (Permutation_cons_append ids id)). now constructor.
  - intros j. rewrite ended_snoc, in_app_iff, I. cbn. destruct (Nat.eq_dec j id) as [->|ne].
    + rewrite X, N. cbn. intuition.
    + rewrite (O j ne). rewrite orb_false_r. intuition congruence.
  - apply Forall2_app.
    + eapply Forall2_mono; [exact F1|]. intros j k _. now apply key_snoc, A.
    + constructor; [|constructor]. exists (s_called s), (elapsed es), x. split; [exact OV|]. cbn.
      rewrite P5. unfold labels_at. destruct (rsp_of (es ++ [e]) id) as [[? ?]|]; reflexivity.
  - apply Forall2_app.
    + eapply Forall2_mono; [exact F2|]. intros j k _. apply took_snoc.
    + constructor; [|constructor]. exists (s_called s), (elapsed es), x. repeat split; [exact OV|].
      destruct (is_call _ _ _ S) as (host & C & _). apply nth_error_In, calls_time in C. cbn in C. lia.
  - apply Forall2_app.
    + eapply Forall2_mono; [exact F3|]. intros j k _. apply answered_snoc.
    + constructor; [|constructor]. exists (s_called s), (elapsed es), x. split; [exact OV|].
      rewrite before_snoc. unfold ended in N. destruct (first (ends id) 0 es); [discriminate|]. rewrite X.
      rewrite (is_flushed _ _ _ S). destruct (first (flushes id) 0 es) as [[t u]|] eqn:F; cbn; [|reflexivity].
      apply first_time in F. split; [lia|reflexivity].
  - rewrite E1, P1, P2. destruct (has stack L_status); [|reflexivity]. now rewrite total_snoc.
  - rewrite E2, P1, P2, P3. now destruct (has stack L_request_duration).
  - rewrite E3, P1, P2, P4. now destruct (has stack L_response_duration).
Qed.

(** Which stream an event is about *)
Definition about (e : event) : option nat :=
  match e with
  | Called _ _ _ | Passed _ => None
  | Sent i _ _ | Sent_dropped i | Responded i _ _ _ | Refused_with i _ | Abandoned i | Polled i _ _ | Dropped i => Some i
  end.
Lemma about_other : forall e id, about e <> Some id -> flushes id e = None /\ answers id e = None /\ ends id e = None.
Proof.
  intros e id H.
  destruct e as [r k h|i f en|i|i t hs en|i x|i|i f en|i|t]; cbn in *; auto;
    assert (Q : Nat.eqb i id = false) by (apply Nat.eqb_neq; congruence); rewrite Q; repeat split; try (now destruct en); try (now destruct f, en).
Qed.

Lemma stream_other : forall es e id s, about e <> Some id -> is_stream es id s -> is_stream (es ++ [e]) id s.
Proof.
  intros es e id s N [(host & C & H) F S R]. destruct (about_other _ _ N) as (A1 & A2 & A3).
  assert (RS : rsp_of (es ++ [e]) id = rsp_of es id) by (rewrite rsp_snoc, A2; now destruct (rsp_of es id)).
  assert (EN : ended (es ++ [e]) id = ended es id) by (rewrite ended_snoc, A3; apply orb_false_r).
  constructor; rewrite ?RS, ?EN; auto.
  - exists host. split; [|exact H]. rewrite calls_snoc, nth_error_app1; [exact C|]. apply nth_error_Some. congruence.
  - rewrite first_snoc, A1. rewrite F. now destruct (first (flushes id) 0 es).
Qed.

Lemma call_stays : forall es e id s,
  (exists host, nth_error (calls 0 es) id = Some (s_called s, fst (s_parent s), s_kind s, host) /\ snd (s_parent s) = hostname export host) ->
  exists host, nth_error (calls 0 (es ++ [e])) id = Some (s_called s, fst (s_parent s), s_kind s, host) /\ snd (s_parent s) = hostname export host.
Proof.
  intros es e id s (host & C & H). exists host. split; [|exact H].
  rewrite calls_snoc, nth_error_app1; [exact C|]. apply nth_error_Some. congruence.
Qed.

(** An event about one stream *)
Lemma inv_one : forall es e st id s s' m',
  inv es st -> about e = Some id -> nth_error (t_streams st) id = Some s -> is_stream (es ++ [e]) id s' ->
  records (es ++ [e]) m' -> m_requests m' = m_requests (t_metrics st) ->
  Forall2 (frame_is es) (sizes true (es ++ [e])) (m_request_frames m') ->
  Forall2 (frame_is es) (sizes false (es ++ [e])) (m_response_frames m') ->
  inv (es ++ [e]) (State (t_now st) (put id s' (t_streams st)) m').
Proof.
  intros es e st id s s' m' I A Hs S R Q F G.
  assert (C : calls 0 (es ++ [e]) = calls 0 es) by (rewrite calls_snoc; destruct e; try discriminate; apply app_nil_r).
  constructor; cbn [t_now t_streams t_metrics].
  - rewrite (i_now _ _ I), elapsed_app. destruct e; try discriminate; cbn; lia.
  - rewrite put_length, C. apply (i_len _ _ I).
  - intros j r H. rewrite nth_put in H. destruct (Nat.eqb id j) eqn:E.
    + apply Nat.eqb_eq in E. subst j. rewrite Hs in H. injection H as <-. exact S.
    + apply Nat.eqb_neq in E. apply stream_other; [congruence|]. now apply (i_streams _ _ I).
  - intros j d L J. rewrite C in L. apply in_app_iff in J as [J|[<-|[]]]; [now apply (i_unknown _ _ I)|].
    apply about_other. rewrite A. intros [= <-]. rewrite <- (i_len _ _ I) in L. apply nth_error_None in L. congruence.
  - exact R.
  - rewrite Q, C. apply (i_requests _ _ I).
  - now apply frames_snoc.
  - now apply frames_snoc.
Qed.

Lemma sizes_snoc : forall b es e, sizes b (es ++ [e]) = sizes b es ++ sizes b [e].
Proof. intros. unfold sizes. now rewrite flat_map_app. Qed.

Lemma frame_one : forall es id s f l xs,
  is_stream es id s -> Forall2 (frame_is es) xs l ->
  Forall2 (frame_is es) (xs ++ match f with Data n => [(id, n)] | _ => [] end) (observe (s_parent s, s_kind s) f l).
Proof.
  intros es id s f l xs S F. destruct f; cbn; rewrite ?app_nil_r; auto. apply Forall2_app; [exact F|].
  constructor; [|constructor]. split; [reflexivity|]. destruct (is_call _ _ _ S) as (host & C & H). cbn.
  exists (s_called s), host. auto.
Qed.

Lemma inv_init : inv [] init.
Proof.
  constructor.
  - reflexivity.
  - reflexivity.
  - intros id s H. now destruct id.
  - intros id e _ [].
  - constructor. exists [], [], [], []. split; [constructor|]. split; [intros id; split; [intros []|discriminate]|].
    repeat (split; [constructor|]). repeat split; now destruct (has stack _).
  - reflexivity.
  - constructor.
  - constructor.
Qed.

Lemma inv_step : forall es e st st', inv es st -> step stack export st e = Some st' -> inv (es ++ [e]) st'.
Proof.
  intros es e st st' I H. destruct st as [now streams m]. pose proof (i_now _ _ I) as NOW. cbn in NOW.
  destruct e as [r k h|id f en|id|id t hs en|id x|id|id f en|id|t]; cbn in H.
  - (* Called *)
    injection H as <-.
    assert (L : List.length streams = List.length (calls 0 es)) by exact (i_len _ _ I).
    assert (C : calls 0 (es ++ [Called r k h]) = calls 0 es ++ [(now, r, k, h)]) by (rewrite calls_snoc, NOW; reflexivity).
    constructor; cbn [t_now t_streams t_metrics m_requests m_request_frames m_response_frames].
    + rewrite elapsed_app. cbn. lia.
    + rewrite C, !app_length, L. reflexivity.
    + intros id s H. destruct (Nat.lt_ge_cases id (List.length streams)) as [Q|Q].
      * rewrite nth_error_app1 in H by exact Q. apply stream_other; [discriminate|]. now apply (i_streams _ _ I).
      * rewrite nth_error_app2 in H by exact Q. destruct (id - List.length streams)%nat as [|d] eqn:D; [|now destruct d].
        injection H as <-. assert (id = List.length streams) by lia. subst id.
        assert (Z : forall A (g : event -> option A), (forall e, In e es -> g e = None) -> g (Called r k h) = None ->
                    first g 0 (es ++ [Called r k h]) = None).
        { intros A g Y W. apply first_none. intros d J. apply in_app_iff in J as [J|[<-|[]]]; auto. }
        pose proof (i_unknown _ _ I (List.length streams)) as U.
        assert (Z1 : first (flushes (List.length streams)) 0 (es ++ [Called r k h]) = None)
          by (apply Z; [intros d J; apply (U d); [lia|exact J]|reflexivity]).
        assert (Z2 : first (answers (List.length streams)) 0 (es ++ [Called r k h]) = None)
          by (apply Z; [intros d J; apply (U d); [lia|exact J]|reflexivity]).
        assert (Z3 : first (ends (List.length streams)) 0 (es ++ [Called r k h]) = None)
          by (apply Z; [intros d J; apply (U d); [lia|exact J]|reflexivity]).
        constructor; cbn; unfold rsp_of, ended; rewrite ?Z1, ?Z2, ?Z3; auto.
        exists h. split; [|reflexivity]. rewrite C, nth_error_app2 by lia.
        replace (List.length streams - List.length (calls 0 es))%nat with O by lia. reflexivity.
    + intros id d Q J. rewrite C, app_length in Q. cbn in Q. apply in_app_iff in J as [J|[<-|[]]]; [|auto].
      apply (i_unknown _ _ I); [lia|exact J].
    + eapply records_quiet; [exact (i_records _ _ I)| | | | |]; reflexivity.
    + pose proof (i_requests _ _ I) as Q. cbn in Q. rewrite Q, C, map_app. cbn. now rewrite total_snoc.
    + rewrite sizes_snoc. cbn. rewrite app_nil_r. apply frames_snoc, (i_sent _ _ I).
    + rewrite sizes_snoc. cbn. rewrite app_nil_r. apply frames_snoc, (i_given _ _ I).
  - (* Sent *)
    destruct (nth_error streams id) as [s|] eqn:Hs; [|discriminate]. destruct (s_sending s); [|discriminate]. injection H as <-.
    pose proof (i_streams _ _ I id s Hs) as S. pose proof S as [C F SN R].
    apply (inv_one es _ (State now streams m) id s); auto; cbn [m_requests m_request_frames m_response_frames t_metrics].
    + assert (RS : rsp_of (es ++ [Sent id f en]) id = rsp_of es id) by (rewrite rsp_snoc; cbn; now destruct (rsp_of es id)).
      assert (EN : ended (es ++ [Sent id f en]) id = ended es id) by (rewrite ended_snoc; cbn; apply orb_false_r).
      constructor.
      * destruct en; cbn; now apply call_stays.
      * rewrite first_snoc. destruct en; cbn.
        -- rewrite Nat.eqb_refl. rewrite F, NOW. destruct (first (flushes id) 0 es) as [[? ?]|]; reflexivity.
        -- rewrite F. destruct (first (flushes id) 0 es) as [[? ?]|]; reflexivity.
      * rewrite RS. now destruct en.
      * rewrite RS, EN. now destruct en.
    + eapply records_quiet; [exact (i_records _ _ I)| | | | |]; reflexivity.
    + rewrite sizes_snoc. replace (sizes true [Sent id f en]) with (match f with Data n => [(id, n)] | _ => [] end)
        by (destruct f; reflexivity). apply frame_one; [exact S|]. apply (i_sent _ _ I).
    + rewrite sizes_snoc. replace (sizes false [Sent id f en]) with (@nil (nat * N)) by (destruct f; reflexivity).
      rewrite app_nil_r. apply (i_given _ _ I).
  - (* Sent_dropped *)
    destruct (nth_error streams id) as [s|] eqn:Hs; [|discriminate]. destruct (s_sending s); [|discriminate]. injection H as <-.
    pose proof (i_streams _ _ I id s Hs) as S. pose proof S as [C F SN R].
    apply (inv_one es _ (State now streams m) id s); auto; cbn [m_requests m_request_frames m_response_frames t_metrics].
    + assert (RS : rsp_of (es ++ [Sent_dropped id]) id = rsp_of es id) by (rewrite rsp_snoc; cbn; now destruct (rsp_of es id)).
      assert (EN : ended (es ++ [Sent_dropped id]) id = ended es id) by (rewrite ended_snoc; cbn; apply orb_false_r).
      constructor; cbn; rewrite ?RS, ?EN; auto.
      * now apply call_stays.
      * rewrite first_snoc. cbn. rewrite Nat.eqb_refl, F, NOW. destruct (first (flushes id) 0 es) as [[? ?]|]; reflexivity.
    + eapply records_quiet; [exact (i_records _ _ I)| | | | |]; reflexivity.
    + rewrite sizes_snoc. cbn. rewrite app_nil_r. apply (i_sent _ _ I).
    + rewrite sizes_snoc. cbn. rewrite app_nil_r. apply (i_given _ _ I).
  - (* Responded *)
    destruct (nth_error streams id) as [s|] eqn:Hs; [|discriminate].
    destruct (s_response s) eqn:RE; try discriminate. injection H as <-.
    pose proof (i_streams _ _ I id s Hs) as S. pose proof S as [C F SN R]. rewrite RE in R. destruct R as [R1 R2].
    set (e := Responded id t hs en) in *.
    assert (RS : rsp_of (es ++ [e]) id = Some (t, hs)) by (rewrite rsp_snoc, R1; cbn; now rewrite Nat.eqb_refl).
    assert (EN : ended (es ++ [e]) id = en) by (rewrite ended_snoc, R2; cbn; rewrite Nat.eqb_refl; now destruct en).
    rewrite R1 in SN.
    assert (ST : is_stream (es ++ [e]) id (with_response s (init_response (s_kind s) (s_seen s) t hs) (Open (map fst (each layer_new (map (fun _ => true) stack) en))))).
    { constructor; cbn [with_response s_called s_parent s_kind s_flushed s_seen s_response].
      - now apply call_stays.
      - rewrite first_snoc. cbn. rewrite F. destruct (first (flushes id) 0 es) as [[? ?]|]; reflexivity.
      - now rewrite RS, SN.
      - rewrite EN. change (map (fun _ => true) stack) with (all true stack). rewrite each_new, all_map. now destruct en. }
    assert (AN : forall j, ended es j = true -> answers j e = None).
    { intros j J. cbn. destruct (Nat.eqb id j) eqn:Q; [|reflexivity]. apply Nat.eqb_eq in Q. subst j. congruence. }
    apply (inv_one es e (State now streams m) id s); auto; cbn [t_metrics].
    + change (map (fun _ => true) stack) with (all true stack). rewrite each_new. destruct en; cbn [layer_new].
      * rewrite NOW. eapply records_end; eauto.
        -- exact (i_records _ _ I).
        -- cbn. now rewrite Nat.eqb_refl.
        -- intros j J. cbn. destruct (Nat.eqb id j) eqn:Q; [|reflexivity]. apply Nat.eqb_eq in Q. congruence.
        -- cbn. now rewrite RS, SN.
      * rewrite record_none. eapply records_quiet; [exact (i_records _ _ I)| | | | |]; try reflexivity. exact AN.
    + change (map (fun _ => true) stack) with (all true stack). rewrite each_new. destruct en; cbn [layer_new].
      * rewrite record_all_ok by exact stack_nodup. reflexivity.
      * now rewrite record_none.
    + rewrite sizes_snoc. cbn. rewrite app_nil_r. change (map (fun _ => true) stack) with (all true stack). rewrite each_new.
      destruct en; cbn [layer_new]; [rewrite record_all_ok by exact stack_nodup|rewrite record_none]; apply (i_sent _ _ I).
    + rewrite sizes_snoc. cbn. rewrite app_nil_r. change (map (fun _ => true) stack) with (all true stack). rewrite each_new.
      destruct en; cbn [layer_new]; [rewrite record_all_ok by exact stack_nodup|rewrite record_none]; apply (i_given _ _ I).
  - (* Refused_with *)
    destruct (nth_error streams id) as [s|] eqn:Hs; [|discriminate].
    destruct (s_response s) eqn:RE; try discriminate. injection H as <-.
    pose proof (i_streams _ _ I id s Hs) as S. pose proof S as [C F SN R]. rewrite RE in R. destruct R as [R1 R2].
    set (e := Refused_with id x) in *.
    assert (RS : rsp_of (es ++ [e]) id = None) by (rewrite rsp_snoc, R1; reflexivity).
    change (map (fun _ => (false, Some (Broken x))) stack) with (all (false, Some (Broken x)) stack).
    apply (inv_one es e (State now streams m) id s); auto; cbn [t_metrics].
    + constructor; cbn; rewrite ?RS; auto.
      * now apply call_stays.
      * rewrite first_snoc. cbn. rewrite F. destruct (first (flushes id) 0 es) as [[? ?]|]; reflexivity.
      * now rewrite SN, R1.
    + rewrite NOW. eapply records_end; eauto.
      * exact (i_records _ _ I).
      * cbn. now rewrite Nat.eqb_refl.
      * intros j J. cbn. destruct (Nat.eqb id j) eqn:Q; [|reflexivity]. apply Nat.eqb_eq in Q. congruence.
      * now rewrite RS, SN, R1.
    + rewrite record_all_ok by exact stack_nodup. reflexivity.
    + rewrite sizes_snoc. cbn. rewrite app_nil_r. rewrite record_all_ok by exact stack_nodup. apply (i_sent _ _ I).
    + rewrite sizes_snoc. cbn. rewrite app_nil_r. rewrite record_all_ok by exact stack_nodup. apply (i_given _ _ I).
  - (* Abandoned *)
    destruct (nth_error streams id) as [s|] eqn:Hs; [|discriminate].
    destruct (s_response s) eqn:RE; try discriminate. injection H as <-.
    pose proof (i_streams _ _ I id s Hs) as S. pose proof S as [C F SN R].
    apply (inv_one es _ (State now streams m) id s); auto; cbn [t_metrics].
    + constructor; cbn; auto.
      * now apply call_stays.
      * rewrite first_snoc. cbn. rewrite F. destruct (first (flushes id) 0 es) as [[? ?]|]; reflexivity.
      * rewrite rsp_snoc. cbn. rewrite SN. now destruct (rsp_of es id) as [[? ?]|].
    + eapply records_quiet; [exact (i_records _ _ I)| | | | |]; reflexivity.
    + rewrite sizes_snoc. cbn. rewrite app_nil_r. apply (i_sent _ _ I).
    + rewrite sizes_snoc. cbn. rewrite app_nil_r. apply (i_given _ _ I).
  - (* Polled *)
    destruct (nth_error streams id) as [s|] eqn:Hs; [|discriminate].
    destruct (s_response s) as [|open|] eqn:RE; try discriminate. injection H as <-.
    pose proof (i_streams _ _ I id s Hs) as S. pose proof S as [C F SN R]. rewrite RE in R. subst open.
    rewrite each_poll.
    set (e := Polled id f en) in *.
    assert (RS : rsp_of (es ++ [e]) id = rsp_of es id) by (rewrite rsp_snoc; cbn; now destruct (rsp_of es id)).
    assert (EN : ended (es ++ [e]) id = ended es id || (if ends id e then true else false)) by apply ended_snoc.
    assert (PO : layer_poll true f en = (if ends id e then false else true, ends id e)).
    { cbn. rewrite Nat.eqb_refl. destruct f, en; reflexivity. }
    assert (ND : forall j, j <> id -> ends j e = None) by (intros j J; apply about_other; cbn; congruence).
    set (m1 := Metrics _ _ _ _ _ _).
    assert (FR : Forall2 (frame_is es) (sizes false (es ++ [e])) (m_response_frames m1)).
    { rewrite sizes_snoc. replace (sizes false [e]) with (match f with Data n => [(id, n)] | _ => [] end)
        by (destruct f; reflexivity). apply frame_one; [exact S|]. apply (i_given _ _ I). }
    assert (FS : sizes true (es ++ [e]) = sizes true es).
    { rewrite sizes_snoc. replace (sizes true [e]) with (@nil (nat * N)) by (destruct f; reflexivity). apply app_nil_r. }
    assert (RC : records es m1).
    { destruct (i_records _ _ I) as [(ids & keys & reqs & rsps & Q)]. constructor. exists ids, keys, reqs, rsps. exact Q. }
    apply (inv_one es e (State now streams m) id s); auto; cbn [t_metrics].
    + constructor; cbn [with_response s_called s_parent s_kind s_flushed s_seen s_response]; rewrite ?RS; auto.
      * now apply call_stays.
      * rewrite first_snoc. cbn. rewrite F. destruct (first (flushes id) 0 es) as [[? ?]|]; reflexivity.
      * rewrite all_map, EN. destruct (ended es id); [reflexivity|]. cbn [negb orb]. rewrite PO. now destruct (ends id e).
    + destruct (ended es id) eqn:E; cbn [negb].
      * cbn [layer_poll]. rewrite record_none. eapply records_quiet; [exact RC| | | | |]; try reflexivity.
        intros j J. destruct (Nat.eq_dec j id) as [->|ne]; [congruence|now apply ND].
      * rewrite PO. destruct (ends id e) as [x|] eqn:X.
        -- rewrite NOW. eapply records_end; eauto. now rewrite RS.
        -- rewrite record_none. eapply records_quiet; [exact RC| | | | |]; try reflexivity.
           intros j J. destruct (Nat.eq_dec j id) as [->|ne]; [exact X|now apply ND].
    + destruct (ended es id); cbn [negb]; [cbn [layer_poll]; now rewrite record_none|].
      rewrite PO. destruct (ends id e); [rewrite record_all_ok by exact stack_nodup|rewrite record_none]; reflexivity.
    + rewrite FS. destruct (ended es id); cbn [negb]; [cbn [layer_poll]; rewrite record_none; apply (i_sent _ _ I)|].
      rewrite PO. destruct (ends id e); [rewrite record_all_ok by exact stack_nodup|rewrite record_none]; apply (i_sent _ _ I).
    + destruct (ended es id); cbn [negb]; [cbn [layer_poll]; rewrite record_none; exact FR|].
      rewrite PO. destruct (ends id e); [rewrite record_all_ok by exact stack_nodup|rewrite record_none]; exact FR.
  - (* Dropped *)
    destruct (nth_error streams id) as [s|] eqn:Hs; [|discriminate].
    destruct (s_response s) as [|open|] eqn:RE; try discriminate. injection H as <-.
    pose proof (i_streams _ _ I id s Hs) as S. pose proof S as [C F SN R]. rewrite RE in R. subst open.
    rewrite all_map.
    set (e := Dropped id) in *.
    assert (RS : rsp_of (es ++ [e]) id = rsp_of es id) by (rewrite rsp_snoc; cbn; now destruct (rsp_of es id)).
    assert (X : ends id e = Some Cancelled) by (cbn; now rewrite Nat.eqb_refl).
    assert (ND : forall j, j <> id -> ends j e = None) by (intros j J; apply about_other; cbn; congruence).
    apply (inv_one es e (State now streams m) id s); auto; cbn [t_metrics].
    + constructor; cbn; rewrite ?RS; auto.
      * now apply call_stays.
      * rewrite first_snoc. cbn. rewrite F. destruct (first (flushes id) 0 es) as [[? ?]|]; reflexivity.
    + destruct (ended es id) eqn:E; unfold layer_drop; cbn [negb].
      * rewrite record_none. eapply records_quiet; [exact (i_records _ _ I)| | | | |]; try reflexivity.
        intros j J. destruct (Nat.eq_dec j id) as [->|ne]; [congruence|now apply ND].
      * rewrite NOW. eapply records_end; eauto; [exact (i_records _ _ I)|]. now rewrite RS.
    + destruct (ended es id); unfold layer_drop; cbn [negb];
        [rewrite record_none|rewrite record_all_ok by exact stack_nodup]; reflexivity.
    + rewrite sizes_snoc. cbn [sizes flat_map app]. rewrite app_nil_r. destruct (ended es id); unfold layer_drop; cbn [negb];
        [rewrite record_none|rewrite record_all_ok by exact stack_nodup]; apply (i_sent _ _ I).
    + rewrite sizes_snoc. cbn [sizes flat_map app]. rewrite app_nil_r. destruct (ended es id); unfold layer_drop; cbn [negb];
        [rewrite record_none|rewrite record_all_ok by exact stack_nodup]; apply (i_given _ _ I).
  - (* Passed *)
    injection H as <-.
    assert (C : calls 0 (es ++ [Passed t]) = calls 0 es) by (rewrite calls_snoc; apply app_nil_r).
    constructor; cbn [t_now t_streams t_metrics]; rewrite ?C.
    + rewrite elapsed_app, NOW. cbn. lia.
    + apply (i_len _ _ I).
    + intros id s H. apply stream_other; [discriminate|]. now apply (i_streams _ _ I).
    + intros id d L J. apply in_app_iff in J as [J|[<-|[]]]; [now apply (i_unknown _ _ I)|auto].
    + eapply records_quiet; [exact (i_records _ _ I)| | | | |]; reflexivity.
    + apply (i_requests _ _ I).
    + rewrite sizes_snoc. cbn. rewrite app_nil_r. apply frames_snoc, (i_sent _ _ I).
    + rewrite sizes_snoc. cbn. rewrite app_nil_r. apply frames_snoc, (i_given _ _ I).
Qed.

Lemma inv_run : forall es st, run stack export init es = Some st -> inv es st.
Proof.
  intros es. induction es as [|e es IH] using rev_ind; intros st H.
  - injection H as <-. apply inv_init.
  - rewrite run_snoc in H. destruct (run stack export init es) as [s|]; [|discriminate].
    eapply inv_step; eauto.
Qed.

Lemma has_in : forall l, In l stack -> has stack l = true.
Proof. intros l I. unfold has. now destruct (in_dec layer_dec l stack). Qed.

(** ** What follows *)

Lemma statuses_ok : forall es st key, run stack export init es = Some st -> In L_status stack ->
  how_many (fun id => counted export es id key) (value key_eqb key (m_statuses (t_metrics st))).
Proof.
  intros es st key H L. apply inv_run in H. destruct (i_records _ _ H) as [(ids & keys & reqs & rsps & D & I & F1 & _ & _ & E & _)].
  rewrite E, (has_in _ L).
  destruct (total_many key_eqb key_eqb_eq (key_is es) ids keys key) as (l & A & B & C); auto.
  - intros id a b. apply key_unique.
  - intros id (a & t & x & O & _). apply I. eapply over_ended, O.
  - exists l. split; [exact A|]. split; [|exact C]. intros id. rewrite B. apply key_is_iff.
Qed.

Lemma ended_iff : forall es id, ended es id = true <-> first (ends id) 0 es <> None.
Proof. intros. unfold ended. destruct (first (ends id) 0 es); split; congruence. Qed.

Lemma requests_ok : forall es st, run stack export init es = Some st -> In L_request_duration stack ->
  one_each (fun id => first (ends id) 0 es <> None) (took export es) (m_request_seconds (t_metrics st)).
Proof.
  intros es st H L. apply inv_run in H. destruct (i_records _ _ H) as [(ids & keys & reqs & rsps & D & I & _ & F & _ & _ & E & _)].
  rewrite E, (has_in _ L). exists ids. repeat split; auto; intros J; [now apply ended_iff, I|now apply I, ended_iff].
Qed.
Lemma responses_ok : forall es st, run stack export init es = Some st -> In L_response_duration stack ->
  one_each (fun id => first (ends id) 0 es <> None) (answered_in export es) (m_response_seconds (t_metrics st)).
Proof.
  intros es st H L. apply inv_run in H. destruct (i_records _ _ H) as [(ids & keys & reqs & rsps & D & I & _ & _ & F & _ & _ & E)].
  rewrite E, (has_in _ L). exists ids. repeat split; auto; intros J; [now apply ended_iff, I|now apply I, ended_iff].
Qed.

Lemma calls_counted : forall es st key, run stack export init es = Some st ->
  how_many (fun id => labels_of export es id key) (value parent_eqb key (m_requests (t_metrics st))).
Proof.
  intros es st key H. apply inv_run in H. rewrite (i_requests _ _ H).
  set (cs := calls 0 es).
  destruct (total_many parent_eqb parent_eqb_eq (fun id k => option_map call_key (nth_error cs id) = Some k)
              (seq 0 (List.length cs)) (map call_key cs) key) as (l & A & B & C).
  - apply seq_NoDup.
  - clearbody cs. clear. assert (G : forall pre, Forall2 (fun id k => option_map call_key (nth_error (pre ++ cs) id) = Some k) (seq (List.length pre) (List.length cs)) (map call_key cs)).
    { induction cs as [|c cs IH]; intros pre; cbn; constructor.
      - rewrite nth_error_app2, Nat.sub_diag by lia. reflexivity.
      - specialize (IH (pre ++ [c])). rewrite app_length, <- app_assoc in IH. cbn in IH.
        replace (List.length pre + 1)%nat with (S (List.length pre)) in IH by lia. exact IH. }
    apply (G []).
  - intros id a b. congruence.
  - intros id J. apply in_seq. split; [lia|]. apply nth_error_Some. destruct (nth_error cs id); [discriminate|discriminate].
  - exists l. split; [exact A|]. split; [|exact C]. intros id. rewrite B. unfold labels_of. fold cs. destruct key as [[r h] k]. cbn. split.
    + destruct (nth_error cs id) as [[[[a r'] k'] h']|]; [|discriminate]. cbn. intros [= <- <- <-]. eauto.
    + intros (a & host & E & ->). rewrite E. reflexivity.
Qed.

Lemma frames_ok : forall es st, run stack export init es = Some st ->
  Forall2 (fun x o => snd o = snd x /\ labels_of export es (fst x) (fst o)) (sizes true es) (m_request_frames (t_metrics st)) /\
  Forall2 (fun x o => snd o = snd x /\ labels_of export es (fst x) (fst o)) (sizes false es) (m_response_frames (t_metrics st)).
Proof. intros es st H. apply inv_run in H. split; [apply (i_sent _ _ H)|apply (i_given _ _ H)]. Qed.

Lemma reports_ok : forall es st id s b, stack <> [] -> run stack export init es = Some st -> nth_error (t_streams st) id = Some s ->
  reports_end s = Some b -> (b = true <-> first (ends id) 0 es <> None).
Proof.
  intros es st id s b N H S R. apply inv_run in H. pose proof (is_response _ _ _ (i_streams _ _ H _ _ S)) as Q.
  unfold reports_end in R. destruct (s_response s) as [|open|]; try discriminate. subst open.
  rewrite <- ended_iff. destruct stack as [|l ls] eqn:E; [congruence|].
  assert (V : rev (all (negb (ended es id)) (l :: ls)) <> []).
  { cbn. intros V. apply app_eq_nil in V as [_ V]. discriminate. }
  destruct (rev (all (negb (ended es id)) (l :: ls))) as [|o os] eqn:Z; [congruence|].
  assert (In o (all (negb (ended es id)) (l :: ls))) by (apply in_rev; rewrite Z; now left).
  unfold all in H0. apply in_map_iff in H0 as (? & <- & _). injection R as <-. unfold layer_ended. rewrite negb_involutive. reflexivity.
Qed.
End Run.
