(** Proofs of C112 and C113: what a tap reports, and to whom *)
From Coq Require Import List Arith NArith ZArith Bool Lia ZifyBool ZifyNat ZifyN.
From Verif Require Import Bytes BytesProofs AuthzModel AuthzSpec FilterModel TraceModel MtlsModel MtlsSpec MtlsProofs
  TapModel TapSpec.
Import ListNotations.
Open Scope nat_scope.

Opaque CAPACITY.
Arguments under_limit : simpl never.

Lemma run_snoc : forall t l o, run t (l ++ [o]) = step (run t l) o.
Proof. intros. unfold run. now rewrite fold_left_app. Qed.
Lemma run_app : forall t a b, run t (a ++ b) = run (run t a) b.
Proof. intros. unfold run. now rewrite fold_left_app. Qed.

Lemma set_nth_length : forall {A} n (x : A) l, length (set_nth n x l) = length l.
Proof. intros A n x l. revert n. induction l as [|y l IH]; intros [|n]; cbn; auto. Qed.
Lemma set_nth_same : forall {A} n (x : A) l, n < length l -> nth_error (set_nth n x l) n = Some x.
Proof. intros A n x l. revert n. induction l as [|y l IH]; intros [|n]; cbn; intros H; try lia; auto. apply IH. lia. Qed.
Lemma set_nth_other : forall {A} n m (x : A) l, n <> m -> nth_error (set_nth n x l) m = nth_error l m.
Proof.
  intros A n m x l. revert n m. induction l as [|y l IH]; intros [|n] [|m] H; cbn; try reflexivity; try lia.
  apply IH. lia.
Qed.
Lemma nth_lt : forall {A} (l : list A) n x, nth_error l n = Some x -> n < length l.
Proof. intros A l n x H. apply nth_error_Some. congruence. Qed.

Lemma existsb_set : forall {A} (f : A -> bool) n x l, f x = false -> existsb f (set_nth n x l) = true -> existsb f l = true.
Proof.
  intros A f n x l F. revert n. induction l as [|y l IH]; intros [|n]; cbn; intros H; auto.
  - rewrite F in H. cbn in H. rewrite H. apply orb_true_r.
  - apply orb_true_iff in H. apply orb_true_iff. destruct H as [H|H]; [now left|right]. eapply IH, H.
Qed.

(** All that is reported or about to be *)
Definition said (t : tap) : list event := t_out t ++ t_buffer t.

Lemma about_app : forall id a b, about id (a ++ b) = about id a ++ about id b.
Proof. intros. apply filter_app. Qed.
Lemma about_same : forall id e, event_id e = id -> about id [e] = [e].
Proof. intros id e E. cbn. now rewrite E, Nat.eqb_refl. Qed.
Lemma about_other : forall id e, event_id e <> id -> about id [e] = [].
Proof. intros id e E. cbn. destruct (Nat.eqb_spec (event_id e) id); [contradiction|reflexivity]. Qed.
Lemma about_fresh : forall id l, (forall e, In e l -> event_id e < id) -> about id l = [].
Proof.
  intros id. induction l as [|e l IH]; cbn; intros H; [reflexivity|].
  destruct (Nat.eqb_spec (event_id e) id) as [E|E].
  - specialize (H e (or_introl eq_refl)). lia.
  - apply IH. auto.
Qed.

(** ** Steps *)

Inductive tr (t : tap) (id : nat) : phase -> phase -> list event -> Prop :=
| tr_report v : can_send t = true -> tr t id (Counted v) Waiting [asks (t_extract t) id v]
| tr_lost v : can_send t = false -> tr t id (Counted v) Done []
| tr_respond r : r_ended r = false ->
    tr t id Waiting (InBody (grpc_status (r_headers r))) [response_init (t_extract t) id r]
| tr_respond_end r : r_ended r = true ->
    tr t id Waiting Done [response_init (t_extract t) id r; response_eos (t_extract t) id (grpc_status (r_headers r)) None]
| tr_fail reason : tr t id Waiting Done [response_fail id reason]
| tr_cancel : tr t id Waiting Done []
| tr_eos st trls : tr t id (InBody st) Done [response_eos (t_extract t) id st trls]
| tr_body_fail st reason : tr t id (InBody st) Done [response_fail id reason].

Lemma request_init_asks : forall x id v, request_init x id v = asks x id v.
Proof. intros. unfold request_init, asks, headers_to_pb. destruct x, (v_h2 v); reflexivity. Qed.

(** The request that an operation is about *)
Definition addr (o : op) : option nat :=
  match o with
  | Report i | Respond i _ | Fail i _ | Cancel i | Frame i _ | Drop_body i => Some i
  | _ => None
  end.
Lemma step_cases : forall t o,
  (exists v, o = Request v) \/ o = Poll \/ o = Leave \/ step t o = t \/
  exists id q p es, addr o = Some id /\ nth_error (t_reqs t) id = Some q /\ tr t id q p es /\
    step t o = with_req (fold_left try_send es t) id p.
Proof.
  intros t [v|id|id r|id reason|id|id f|id| |]; eauto; do 3 right; cbn [step];
    destruct (nth_error (t_reqs t) id) as [[v| |st|]|] eqn:E; auto.
  - destruct (can_send t) eqn:C; right; do 4 eexists; (split; [reflexivity|]); (split; [exact E|]); split;
      try (apply tr_report; exact C); try (apply tr_lost; exact C); cbn; rewrite ?request_init_asks; reflexivity.
  - destruct (r_ended r) eqn:R; right; do 4 eexists; (split; [reflexivity|]); (split; [exact E|]); split;
      try (apply tr_respond_end; exact R); try (apply tr_respond; exact R); cbn; try reflexivity.
    unfold try_send. destruct (can_send t); reflexivity.
  - right. do 4 eexists. split; [reflexivity|]. split; [exact E|]. split; [apply tr_fail|reflexivity].
  - right. do 4 eexists. split; [reflexivity|]. split; [exact E|]. split; [apply tr_cancel|reflexivity].
  - destruct f as [[|]|hs| |reason]; auto; right; do 4 eexists; (split; [reflexivity|]); (split; [exact E|]); split.
    + apply tr_eos. + reflexivity. + apply tr_eos. + reflexivity. + apply tr_eos. + reflexivity.
    + apply tr_body_fail. + reflexivity.
  - right. do 4 eexists. split; [reflexivity|]. split; [exact E|]. split; [apply tr_eos|reflexivity].
Qed.

Lemma try_send_frame : forall t e, t_match (try_send t e) = t_match t /\ t_extract (try_send t e) = t_extract t /\
  t_limit (try_send t e) = t_limit t /\ t_count (try_send t e) = t_count t /\ t_held (try_send t e) = t_held t /\
  t_open (try_send t e) = t_open t /\ t_reqs (try_send t e) = t_reqs t /\ t_out (try_send t e) = t_out t /\
  t_ended (try_send t e) = t_ended t.
Proof. intros. unfold try_send. destruct (can_send t); repeat split. Qed.
Lemma sends_frame : forall es t, let t' := fold_left try_send es t in t_match t' = t_match t /\ t_extract t' = t_extract t /\
  t_limit t' = t_limit t /\ t_count t' = t_count t /\ t_held t' = t_held t /\
  t_open t' = t_open t /\ t_reqs t' = t_reqs t /\ t_out t' = t_out t /\ t_ended t' = t_ended t.
Proof.
  induction es as [|e es IH]; intros t; cbn; [repeat split|]. specialize (IH (try_send t e)).
  pose proof (try_send_frame t e) as F. cbn in IH. intuition congruence.
Qed.
Lemma try_send_buffer : forall t e, t_buffer (try_send t e) = t_buffer t \/ t_buffer (try_send t e) = t_buffer t ++ [e].
Proof. intros. unfold try_send. destruct (can_send t); auto. Qed.
Lemma try_send_said : forall t e, said (try_send t e) = said t \/ said (try_send t e) = said t ++ [e].
Proof.
  intros. unfold said. pose proof (try_send_frame t e) as (_ & _ & _ & _ & _ & _ & _ & -> & _).
  destruct (try_send_buffer t e) as [-> | ->]; [now left|right]. apply app_assoc.
Qed.
(** A list of which some elements are left out *)
Inductive part {A} : list A -> list A -> Prop :=
| part_nil : part [] []
| part_take x a b : part a b -> part (x :: a) (x :: b)
| part_skip x a b : part a b -> part a (x :: b).
Lemma part_refl : forall {A} (l : list A), part l l.
Proof. intros A. induction l; constructor; auto. Qed.
Lemma sends_said : forall es t, exists es', part es' es /\ said (fold_left try_send es t) = said t ++ es'.
Proof.
  induction es as [|e es IH]; intros t; cbn; [exists []; split; [constructor|now rewrite app_nil_r]|].
  destruct (IH (try_send t e)) as (es' & P & E). destruct (try_send_said t e) as [S|S]; rewrite S in E.
  - exists es'. split; [now constructor|exact E].
  - exists (e :: es'). split; [now constructor|]. now rewrite E, <- app_assoc.
Qed.
Lemma part_in : forall {A} (a b : list A) x, part a b -> In x a -> In x b.
Proof. induction 1; cbn; intuition. Qed.

Ltac by_in := repeat match goal with H : _ \/ _ |- _ => destruct H | H : False |- _ => destruct H end.
Lemma tr_ids : forall t id q p es e, tr t id q p es -> In e es -> event_id e = id.
Proof.
  intros t id q p es e T I. destruct T; cbn in I; by_in; subst; reflexivity.
Qed.
Lemma about_all : forall id l, (forall e, In e l -> event_id e = id) -> about id l = l.
Proof.
  intros id. induction l as [|e l IH]; cbn; intros H; [reflexivity|].
  rewrite (H e (or_introl eq_refl)), Nat.eqb_refl. f_equal. apply IH. auto.
Qed.
Lemma about_none : forall id id' l, (forall e, In e l -> event_id e = id) -> id <> id' -> about id' l = [].
Proof.
  intros id id'. induction l as [|e l IH]; cbn; intros H N; [reflexivity|].
  rewrite (H e (or_introl eq_refl)). destruct (Nat.eqb_spec id id'); [contradiction|]. apply IH; auto.
Qed.

(** ** The order of events *)

Lemma in_order_nil : in_order [].
Proof. now left. Qed.
Lemma in_order_prefix : forall a b, in_order (a ++ b) -> in_order a.
Proof.
  intros a b [H|(i & r & e & E & Hi & Hr & He)].
  - destruct a; [now left|discriminate].
  - destruct a as [|x a]; [now left|]. injection E as -> E. right.
    destruct Hr as [->|(y & -> & Hy)]; destruct He as [->|(z & -> & Hz)]; cbn in E.
    + destruct a; [|discriminate]. exists i, [], []. auto 6.
    + destruct a as [|w a]; [exists i, [], []; auto 6|]. injection E as -> E. destruct a; [|discriminate].
      exists i, [], [z]. split; [reflexivity|]. split; [exact Hi|]. split; [now left|right; eauto].
    + destruct a as [|w a]; [exists i, [], []; auto 6|]. injection E as -> E. destruct a; [|discriminate].
      exists i, [y], []. split; [reflexivity|]. split; [exact Hi|]. split; [right; eauto|now left].
    + destruct a as [|w a]; [exists i, [], []; auto 6|]. injection E as -> E.
      destruct a as [|w' a].
      * exists i, [y], []. split; [reflexivity|]. split; [exact Hi|]. split; [right; eauto|now left].
      * injection E as -> E. destruct a; [|discriminate].
        exists i, [y], [z]. split; [reflexivity|]. split; [exact Hi|]. split; right; eauto.
Qed.

(** What has been said of a request, by where it is *)
Definition stage (p : phase) (l : list event) : Prop :=
  match p with
  | Counted _ => l = []
  | Waiting => exists i, l = [i] /\ is_init i
  | InBody _ => exists i r, l = i :: r /\ is_init i /\ (r = [] \/ exists x, r = [x] /\ is_response x)
  | Done => in_order l
  end.
Lemma stage_order : forall p l, stage p l -> in_order l.
Proof.
  intros [v| |st|] l; cbn; auto.
  - intros ->. now left.
  - intros (i & -> & H). right. exists i, [], []. auto 6.
  - intros (i & r & -> & H & R). right. exists i, r, []. rewrite app_nil_r. auto 6.
Qed.
Lemma stage_tr : forall t id q p es es' l, tr t id q p es -> part es' es ->
  stage q l -> (forall v, q = Counted v -> es' = es) -> stage p (l ++ es').
Proof.
  intros t id q p es es' l T P S F. destruct T.
  - rewrite (F v eq_refl) in *. cbn in S. subst l. cbn. eexists. split; [reflexivity|]. exact I.
  - rewrite (F v eq_refl) in *. cbn in S. subst l. now left.
  - cbn in S. destruct S as (i & -> & Hi). cbn. exists i, es'. split; [reflexivity|]. split; [exact Hi|].
    inversion P as [|? ? ? P1|? ? ? P1]; subst; inversion P1; subst; [right|now left]. eexists. split; [reflexivity|exact I].
  - cbn in S. destruct S as (i & -> & Hi). cbn. right.
    inversion P as [|? ? ? P1|? ? ? P1]; subst; inversion P1 as [|? ? ? P2|? ? ? P2]; subst; inversion P2; subst.
    + eexists i, [_], [_]. split; [reflexivity|]. split; [exact Hi|]. split; right; eexists; (split; [reflexivity|exact I]).
    + eexists i, [_], []. split; [reflexivity|]. split; [exact Hi|]. split; [right; eexists; (split; [reflexivity|exact I])|now left].
    + eexists i, [], [_]. split; [reflexivity|]. split; [exact Hi|]. split; [now left|right; eexists; (split; [reflexivity|exact I])].
    + exists i, [], []. auto 6.
  - cbn in S. destruct S as (i & -> & Hi). cbn. right.
    inversion P as [|? ? ? P1|? ? ? P1]; subst; inversion P1; subst.
    + eexists i, [], [_]. split; [reflexivity|]. split; [exact Hi|]. split; [now left|right; eexists; (split; [reflexivity|exact I])].
    + exists i, [], []. auto 6.
  - cbn in S. destruct S as (i & -> & Hi). cbn. right. inversion P; subst. exists i, [], []. auto 6.
  - cbn in S. destruct S as (i & r & -> & Hi & Hr). cbn. right. exists i, r, es'. split; [reflexivity|].
    split; [exact Hi|]. split; [exact Hr|].
    inversion P as [|? ? ? P1|? ? ? P1]; subst; inversion P1; subst; [right|now left]. eexists. split; [reflexivity|exact I].
  - cbn in S. destruct S as (i & r & -> & Hi & Hr). cbn. right. exists i, r, es'. split; [reflexivity|].
    split; [exact Hi|]. split; [exact Hr|].
    inversion P as [|? ? ? P1|? ? ? P1]; subst; inversion P1; subst; [right|now left]. eexists. split; [reflexivity|exact I].
Qed.

(** ** The invariant *)
Record inv (m : match_) (x : bool) (limit : nat) (ops : list op) (t : tap) : Prop := {
  i_match : t_match t = m;
  i_extract : t_extract t = x;
  i_limit : t_limit t = limit;
  i_reqs : length (t_reqs t) = min (t_count t) limit;
  i_count : t_count t <= length (selected m ops);
  i_exact : upgrade t = true -> t_count t = length (selected m ops);
  i_counted : forall id v, nth_error (t_reqs t) id = Some (Counted v) -> nth_error (selected m ops) id = Some v;
  i_ids : forall e, In e (said t) -> event_id e < length (t_reqs t);
  i_inits : forall e, In e (said t) -> is_init e ->
    exists v, nth_error (selected m ops) (event_id e) = Some v /\ e = asks x (event_id e) v;
  i_stage : forall id p, nth_error (t_reqs t) id = Some p ->
    if t_open t then stage p (about id (said t)) else in_order (about id (said t));
  i_shown : x = false -> forall e, In e (said t) -> shown e = None;
  i_closed : t_open t = false -> t_buffer t = [] /\ t_held t = false /\ In Leave ops;
  i_ended : t_ended t = true ->
    t_held t = false /\ (forall p, In p (t_reqs t) -> p = Done) /\ t_buffer t = [] /\ length (t_reqs t) = limit;
  i_held : t_held t = false -> t_open t = true -> length (t_reqs t) = limit;
}.

Lemma selected_app : forall m a b, selected m (a ++ b) = selected m a ++ selected m b.
Proof.
  intros m. induction a as [|o a IH]; intros b; cbn; [reflexivity|].
  destruct o; cbn; auto. destruct (matches m v); cbn; now rewrite IH.
Qed.
Lemma selected_none : forall m a o, (forall v, o <> Request v) -> selected m (a ++ [o]) = selected m a.
Proof.
  intros m a o H. rewrite selected_app. destruct o; cbn; try apply app_nil_r. elim (H v eq_refl).
Qed.

Lemma inv_init : forall m x limit, inv m x limit [] (new_tap m x limit).
Proof.
  intros. constructor; cbn; try reflexivity; try easy.
  - intros [|id] p; discriminate.
  - intros [|id] p; discriminate.
Qed.

Lemma tr_shown : forall t id q p es e, tr t id q p es -> t_extract t = false -> In e es -> shown e = None.
Proof.
  intros t id q p es e T X I. destruct T; cbn in I; by_in; subst; cbn; rewrite ?X; reflexivity.
Qed.
Lemma tr_init : forall t id q p es e, tr t id q p es -> In e es -> is_init e ->
  exists v, q = Counted v /\ e = asks (t_extract t) id v.
Proof.
  intros t id q p es e T I H. destruct T; cbn in I; by_in; subst; try (now destruct H).
  eauto.
Qed.
Lemma tr_counted : forall t id q p es, tr t id q p es -> is_counted p = false.
Proof. intros t id q p es T. now destruct T. Qed.
Lemma tr_live : forall t id q p es, tr t id q p es -> q <> Done.
Proof. intros t id q p es T. now destruct T. Qed.
Lemma part_nil_r : forall {A} (l : list A), part l [] -> l = [].
Proof. intros A l P. now inversion P. Qed.
Lemma can_send_first : forall t e, can_send t = true -> said (try_send t e) = said t ++ [e].
Proof. intros t e C. unfold try_send, said. rewrite C. cbn. apply app_assoc. Qed.
Lemma nth_error_snoc_some : forall {A} (l : list A) x n y, nth_error l n = Some y -> nth_error (l ++ [x]) n = Some y.
Proof. intros A l x n y H. rewrite nth_error_app1; [exact H|]. apply nth_error_Some. congruence. Qed.

Lemma inv_tr : forall m x limit ops t o id q p es, inv m x limit ops t -> (forall v, o <> Request v) ->
  nth_error (t_reqs t) id = Some q -> tr t id q p es ->
  inv m x limit (ops ++ [o]) (with_req (fold_left try_send es t) id p).
Proof.
  intros m x limit ops t o id q p es J No E T. pose proof (sends_frame es t) as F. cbn in F.
  destruct F as (F1 & F2 & F3 & F4 & F5 & F6 & F7 & F8 & F9).
  assert (S : exists es', part es' es /\ said (fold_left try_send es t) = said t ++ es' /\ (forall v, q = Counted v -> es' = es)).
  { destruct T as [v C|v C|r R|r R|reason| |st trls|st reason].
    1:{ exists [asks (t_extract t) id v]. split; [apply part_refl|]. split; [cbn; now apply can_send_first|reflexivity]. }
    1:{ exists []. split; [constructor|]. split; [cbn; now rewrite app_nil_r|reflexivity]. }
    all: match goal with |- context [fold_left try_send ?l ?u] => destruct (sends_said l u) as (es' & P & S) end;
      exists es'; (split; [exact P|]); (split; [exact S|]); discriminate. }
  destruct S as (es' & P & S & Fc).
  assert (S' : said (with_req (fold_left try_send es t) id p) = said t ++ es') by (rewrite <- S; reflexivity).
  assert (Ids : forall e, In e es' -> event_id e = id).
  { intros e I. eapply tr_ids; [exact T|]. eapply part_in; [exact P|exact I]. }
  pose proof (nth_lt _ _ _ E) as Lt.
  assert (Sel : selected m (ops ++ [o]) = selected m ops) by (apply selected_none; exact No).
  assert (X : t_extract t = x) by exact (i_extract _ _ _ _ _ J).
  assert (Up : upgrade (with_req (fold_left try_send es t) id p) = true -> upgrade t = true).
  { unfold upgrade. cbn. rewrite F5, F7. rewrite !orb_true_iff. intros [U|U]; [now left|right].
    eapply existsb_set; [|exact U]. eapply tr_counted, T. }
  constructor; rewrite ?S', ?Sel; cbn [with_req t_match t_extract t_limit t_count t_held t_open t_reqs t_buffer t_out t_ended];
    rewrite ?F1, ?F2, ?F3, ?F4, ?F5, ?F6, ?F7, ?F8, ?F9, ?set_nth_length.
  - apply (i_match _ _ _ _ _ J).
  - exact X.
  - apply (i_limit _ _ _ _ _ J).
  - apply (i_reqs _ _ _ _ _ J).
  - apply (i_count _ _ _ _ _ J).
  - intros U. apply (i_exact _ _ _ _ _ J). apply Up. exact U.
  - intros id' v. destruct (Nat.eq_dec id id') as [<-|N].
    + rewrite set_nth_same by exact Lt. intros H. injection H as ->. pose proof (tr_counted _ _ _ _ _ T). discriminate.
    + rewrite set_nth_other by exact N. apply (i_counted _ _ _ _ _ J).
  - intros e I. apply in_app_iff in I. destruct I as [I|I]; [now apply (i_ids _ _ _ _ _ J)|]. now rewrite (Ids e I).
  - intros e I H. apply in_app_iff in I. destruct I as [I|I]; [now apply (i_inits _ _ _ _ _ J)|].
    rewrite (Ids e I). destruct (tr_init t id q p es e T (part_in _ _ _ P I) H) as (v & -> & Ee).
    exists v. split; [apply (i_counted _ _ _ _ _ J), E|congruence].
  - intros id' p' H. rewrite about_app. destruct (Nat.eq_dec id id') as [<-|N].
    + rewrite set_nth_same in H by exact Lt. injection H as <-. rewrite (about_all id es' Ids).
      pose proof (i_stage _ _ _ _ _ J id q E) as St. destruct (t_open t) eqn:O.
      * eapply stage_tr; [exact T|exact P|exact St|exact Fc].
      * assert (es' = []) as ->; [|now rewrite app_nil_r].
        assert (C : forall es1 t1, t_open t1 = false -> said (fold_left try_send es1 t1) = said t1).
        { induction es1 as [|e1 es1 IH]; intros t1 O1; cbn; [reflexivity|].
          assert (try_send t1 e1 = t1) as ->; [unfold try_send, can_send; now rewrite O1|]. now apply IH. }
        rewrite C in S by exact O. rewrite <- (app_nil_r (said t)) in S at 1. now apply app_inv_head in S.
    + rewrite set_nth_other in H by exact N. rewrite (about_none id id' es' Ids N), app_nil_r.
      apply (i_stage _ _ _ _ _ J id' p' H).
  - intros Hx e I. apply in_app_iff in I. destruct I as [I|I]; [now apply (i_shown _ _ _ _ _ J)|].
    eapply tr_shown; [exact T|congruence|]. eapply part_in; [exact P|exact I].
  - intros O. destruct (i_closed _ _ _ _ _ J O) as (B & H & L). split; [|split; [exact H|apply in_app_iff; auto]].
    clear - O B. revert t O B. induction es as [|e es IH]; intros t O B; cbn; [exact B|].
    assert (try_send t e = t) as ->; [unfold try_send, can_send; now rewrite O|]. now apply IH.
  - intros En. destruct (i_ended _ _ _ _ _ J En) as (_ & D & _ & _). elim (tr_live _ _ _ _ _ T).
    apply D. eapply nth_error_In, E.
  - apply (i_held _ _ _ _ _ J).
Qed.

Lemma inv_request : forall m x limit ops t v, inv m x limit ops t ->
  inv m x limit (ops ++ [Request v]) (count_request v t).
Proof.
  intros m x limit ops t v J. unfold count_request. rewrite (i_match _ _ _ _ _ J).
  assert (Sel : selected m (ops ++ [Request v]) = selected m ops ++ (if matches m v then [v] else [])).
  { rewrite selected_app. cbn. destruct (matches m v); reflexivity. }
  destruct (upgrade t) eqn:U; cbn [andb].
  2:{ constructor; rewrite ?Sel; try apply J.
      - rewrite app_length. pose proof (i_count _ _ _ _ _ J). lia.
      - congruence.
      - intros id w H. rewrite nth_error_app1; [exact (i_counted _ _ _ _ _ J id w H)|].
        apply nth_error_Some. rewrite (i_counted _ _ _ _ _ J id w H). discriminate.
      - intros e I H. destruct (i_inits _ _ _ _ _ J e I H) as (w & A & B). exists w. split; [|exact B].
        rewrite nth_error_app1; [exact A|]. apply nth_error_Some. rewrite A. discriminate.
      - intros O. destruct (i_closed _ _ _ _ _ J O) as (B & H & L). repeat split; auto. apply in_app_iff. auto. }
  destruct (matches m v) eqn:M.
  2:{ rewrite app_nil_r in Sel. constructor; rewrite ?Sel; try apply J.
      intros O. destruct (i_closed _ _ _ _ _ J O) as (B & H & L). repeat split; auto. apply in_app_iff. auto. }
  pose proof (i_exact _ _ _ _ _ J U) as Ct. pose proof (i_reqs _ _ _ _ _ J) as Rq. pose proof (i_limit _ _ _ _ _ J) as Lm.
  assert (Ex : forall id w, nth_error (selected m ops) id = Some w -> nth_error (selected m ops ++ [v]) id = Some w)
    by (intros; now apply nth_error_snoc_some).
  assert (Lv : under_limit t = true -> length (t_reqs t) = length (selected m ops)).
  { unfold under_limit. rewrite Lm. intros H. lia. }
  assert (Nth : forall id w, nth_error (if under_limit t then t_reqs t ++ [Counted v] else t_reqs t) id = Some w ->
    nth_error (t_reqs t) id = Some w \/ (under_limit t = true /\ id = length (t_reqs t) /\ w = Counted v)).
  { intros id w. destruct (under_limit t) eqn:UL; [|auto]. intros H. destruct (Nat.lt_ge_cases id (length (t_reqs t))) as [L|L].
    - rewrite nth_error_app1 in H by exact L. auto.
    - rewrite nth_error_app2 in H by exact L. destruct (id - length (t_reqs t)) eqn:D; cbn in H.
      + injection H as <-. right. split; [reflexivity|]. split; [lia|reflexivity].
      + destruct n; discriminate. }
  assert (Len : length (t_reqs t) <= length (if under_limit t then t_reqs t ++ [Counted v] else t_reqs t)).
  { destruct (under_limit t); [rewrite app_length; cbn; lia|lia]. }
  constructor; rewrite ?Sel; cbn [t_match t_extract t_limit t_count t_held t_open t_reqs t_buffer t_out t_ended]; try apply J.
  - reflexivity.
  - unfold under_limit. rewrite Lm. destruct (t_count t <? limit) eqn:UL; rewrite ?app_length; cbn [length]; lia.
  - rewrite app_length. cbn. lia.
  - intros _. rewrite app_length. cbn. lia.
  - intros id w H. destruct (Nth id _ H) as [H'|(UL & -> & Ew)].
    + apply Ex, (i_counted _ _ _ _ _ J), H'.
    + injection Ew as ->. rewrite Lv by exact UL. rewrite nth_error_app2, Nat.sub_diag by lia. reflexivity.
  - intros e I. pose proof (i_ids _ _ _ _ _ J e I). lia.
  - intros e I H. destruct (i_inits _ _ _ _ _ J e I H) as (w & A & B). exists w. split; [now apply Ex|exact B].
  - intros id p H. destruct (Nth id p H) as [H'|(UL & -> & ->)].
    + exact (i_stage _ _ _ _ _ J id p H').
    + change (said _) with (said t). rewrite (about_fresh (length (t_reqs t)) (said t) (i_ids _ _ _ _ _ J)).
      destruct (t_open t); [reflexivity|now left].
  - intros O. destruct (i_closed _ _ _ _ _ J O) as (B & H & L). repeat split; auto. apply in_app_iff. auto.
  - intros En. destruct (i_ended _ _ _ _ _ J En) as (H & D & B & L). exfalso. unfold upgrade in U. rewrite H in U. cbn in U.
    apply existsb_exists in U. destruct U as (p & I & C). rewrite (D p I) in C. discriminate.
  - intros H O. pose proof (i_held _ _ _ _ _ J H O) as L.
    assert (under_limit t = false) as ->; [unfold under_limit; rewrite Lm; lia|exact L].
Qed.

Lemma inv_poll : forall m x limit ops t, inv m x limit ops t -> inv m x limit (ops ++ [Poll]) (poll t).
Proof.
  intros m x limit ops t J. unfold poll.
  assert (Sel : selected m (ops ++ [Poll]) = selected m ops) by (apply selected_none; discriminate).
  destruct (t_open t) eqn:O.
  2:{ constructor; rewrite ?Sel; try apply J.
      intros O'. destruct (i_closed _ _ _ _ _ J O') as (B & H & L). repeat split; auto. apply in_app_iff. auto. }
  pose proof (i_reqs _ _ _ _ _ J) as Rq. pose proof (i_limit _ _ _ _ _ J) as Lm.
  assert (Hl : t_held t && under_limit t = false -> length (t_reqs t) = limit).
  { intros H. apply andb_false_iff in H. destruct H as [H|H].
    - exact (i_held _ _ _ _ _ J H O).
    - unfold under_limit in H. rewrite Lm in H. lia. }
  assert (Up : forall b, t_held t && under_limit t = b -> b || existsb is_counted (t_reqs t) = true -> upgrade t = true).
  { intros b <- H. unfold upgrade. destruct (t_held t); [reflexivity|exact H]. }
  destruct (t_buffer t) as [|e b] eqn:B.
  - assert (Sd : said t = t_out t) by (unfold said; now rewrite B, app_nil_r).
    constructor; unfold said, upgrade; rewrite ?Sel;
      cbn [t_match t_extract t_limit t_count t_held t_open t_reqs t_buffer t_out t_ended]; rewrite ?app_nil_r, <- ?Sd; try apply J.
    + intros U. apply (i_exact _ _ _ _ _ J). eapply Up; [reflexivity|exact U].
    + intros id p H. pose proof (i_stage _ _ _ _ _ J id p H) as St. now rewrite O in St.
    + discriminate.
    + rewrite orb_true_iff, negb_true_iff, orb_false_iff. intros [En|[Hd Lv]].
      * destruct (i_ended _ _ _ _ _ J En) as (H & D & _ & L). rewrite H. auto.
      * split; [exact Hd|]. split; [|split; [reflexivity|now apply Hl]].
        intros p I. destruct p; try reflexivity; exfalso;
          assert (C : existsb is_live (t_reqs t) = true) by (apply existsb_exists; eexists; split; [exact I|reflexivity]); congruence.
    + intros H _. now apply Hl.
  - assert (Sd : said t = (t_out t ++ [e]) ++ b) by (unfold said; rewrite B, <- app_assoc; reflexivity).
    constructor; unfold said, upgrade; rewrite ?Sel;
      cbn [t_match t_extract t_limit t_count t_held t_open t_reqs t_buffer t_out t_ended]; rewrite <- ?Sd; try apply J.
    + intros U. apply (i_exact _ _ _ _ _ J). eapply Up; [reflexivity|exact U].
    + intros id p H. pose proof (i_stage _ _ _ _ _ J id p H) as St. now rewrite O in St.
    + discriminate.
    + intros En. destruct (i_ended _ _ _ _ _ J En) as (_ & _ & C & _). congruence.
    + intros H _. now apply Hl.
Qed.

Lemma inv_leave : forall m x limit ops t, inv m x limit ops t -> inv m x limit (ops ++ [Leave]) (leave t).
Proof.
  intros m x limit ops t J. unfold leave.
  assert (Sel : selected m (ops ++ [Leave]) = selected m ops) by (apply selected_none; discriminate).
  assert (Sb : forall e, In e (t_out t) -> In e (said t)) by (intros e I; apply in_app_iff; auto).
  constructor; unfold said, upgrade; rewrite ?Sel;
    cbn [t_match t_extract t_limit t_count t_held t_open t_reqs t_buffer t_out t_ended]; rewrite ?app_nil_r; try apply J.
  - intros U. apply (i_exact _ _ _ _ _ J). unfold upgrade. cbn in U. rewrite U. apply orb_true_r.
  - intros e I. apply (i_ids _ _ _ _ _ J), Sb, I.
  - intros e I. apply (i_inits _ _ _ _ _ J), Sb, I.
  - intros id p H. pose proof (i_stage _ _ _ _ _ J id p H) as St. unfold said in St. rewrite about_app in St.
    eapply in_order_prefix. destruct (t_open t); [eapply stage_order, St|exact St].
  - intros X e I. apply (i_shown _ _ _ _ _ J X), Sb, I.
  - intros _. repeat split. apply in_app_iff. right. now left.
  - intros En. destruct (i_ended _ _ _ _ _ J En) as (H & D & _ & L). auto.
  - discriminate.
Qed.

Lemma inv_run : forall m x limit ops, inv m x limit ops (run (new_tap m x limit) ops).
Proof.
  intros m x limit. induction ops as [|o ops IH] using rev_ind; [apply inv_init|].
  rewrite run_snoc. destruct (step_cases (run (new_tap m x limit) ops) o) as [(v & ->)|[->|[->|C]]].
  - now apply inv_request.
  - now apply inv_poll.
  - now apply inv_leave.
  - destruct o as [v|id|id r|id reason|id|id f|id| |];
      [now apply inv_request| | | | | | |now apply inv_poll|now apply inv_leave];
      (destruct C as [C|(id' & q & p & es & _ & E & T & C)]; rewrite C;
        [|eapply inv_tr; [exact IH|discriminate|exact E|exact T]]);
      (constructor; rewrite ?selected_none by discriminate; try apply IH);
      intros O'; destruct (i_closed _ _ _ _ _ IH O') as (B & H & L); repeat split; auto; apply in_app_iff; auto.
Qed.

(** ** What follows *)
Section Tap.
Variables (m : match_) (x : bool) (limit : nat).
Notation T := (new_tap m x limit).

Lemma order_ok : forall ops id, in_order (about id (t_out (run T ops))).
Proof using.
  intros ops id. pose proof (inv_run m x limit ops) as J. set (t := run T ops) in *.
  destruct (nth_error (t_reqs t) id) as [p|] eqn:E.
  - pose proof (i_stage _ _ _ _ _ J id p E) as S. apply in_order_prefix with (b := about id (t_buffer t)).
    rewrite <- about_app. destruct (t_open t); [eapply stage_order, S|exact S].
  - apply nth_error_None in E. rewrite about_fresh; [now left|]. intros e I.
    pose proof (i_ids _ _ _ _ _ J e (in_or_app _ _ _ (or_introl I))). lia.
Qed.
Lemma first_ok : forall ops e, In e (t_out (run T ops)) ->
  event_id e < limit /\ (is_init e -> exists v, nth_error (selected m ops) (event_id e) = Some v /\ e = asks x (event_id e) v).
Proof using.
  intros ops e I. pose proof (inv_run m x limit ops) as J. assert (I' := in_or_app _ (t_buffer (run T ops)) _ (or_introl I)).
  split; [|intros H; exact (i_inits _ _ _ _ _ J e I' H)].
  pose proof (i_ids _ _ _ _ _ J e I'). pose proof (i_reqs _ _ _ _ _ J). lia.
Qed.
Lemma shown_ok : x = false -> forall ops e, In e (t_out (run T ops)) -> shown e = None.
Proof using.
  intros X ops e I. apply (i_shown _ _ _ _ _ (inv_run m x limit ops) X). apply in_or_app. now left.
Qed.
Lemma ended_ok : forall ops, t_ended (run T ops) = true ->
  limit <= length (selected m ops) /\ length (t_reqs (run T ops)) = limit /\
  (forall p, In p (t_reqs (run T ops)) -> p = Done) /\ t_buffer (run T ops) = [].
Proof using.
  intros ops E. pose proof (inv_run m x limit ops) as J. destruct (i_ended _ _ _ _ _ J E) as (H & D & B & L).
  pose proof (i_reqs _ _ _ _ _ J). pose proof (i_count _ _ _ _ _ J). repeat split; auto. lia.
Qed.
Lemma ended_step : forall t o, t_ended t = true -> t_held t = false -> (forall p, In p (t_reqs t) -> p = Done) ->
  t_buffer t = [] ->
  t_out (step t o) = t_out t /\ t_ended (step t o) = true /\ t_held (step t o) = false /\
  (forall p, In p (t_reqs (step t o)) -> p = Done) /\ t_buffer (step t o) = [].
Proof using.
  intros t o E H D B. destruct (step_cases t o) as [(v & ->)|[->|[->|C]]].
  - cbn [step]. unfold count_request. assert (upgrade t = false) as ->; [|cbn; auto].
    unfold upgrade. rewrite H. cbn. destruct (existsb is_counted (t_reqs t)) eqn:X; [|reflexivity].
    apply existsb_exists in X. destruct X as (p & I & C). rewrite (D p I) in C. discriminate.
  - cbn [step]. unfold poll. rewrite H, B. cbn [andb]. destruct (t_open t); cbn; rewrite ?E; auto.
  - cbn. auto.
  - destruct C as [->|(id & q & p & es & _ & N & Tr & _)]; [auto|].
    elim (tr_live _ _ _ _ _ Tr). apply D. eapply nth_error_In, N.
Qed.
Lemma ended_stays : forall ops more, t_ended (run T ops) = true ->
  t_out (run T (ops ++ more)) = t_out (run T ops) /\ t_ended (run T (ops ++ more)) = true.
Proof using.
  intros ops more E. pose proof (inv_run m x limit ops) as J. destruct (i_ended _ _ _ _ _ J E) as (H & D & B & _).
  rewrite run_app. clear J. revert E H D B. generalize (run T ops). clear ops. induction more as [|o more IH]; intros t E H D B; [auto|].
  cbn [run fold_left]. change (fold_left step more (step t o)) with (run (step t o) more).
  destruct (ended_step t o E H D B) as (O & E' & H' & D' & B'). destruct (IH _ E' H' D' B') as [A C]. split; [congruence|exact C].
Qed.

Lemma open_run : forall ops, ~ In Leave ops -> t_open (run T ops) = true.
Proof using.
  intros ops N. destruct (t_open (run T ops)) eqn:O; [reflexivity|].
  destruct (i_closed _ _ _ _ _ (inv_run m x limit ops) O) as (_ & _ & L). contradiction.
Qed.
Lemma counts_ok : forall ops, ~ In Leave ops -> length (t_reqs (run T ops)) = min limit (length (selected m ops)).
Proof using.
  intros ops N. pose proof (inv_run m x limit ops) as J. pose proof (open_run ops N) as O.
  pose proof (i_reqs _ _ _ _ _ J) as R. pose proof (i_count _ _ _ _ _ J) as C.
  destruct (t_held (run T ops)) eqn:H.
  - rewrite (i_exact _ _ _ _ _ J) in R; [lia|]. unfold upgrade. now rewrite H.
  - pose proof (i_held _ _ _ _ _ J H O). lia.
Qed.

Lemma polls : forall n t, t_open t = true -> length (t_buffer t) = n -> (forall p, In p (t_reqs t) -> p = Done) ->
  under_limit t = false ->
  t_out (run t (repeat Poll (S n))) = t_out t ++ t_buffer t /\ t_ended (run t (repeat Poll (S n))) = true.
Proof using.
  induction n as [|n IH]; intros t O L D U.
  - destruct (t_buffer t) eqn:B; [|discriminate L]. change (run t (repeat Poll 1)) with (poll t). unfold poll. rewrite O, B, U, andb_false_r.
    assert (existsb is_live (t_reqs t) = false) as ->.
    { destruct (existsb is_live (t_reqs t)) eqn:X; [|reflexivity]. apply existsb_exists in X.
      destruct X as (p & I & C). rewrite (D p I) in C. discriminate. }
    rewrite app_nil_r. cbn. split; [reflexivity|apply orb_true_r].
  - change (repeat Poll (S (S n))) with ([Poll] ++ repeat Poll (S n)). rewrite run_app.
    destruct (t_buffer t) as [|e b] eqn:B; [discriminate L|].
    assert (P : run t [Poll] = Tap (t_match t) (t_extract t) (t_limit t) (t_count t) (t_held t && under_limit t) true (t_reqs t) b
      (t_out t ++ [e]) (t_ended t)) by (cbn; unfold poll; rewrite O, B; reflexivity).
    rewrite P. destruct (IH (Tap (t_match t) (t_extract t) (t_limit t) (t_count t) (t_held t && under_limit t) true (t_reqs t) b
      (t_out t ++ [e]) (t_ended t)) eq_refl) as [A C]; cbn [t_buffer t_reqs]; auto.
    rewrite A, C. cbn [t_out t_buffer]. now rewrite <- app_assoc.
Qed.
Lemma drains_ok : forall ops, ~ In Leave ops -> limit <= length (selected m ops) ->
  (forall p, In p (t_reqs (run T ops)) -> p = Done) ->
  let n := S (length (t_buffer (run T ops))) in
  t_ended (run T (ops ++ repeat Poll n)) = true /\
  t_out (run T (ops ++ repeat Poll n)) = t_out (run T ops) ++ t_buffer (run T ops).
Proof using.
  intros ops N L D n. rewrite run_app. pose proof (inv_run m x limit ops) as J. pose proof (counts_ok ops N) as C.
  destruct (polls (length (t_buffer (run T ops))) (run T ops)) as [A B]; auto using open_run.
  unfold under_limit. rewrite (i_limit _ _ _ _ _ J). pose proof (i_reqs _ _ _ _ _ J). lia.
Qed.

(** ** All events *)
Definition good (t : tap) (d : list op) : Prop :=
  forall p q, d = p ++ q -> t_open (run t p) = true /\ length (t_buffer (run t p)) + 2 <= CAPACITY.
Lemma good_cons : forall t o d, good t (o :: d) ->
  t_open t = true /\ length (t_buffer t) + 2 <= CAPACITY /\ t_open (step t o) = true /\ good (step t o) d.
Proof using.
  intros t o d G. destruct (G [] (o :: d) eq_refl) as [A B]. split; [exact A|]. split; [exact B|].
  split; [exact (proj1 (G [o] d eq_refl))|]. intros p q E. apply (G (o :: p) q). cbn. now rewrite E.
Qed.
Lemma room_sends : forall es t, t_open t = true -> length (t_buffer t) + length es <= CAPACITY ->
  said (fold_left try_send es t) = said t ++ es.
Proof using.
  induction es as [|e es IH]; intros t O L; cbn; [now rewrite app_nil_r|]. cbn in L.
  assert (C : can_send t = true) by (unfold can_send; rewrite O, andb_true_l; apply Nat.ltb_lt; lia).
  rewrite IH.
  - rewrite can_send_first by exact C. now rewrite <- app_assoc.
  - unfold try_send. rewrite C. exact O.
  - unfold try_send. rewrite C. cbn. rewrite app_length. cbn. lia.
Qed.
Lemma tr_length : forall t id q p es, tr t id q p es -> length es <= 2.
Proof using. clear m x limit. intros t id q p es Tr. destruct Tr; cbn; lia. Qed.

Lemma other_step : forall t o id p, nth_error (t_reqs t) id = Some p -> addr o <> Some id -> t_open (step t o) = true ->
  t_open t = true ->
  nth_error (t_reqs (step t o)) id = Some p /\ about id (said (step t o)) = about id (said t).
Proof using.
  intros t o id p E A O' O. destruct (step_cases t o) as [(v & ->)|[->|[->|C]]].
  - cbn [step]. unfold count_request. destruct (upgrade t && matches (t_match t) v); [|auto]. cbn.
    split; [|reflexivity]. destruct (under_limit t); [|exact E]. rewrite nth_error_app1; [exact E|eapply nth_lt, E].
  - cbn [step]. unfold poll. rewrite O. destruct (t_buffer t) eqn:B; cbn; split; auto; f_equal; unfold said; cbn; rewrite B; [reflexivity|].
    now rewrite <- app_assoc.
  - discriminate O'.
  - destruct C as [->|(id' & q & p' & es & Ad & E' & Tr & C)]; [auto|]. rewrite C.
    assert (N : id' <> id) by congruence. pose proof (sends_frame es t) as F. cbn in F. split.
    + cbn. rewrite set_nth_other by exact N. intuition congruence.
    + change (said (with_req (fold_left try_send es t) id' p')) with (said (fold_left try_send es t)).
      destruct (sends_said es t) as (es' & P & S). rewrite S, about_app, (about_none id' id es'); [apply app_nil_r| |exact N].
      intros e I. eapply tr_ids; [exact Tr|]. eapply part_in; [exact P|exact I].
Qed.
Lemma addressed : forall t es id p p', nth_error (t_reqs t) id = Some p -> t_open t = true ->
  length (t_buffer t) + 2 <= CAPACITY -> length es <= 2 -> (forall e, In e es -> event_id e = id) ->
  nth_error (t_reqs (with_req (fold_left try_send es t) id p')) id = Some p' /\
  about id (said (with_req (fold_left try_send es t) id p')) = about id (said t) ++ es.
Proof using.
  intros t es id p p' E O L Le Ids. pose proof (sends_frame es t) as F. cbn in F. split.
  - cbn. rewrite set_nth_same; [reflexivity|]. replace (t_reqs (fold_left try_send es t)) with (t_reqs t) by intuition congruence.
    eapply nth_lt, E.
  - change (said (with_req (fold_left try_send es t) id p')) with (said (fold_left try_send es t)).
    rewrite room_sends by (auto; lia). rewrite about_app. now rewrite (about_all id es Ids).
Qed.

Lemma done_scan : forall d t id, good t d -> nth_error (t_reqs t) id = Some Done ->
  about id (said (run t d)) = about id (said t).
Proof using.
  induction d as [|o d IH]; intros t id G E; [reflexivity|]. change (run t (o :: d)) with (run (step t o) d).
  destruct (good_cons t o d G) as (O & _ & O' & G').
  destruct (addr o) as [i|] eqn:A; [destruct (Nat.eq_dec i id) as [->|N]|].
  - assert (step t o = t) as Es by (destruct o; cbn in A; try discriminate A; injection A as ->; cbn; now rewrite E).
    rewrite Es in *. apply IH; assumption.
  - destruct (other_step t o id Done E) as [E' S]; auto; [congruence|]. rewrite (IH _ _ G' E'). exact S.
  - destruct (other_step t o id Done E) as [E' S]; auto; [congruence|]. rewrite (IH _ _ G' E'). exact S.
Qed.

Ltac other_op IH E G' := 
  match goal with |- about ?id (said (run (step ?t ?o) ?d)) = _ =>
    destruct (other_step t o id _ E) as [E' S]; [cbn; congruence|assumption|assumption|]; rewrite (IH _ _ _ _ G' E'), S; reflexivity end.

Lemma step_extract : forall t o, t_extract (step t o) = t_extract t.
Proof using.
  intros t o. destruct (step_cases t o) as [(v & ->)|[->|[->|C]]].
  - cbn. unfold count_request. destruct (_ && _); reflexivity.
  - cbn. unfold poll. destruct (t_open t); [destruct (t_buffer t)|]; reflexivity.
  - reflexivity.
  - destruct C as [->|(id' & q & p' & es & _ & _ & _ & ->)]; [reflexivity|]. cbn. apply (sends_frame es t).
Qed.

Lemma body_scan : forall d t id st, good t d -> nth_error (t_reqs t) id = Some (InBody st) ->
  about id (said (run t d)) = about id (said t) ++ ends (t_extract t) id st d.
Proof using.
  induction d as [|o d IH]; intros t id st G E; [cbn; now rewrite app_nil_r|].
  change (run t (o :: d)) with (run (step t o) d).
  destruct (good_cons t o d G) as (O & L & O' & G').
  assert (Oth : addr o <> Some id -> about id (said (run (step t o) d)) = about id (said t) ++ ends (t_extract t) id st d).
  { intros A. destruct (other_step t o id _ E A O' O) as [E' S]. rewrite (IH _ _ _ G' E'), S, step_extract. reflexivity. }
  assert (Same : step t o = t -> about id (said (run (step t o) d)) = about id (said t) ++ ends (t_extract t) id st d).
  { intros Es. rewrite Es in *. apply IH; assumption. }
  assert (Fin : forall e, step t o = with_req (fold_left try_send [e] t) id Done -> event_id e = id ->
     about id (said (run (step t o) d)) = about id (said t) ++ [e]).
  { intros e Es Ei. rewrite Es in *. destruct (addressed t [e] id _ Done E O L) as [E' S]; [cbn; lia| |].
    - intros e' [<-|[]]. exact Ei.
    - now rewrite (done_scan d _ id G' E'). }
  destruct o as [v|i|i r|i reason|i|i f|i| |]; cbn [ends].
  - apply Oth. discriminate.
  - destruct (Nat.eq_dec i id) as [->|N]; [apply Same; cbn; now rewrite E|apply Oth; cbn; congruence].
  - destruct (Nat.eq_dec i id) as [->|N]; [apply Same; cbn; now rewrite E|apply Oth; cbn; congruence].
  - destruct (Nat.eq_dec i id) as [->|N]; [apply Same; cbn; now rewrite E|apply Oth; cbn; congruence].
  - destruct (Nat.eq_dec i id) as [->|N]; [apply Same; cbn; now rewrite E|apply Oth; cbn; congruence].
  - destruct (Nat.eqb_spec i id) as [->|N].
    + destruct f as [[|]|hs| |reason].
      * rewrite (Fin (response_eos (t_extract t) id st None)); [|cbn; now rewrite E|reflexivity].
        cbn. destruct (t_extract t); reflexivity.
      * apply Same. cbn. now rewrite E.
      * rewrite (Fin (response_eos (t_extract t) id st (Some hs))); [|cbn; now rewrite E|reflexivity]. reflexivity.
      * rewrite (Fin (response_eos (t_extract t) id st None)); [|cbn; now rewrite E|reflexivity].
        cbn. destruct (t_extract t); reflexivity.
      * rewrite (Fin (response_fail id reason)); [|cbn; now rewrite E|reflexivity]. reflexivity.
    + destruct f as [[|]|hs| |reason]; apply Oth; cbn; congruence.
  - destruct (Nat.eqb_spec i id) as [->|N].
    + rewrite (Fin (response_eos (t_extract t) id st None)); [|cbn; now rewrite E|reflexivity].
      cbn. destruct (t_extract t); reflexivity.
    + apply Oth. cbn. congruence.
  - apply Oth. discriminate.
  - apply Oth. discriminate.
Qed.

Lemma answer_scan : forall d t id, good t d -> nth_error (t_reqs t) id = Some Waiting ->
  about id (said (run t d)) = about id (said t) ++ answers (t_extract t) id d.
Proof using.
  induction d as [|o d IH]; intros t id G E; [cbn; now rewrite app_nil_r|].
  change (run t (o :: d)) with (run (step t o) d).
  destruct (good_cons t o d G) as (O & L & O' & G').
  assert (Oth : addr o <> Some id -> about id (said (run (step t o) d)) = about id (said t) ++ answers (t_extract t) id d).
  { intros A. destruct (other_step t o id _ E A O' O) as [E' S]. rewrite (IH _ _ G' E'), S, step_extract. reflexivity. }
  assert (Same : step t o = t -> about id (said (run (step t o) d)) = about id (said t) ++ answers (t_extract t) id d).
  { intros Es. rewrite Es in *. apply IH; assumption. }
  assert (Fin : forall es, step t o = with_req (fold_left try_send es t) id Done -> length es <= 2 ->
     (forall e, In e es -> event_id e = id) ->
     about id (said (run (step t o) d)) = about id (said t) ++ es).
  { intros es Es Le Ei. rewrite Es in *. destruct (addressed t es id _ Done E O L Le Ei) as [E' S].
    now rewrite (done_scan d _ id G' E'). }
  destruct o as [v|i|i r|i reason|i|i f|i| |]; cbn [answers].
  - apply Oth. discriminate.
  - destruct (Nat.eq_dec i id) as [->|N]; [apply Same; cbn; now rewrite E|apply Oth; cbn; congruence].
  - destruct (Nat.eqb_spec i id) as [->|N]; [|apply Oth; cbn; congruence]. cbn [step] in *. rewrite E in *.
    destruct (r_ended r) eqn:R.
    + assert (R' : t_extract (try_send t (response_init (t_extract t) id r)) = t_extract t) by apply try_send_frame.
      rewrite R' in *.
      rewrite (Fin [response_init (t_extract t) id r; response_eos (t_extract t) id (grpc_status (r_headers r)) None]).
      * unfold response_init, response_eos, headers_to_pb. destruct (t_extract t), (r_h2 r); reflexivity.
      * reflexivity.
      * cbn; lia.
      * intros e [<-|[<-|[]]]; reflexivity.
    + destruct (addressed t [response_init (t_extract t) id r] id _ (InBody (grpc_status (r_headers r))) E O L) as [E' S].
      { cbn; lia. } { intros e [<-|[]]. reflexivity. }
      cbn [fold_left] in E', S. rewrite (body_scan d _ id _ G' E'), S, <- app_assoc. f_equal. cbn [app].
      change (t_extract (with_req (try_send t (response_init (t_extract t) id r)) id (InBody (grpc_status (r_headers r)))))
        with (t_extract (try_send t (response_init (t_extract t) id r))).
      replace (t_extract (try_send t (response_init (t_extract t) id r))) with (t_extract t) by (symmetry; apply try_send_frame).
      f_equal. unfold response_init, headers_to_pb. destruct (t_extract t), (r_h2 r); reflexivity.
  - destruct (Nat.eqb_spec i id) as [->|N]; [|apply Oth; cbn; congruence].
    rewrite (Fin [response_fail id reason]); [reflexivity|cbn; now rewrite E|cbn; lia|]. intros e [<-|[]]. reflexivity.
  - destruct (Nat.eqb_spec i id) as [->|N]; [|apply Oth; cbn; congruence].
    rewrite (Fin []); [reflexivity|cbn; now rewrite E|cbn; lia|]. intros e [].
  - destruct (Nat.eq_dec i id) as [->|N]; [apply Same; cbn; now rewrite E|apply Oth; cbn; congruence].
  - destruct (Nat.eq_dec i id) as [->|N]; [apply Same; cbn; now rewrite E|apply Oth; cbn; congruence].
  - apply Oth. discriminate.
  - apply Oth. discriminate.
Qed.

Lemma report_scan : forall b t id v d, good t (b ++ Report id :: d) -> nth_error (t_reqs t) id = Some (Counted v) ->
  ~ In (Report id) b ->
  about id (said (run t (b ++ Report id :: d))) = about id (said t) ++ asks (t_extract t) id v :: answers (t_extract t) id d.
Proof using.
  induction b as [|o b IH]; intros t id v d G E N.
  - cbn [app] in *. change (run t (Report id :: d)) with (run (step t (Report id)) d).
    destruct (good_cons t _ d G) as (O & L & O' & G').
    assert (C : can_send t = true) by (unfold can_send; rewrite O, andb_true_l; apply Nat.ltb_lt; lia).
    assert (Es : step t (Report id) = with_req (fold_left try_send [asks (t_extract t) id v] t) id Waiting).
    { cbn. rewrite E, C, request_init_asks. reflexivity. }
    destruct (addressed t [asks (t_extract t) id v] id _ Waiting E O L) as [E' S].
    { cbn; lia. } { intros e [<-|[]]. reflexivity. }
    rewrite Es in *. rewrite (answer_scan d _ id G' E'), S, <- app_assoc. cbn [app]. rewrite <- Es, step_extract. reflexivity.
  - cbn [app] in *. change (run t (o :: b ++ Report id :: d)) with (run (step t o) (b ++ Report id :: d)).
    destruct (good_cons t o _ G) as (O & L & O' & G').
    destruct (addr o) as [i|] eqn:A; [destruct (Nat.eq_dec i id) as [->|Ni]|].
    + assert (step t o = t) as Es.
      { destruct o; cbn in A; try discriminate A; injection A as ->; try (cbn; now rewrite E). elim N. now left. }
      rewrite Es in *. apply IH; auto. intros I. apply N. now right.
    + destruct (other_step t o id _ E) as [E' S]; auto; [congruence|]. rewrite (IH _ id v d G' E'), S, step_extract; [reflexivity|].
      intros I. apply N. now right.
    + destruct (other_step t o id _ E) as [E' S]; auto; [congruence|]. rewrite (IH _ id v d G' E'), S, step_extract; [reflexivity|].
      intros I. apply N. now right.
Qed.

Lemma complete_ok : forall a v b d,
  let id := length (selected m a) in let ops := a ++ Request v :: b ++ Report id :: d in
  ~ In Leave ops -> roomy T ops -> matches m v = true -> id < limit -> ~ In (Report id) b ->
  about id (t_out (run T ops) ++ t_buffer (run T ops)) = asks x id v :: answers x id d.
Proof using.
  intros a v b d id ops N R M L Nr. change (t_out (run T ops) ++ t_buffer (run T ops)) with (said (run T ops)).
  assert (E : ops = (a ++ [Request v]) ++ b ++ Report id :: d) by (unfold ops; rewrite <- app_assoc; reflexivity).
  assert (Na : ~ In Leave a) by (intros I; apply N; unfold ops; apply in_app_iff; auto).
  assert (Na' : ~ In Leave (a ++ [Request v])).
  { intros I. apply N. rewrite E. apply in_app_iff. auto. }
  rewrite E, run_app. set (t := run T (a ++ [Request v])).
  pose proof (inv_run m x limit a) as J. pose proof (inv_run m x limit (a ++ [Request v])) as J'. fold t in J'.
  pose proof (counts_ok a Na) as Ca. pose proof (counts_ok (a ++ [Request v]) Na') as Ca'. fold t in Ca'.
  assert (Hc : nth_error (t_reqs t) id = Some (Counted v)).
  { unfold t in *. rewrite run_snoc in *. cbn [step] in *. unfold count_request in *.
    rewrite selected_app in Ca'. cbn in Ca'. rewrite M, app_length in Ca'. cbn in Ca'. fold id in Ca, Ca'.
    rewrite (i_match _ _ _ _ _ J) in *. rewrite M in *.
    destruct (upgrade (run T a)) eqn:U; cbn [andb] in *; [|exfalso; lia]. cbn [t_reqs] in *.
    destruct (under_limit (run T a)) eqn:UL; [|exfalso; lia]. replace id with (length (t_reqs (run T a))) by lia.
    rewrite nth_error_app2, Nat.sub_diag by lia. reflexivity. }
  rewrite (report_scan b t id v d); auto.
  - assert (S : said t = said (run T a)).
    { unfold t. rewrite run_snoc. cbn. unfold count_request. destruct (_ && _); reflexivity. }
    rewrite S, about_fresh; [cbn; now rewrite (i_extract _ _ _ _ _ J')|].
    intros e I. pose proof (i_ids _ _ _ _ _ J e I). fold id in Ca. lia.
  - intros p q Ep. unfold t. rewrite <- run_app. split.
    + apply open_run. intros I. apply N. rewrite E, Ep. rewrite app_assoc. apply in_app_iff. auto.
    + apply (R _ q). rewrite E, Ep. apply app_assoc.
Qed.

(** ** Room *)
Definition left (p : phase) : nat := match p with Counted _ => 3 | Waiting => 2 | InBody _ => 1 | Done => 0 end.
Definition lefts (l : list phase) : nat := list_sum (map left l).
Lemma lefts_set : forall l id q p, nth_error l id = Some q -> lefts (set_nth id p l) + left q = lefts l + left p.
Proof using.
  clear m x limit. unfold lefts. induction l as [|y l IH]; intros [|id] q p E; cbn in *; try discriminate.
  - injection E as ->. lia.
  - specialize (IH id q p E). unfold list_sum in IH. lia.
Qed.
Lemma tr_left : forall t id q p es, tr t id q p es -> length es + left p <= left q.
Proof using. clear m x limit. intros t id q p es Tr. destruct Tr; cbn; lia. Qed.
Lemma budget : forall ops, length (t_buffer (run T ops)) + lefts (t_reqs (run T ops)) <= 3 * length (t_reqs (run T ops)).
Proof using.
  induction ops as [|o ops IH] using rev_ind; [cbn; lia|]. rewrite run_snoc. set (t := run T ops) in *.
  destruct (step_cases t o) as [(v & ->)|[->|[->|C]]].
  - cbn [step]. unfold count_request. destruct (_ && _); [|exact IH]. cbn. destruct (under_limit t); [|exact IH].
    unfold lefts in *. rewrite map_app, list_sum_app, app_length. cbn. lia.
  - cbn [step]. unfold poll. destruct (t_open t); [|exact IH]. destruct (t_buffer t) eqn:B; cbn [length t_buffer t_reqs] in *; lia.
  - cbn [step leave t_buffer t_reqs length]. lia.
  - destruct C as [->|(id & q & p & es & _ & E & Tr & ->)]; [exact IH|].
    pose proof (sends_frame es t) as F. cbn in F. destruct F as (_ & _ & _ & _ & _ & _ & F & _).
    cbn [with_req t_buffer t_reqs]. rewrite F, set_nth_length. pose proof (lefts_set (t_reqs t) id q p E). pose proof (tr_left _ _ _ _ _ Tr).
    assert (length (t_buffer (fold_left try_send es t)) <= length (t_buffer t) + length es); [|lia].
    clearbody t. clear. revert t. induction es as [|e es IH]; intros t; cbn; [lia|]. specialize (IH (try_send t e)).
    destruct (try_send_buffer t e) as [Hb|Hb]; rewrite Hb in IH; rewrite ?app_length in IH; cbn in IH; lia.
Qed.
Lemma roomy_ok : 3 * limit + 2 <= CAPACITY -> forall ops, roomy T ops.
Proof using.
  intros L ops p q E. pose proof (budget p). pose proof (i_reqs _ _ _ _ _ (inv_run m x limit p)). lia.
Qed.
End Tap.

(** ** The registry *)
Lemma upgrade_step : forall t o, upgrade (step t o) = true -> upgrade t = true.
Proof.
  intros t o. destruct (step_cases t o) as [(v & ->)|[->|[->|C]]].
  - cbn [step]. unfold count_request. destruct (upgrade t) eqn:U; [reflexivity|]. cbn [andb]. congruence.
  - cbn [step]. unfold poll, upgrade. destruct (t_open t); [|auto].
    destruct (t_buffer t); cbn [t_held t_reqs]; (destruct (t_held t); [reflexivity|exact (fun H => H)]).
  - cbn. unfold upgrade. cbn. intros ->. apply orb_true_r.
  - destruct C as [->|(id & q & p & es & _ & E & Tr & ->)]; [auto|].
    pose proof (sends_frame es t) as F. cbn in F. destruct F as (_ & _ & _ & _ & Fh & _ & F & _).
    unfold upgrade. cbn. rewrite F, Fh. rewrite !orb_true_iff. intros [U|U]; [now left|right].
    eapply existsb_set; [|exact U]. eapply tr_counted, Tr.
Qed.
Lemma under_step : forall t o, under_limit (step t o) = true -> under_limit t = true.
Proof.
  intros t o. unfold under_limit. destruct (step_cases t o) as [(v & ->)|[->|[->|C]]].
  - cbn [step]. unfold count_request. destruct (_ && _); cbn [t_count t_limit]; lia.
  - cbn [step]. unfold poll. destruct (t_open t); [|auto]. destruct (t_buffer t); auto.
  - auto.
  - destruct C as [->|(id & q & p & es & _ & E & Tr & ->)]; [auto|].
    pose proof (sends_frame es t) as F. cbn in F. destruct F as (_ & _ & Fl & Fc & _). cbn [with_req t_count t_limit]. now rewrite Fl, Fc.
Qed.
Lemma more_step : forall t o, can_tap_more (step t o) = true -> can_tap_more t = true.
Proof.
  intros t o. unfold can_tap_more. rewrite !andb_true_iff. intros [A B]. split; [eapply upgrade_step, A|eapply under_step, B].
Qed.

Lemma on_tap_nth : forall i o l k, nth_error (on_tap i o l) k =
  if i =? k then option_map (fun t => step t o) (nth_error l k) else nth_error l k.
Proof.
  intros i o l k. unfold on_tap. destruct (nth_error l i) as [t|] eqn:E.
  - destruct (Nat.eqb_spec i k) as [<-|N].
    + rewrite E. cbn. apply set_nth_same. eapply nth_lt, E.
    + now apply set_nth_other.
  - destruct (Nat.eqb_spec i k) as [<-|N]; [now rewrite E|reflexivity].
Qed.
Lemma on_tap_length : forall i o l, length (on_tap i o l) = length l.
Proof. intros i o l. unfold on_tap. destruct (nth_error l i); [apply set_nth_length|reflexivity]. Qed.
Lemma on_all : forall o seen l, NoDup seen -> forall k,
  (In k seen -> nth_error (fold_left (fun l i => on_tap i o l) seen l) k = option_map (fun t => step t o) (nth_error l k)) /\
  (~ In k seen -> nth_error (fold_left (fun l i => on_tap i o l) seen l) k = nth_error l k).
Proof.
  intros o. induction seen as [|i seen IH]; intros l Nd k; cbn; [tauto|]. inversion Nd as [|? ? N1 N2]; subst.
  destruct (IH (on_tap i o l) N2 k) as [A B]. rewrite on_tap_nth in A, B. destruct (Nat.eqb_spec i k) as [<-|N]; split.
  - intros _. now apply B.
  - intros C. elim C. now left.
  - intros [C|C]; [contradiction|]. now apply A.
  - intros C. apply B. tauto.
Qed.
Lemma on_all_length : forall o seen l, length (fold_left (fun l i => on_tap i o l) seen l) = length l.
Proof. intros o. induction seen as [|i seen IH]; intros l; cbn; [reflexivity|]. now rewrite IH, on_tap_length. Qed.

Record ginv (g : registry) : Prop := {
  gi_seen : NoDup (g_seen g);
  gi_inner : NoDup (g_inner g);
  gi_in_seen : forall i, In i (g_seen g) -> i < length (g_taps g);
  gi_in_inner : forall i, In i (g_inner g) -> i < length (g_taps g);
  gi_live : forall i t, nth_error (g_taps g) i = Some t -> can_tap_more t = true -> In i (g_seen g) /\ In i (g_inner g);
}.
Lemma NoDup_snoc : forall {A} (l : list A) x, NoDup l -> ~ In x l -> NoDup (l ++ [x]).
Proof.
  intros A l x N I. apply NoDup_rev in N. rewrite <- (rev_involutive (l ++ [x])). apply NoDup_rev. rewrite rev_app_distr. cbn.
  constructor; [|exact N]. now rewrite <- in_rev.
Qed.
Lemma ginv_run : forall l, ginv (grun l).
Proof.
  induction l as [|e l IH] using rev_ind.
  - constructor; cbn; try constructor; try easy. all: now destruct i.
  - unfold grun in *. rewrite fold_left_app. cbn. set (g := fold_left gstep l empty_registry) in *. clearbody g.
    destruct IH as [S N IS IN LV]. destruct e as [t| |v|i o]; cbn.
    + assert (Nn : NoDup (g_inner g ++ [length (g_taps g)])).
      { apply NoDup_snoc; [exact N|]. intros C. apply IN in C. lia. }
      assert (Ni : forall i, In i (g_inner g ++ [length (g_taps g)]) -> i < length (g_taps g ++ [t])).
      { intros i I. rewrite app_length. cbn. apply in_app_iff in I. destruct I as [I|[<-|[]]]; [apply IN in I|]; lia. }
      constructor; cbn; auto. intros i t' E C. destruct (Nat.lt_ge_cases i (length (g_taps g))) as [L|L].
      * rewrite nth_error_app1 in E by exact L. destruct (LV i t' E C) as [_ I]. split; apply in_app_iff; auto.
      * pose proof (nth_lt _ _ _ E) as L'. rewrite app_length in L'. cbn in L'.
        assert (i = length (g_taps g)) by lia. subst i. split; apply in_app_iff; right; now left.
    + constructor; cbn; auto.
      * now apply NoDup_filter.
      * intros i I. apply filter_In in I. apply IN, I.
      * intros i t' E C. destruct (LV i t' E C) as [A B]. split; [exact A|]. apply filter_In. split; [exact B|]. now rewrite E.
    + constructor; cbn; rewrite ?on_all_length; auto. intros i t' E C. destruct (on_all (Request v) (g_seen g) (g_taps g) S i) as [A B].
      destruct (in_dec Nat.eq_dec i (g_seen g)) as [I|I].
      * rewrite (A I) in E. destruct (nth_error (g_taps g) i) as [t|] eqn:E0; [|discriminate E]. injection E as <-.
        apply (LV i t E0). exact (more_step t (Request v) C).
      * rewrite (B I) in E. now apply (LV i t').
    + constructor; cbn; rewrite ?on_tap_length; auto. intros k t' E C. rewrite on_tap_nth in E. destruct (Nat.eqb_spec i k) as [<-|Nk].
      * destruct (nth_error (g_taps g) i) as [t|] eqn:E0; [|discriminate E]. injection E as <-.
        apply (LV i t E0). eapply more_step, C.
      * now apply (LV k t').
Qed.

Lemma offered_ok : forall l v i t, nth_error (g_taps (grun l)) i = Some t ->
  exists t', nth_error (g_taps (grun (l ++ [Serve v]))) i = Some t' /\
    (can_tap_more t = true -> t' = step t (Request v)) /\
    (can_tap_more t = false -> t_reqs t' = t_reqs t /\ t_buffer t' = t_buffer t /\ t_out t' = t_out t).
Proof.
  intros l v i t E. pose proof (ginv_run l) as G. unfold grun in *. rewrite fold_left_app. cbn.
  set (g := fold_left gstep l empty_registry) in *. clearbody g.
  destruct (on_all (Request v) (g_seen g) (g_taps g) (gi_seen g G) i) as [A B].
  destruct (in_dec Nat.eq_dec i (g_seen g)) as [I|I].
  - exists (step t (Request v)). rewrite (A I), E. split; [reflexivity|]. split; [reflexivity|].
    unfold can_tap_more. cbn [step]. unfold count_request. destruct (upgrade t); cbn [andb]; [|auto].
    intros U. rewrite U. destruct (matches (t_match t) v); auto.
  - exists t. rewrite (B I). split; [exact E|]. split; [|auto]. intros C. elim I. apply (gi_live g G i t E C).
Qed.

Lemma observe_ok : forall ok mo limit w x,
  (forall t, observe ok mo limit w x = inl t <->
    limit <> 0 /\ exists m, try_new ok mo w = inl m /\ t = new_tap m (match x with Some (X_http true) => true | _ => false end) limit) /\
  (observe ok mo limit w x = inr No_limit <-> limit = 0).
Proof.
  intros ok mo limit w x. unfold observe.
  assert (X : extract_of x = match x with Some (X_http true) => true | _ => false end) by (destruct x as [[|[|]]|]; reflexivity).
  rewrite X. destruct (Nat.eqb_spec limit 0) as [->|N].
  - split; [|tauto]. intros t. split; [discriminate|]. intros [C _]. contradiction.
  - destruct (try_new ok mo w) as [m|e].
    + split.
      * intros t. split.
        -- intros E. injection E as <-. eauto.
        -- intros (_ & m' & E & ->). now injection E as ->.
      * split; [discriminate|contradiction].
    + split.
      * intros t. split; [discriminate|]. intros (_ & m' & E & _). discriminate.
      * split; [discriminate|contradiction].
Qed.

(** ** Clients *)
Lemma permitted_iff : forall L permitted name cfg sni scheme p now,
  tap_connection L permitted name cfg sni scheme p now = Some Authenticated <->
  sni = Some name /\ cfg <> None /\ scheme = true /\
  exists leaf, proved (x_trusted_client L) p now leaf /\ certifies_first L leaf permitted.
Proof.
  intros L permitted name cfg sni scheme p now. rewrite <- server_iff. unfold tap_connection.
  destruct (server_accept L name cfg sni scheme p now) as [[t|]|].
  - split.
    + intros E. exists (Some t). split; [reflexivity|]. destruct t as [[i|] a|n]; cbn in *; try discriminate E.
      destruct (id_eq permitted i) eqn:Q; [|discriminate E]. apply id_eq_iff in Q. now subst.
    + intros (t' & E & A). injection E as <-. destruct t as [[i|] a|n]; cbn in *; try discriminate A.
      injection A as ->. assert (id_eq permitted permitted = true) as -> by now apply id_eq_iff. reflexivity.
  - split; [discriminate|]. intros (t' & E & A). injection E as <-. discriminate.
  - split; [discriminate|]. intros (t' & E & A). discriminate.
Qed.
Lemma cap : CAPACITY = 400.
Proof. Transparent CAPACITY. vm_compute. reflexivity. Qed.
