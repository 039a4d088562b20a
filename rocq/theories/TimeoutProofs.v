From Coq Require Import List NArith Bool Lia ZifyBool ZifyNat ZifyN.
From Verif Require Import TimeoutModel TimeoutSpec.
Import ListNotations.
Open Scope N_scope.

Lemma clock_app : forall a b, clock (a ++ b) = clock a + clock b.
Proof. intros a b. unfold clock. induction a as [|x a IH]; cbn [app fold_right]; [reflexivity|]. rewrite IH. lia. Qed.
Lemma clock_snoc : forall a x, clock (a ++ [x]) = clock a + ticks x.
Proof. intros. rewrite clock_app. unfold clock at 2. cbn [fold_right]. lia. Qed.

Definition ends (x : entry) : bool := match x with (Poll_request (Body_ready true), Passed) => true | _ => false end.
Lemma ended_cons : forall t x tr, ended t (x :: tr) = if ends x then Some t else ended (t + ticks x) tr.
Proof.
  intros t [e o] tr. cbn [ended]. destruct e as [d|[|[|]]| |r|r]; try reflexivity. destruct o; reflexivity.
Qed.
Lemma ended_snoc : forall tr t x, ended t (tr ++ [x]) =
  match ended t tr with Some u => Some u | None => if ends x then Some (t + clock tr) else None end.
Proof.
  induction tr as [|y tr IH]; intros t x.
  - cbn [app]. rewrite ended_cons. cbn. destruct (ends x); [|reflexivity]. f_equal. lia.
  - cbn [app]. rewrite !ended_cons. destruct (ends y); [reflexivity|]. rewrite IH. unfold clock. cbn [fold_right].
    destruct (ended (t + ticks y) tr); [reflexivity|]. destruct (ends x); [|reflexivity]. f_equal. lia.
Qed.
(** [noticed], from the other end *)
Inductive drop_state := Not_dropped | Dropped | Noticed (t : N).
Definition drop_step (s : drop_state) (t : N) (x : entry) : drop_state :=
  match s with
  | Not_dropped => match fst x with Drop_request => Dropped | _ => s end
  | Dropped => match fst x with Poll_response _ => Noticed t | _ => s end
  | Noticed _ => s
  end.
Fixpoint drop_from (s : drop_state) (t : N) (tr : list entry) : drop_state :=
  match tr with [] => s | x :: tr => drop_from (drop_step s t x) (t + ticks x) tr end.
Lemma drop_from_noticed : forall tr u t, drop_from (Noticed u) t tr = Noticed u.
Proof. induction tr as [|x tr IH]; intros u t; [reflexivity|]. cbn. apply IH. Qed.
Lemma noticed_drop : forall tr t d, noticed d t tr =
  match drop_from (if d then Dropped else Not_dropped) t tr with
  | Not_dropped => None | Dropped => Some (t + clock tr) | Noticed u => Some u end.
Proof.
  induction tr as [|x tr IH]; intros t d.
  - cbn. destruct d; [f_equal; lia|reflexivity].
  - assert (C : clock (x :: tr) = ticks x + clock tr) by reflexivity. rewrite C. destruct x as [e o].
    cbn [drop_from]. destruct e as [n|r| |r|r]; cbn [noticed ticks fst].
    + rewrite IH. destruct d; cbn [drop_step fst]; destruct (drop_from _ _ tr); try reflexivity; f_equal; lia.
    + rewrite IH. destruct d; cbn [drop_step fst]; destruct (drop_from _ _ tr); try reflexivity; f_equal; lia.
    + rewrite IH, N.add_0_r. destruct d; cbn [drop_step fst]; destruct (drop_from _ _ tr); try reflexivity; f_equal; lia.
    + destruct d; cbn [drop_step fst]; [rewrite drop_from_noticed; reflexivity|].
      rewrite IH, N.add_0_r. destruct (drop_from _ _ tr); try reflexivity; f_equal; lia.
    + rewrite IH. destruct d; cbn [drop_step fst]; destruct (drop_from _ _ tr); try reflexivity; f_equal; lia.
Qed.
Lemma drop_snoc : forall tr s t x, drop_from s t (tr ++ [x]) = drop_step (drop_from s t tr) (t + clock tr) x.
Proof.
  induction tr as [|y tr IH]; intros s t x; cbn [app drop_from]; [f_equal; cbn; lia|]. rewrite IH. f_equal. unfold clock. cbn [fold_right]. lia.
Qed.
Definition drops (tr : list entry) : drop_state := drop_from Not_dropped 0 tr.
Lemma drops_snoc : forall tr x, drops (tr ++ [x]) = drop_step (drops tr) (clock tr) x.
Proof. intros. unfold drops. rewrite drop_snoc. f_equal. Qed.
Lemma flushed_drops : forall tr, flushed tr =
  match ended 0 tr with Some t => Some t | None => match drops tr with Not_dropped => None | Dropped => Some (clock tr) | Noticed u => Some u end end.
Proof. intros tr. unfold flushed. rewrite noticed_drop. reflexivity. Qed.

Lemma activity_snoc : forall t tr x, activity_at t (tr ++ [x]) <-> activity_at t tr \/ (active x = true /\ t = clock tr).
Proof.
  intros t tr x. unfold activity_at. split.
  - intros [H|(a & y & b & E & H & ->)]; [auto|]. destruct b as [|z b _] using rev_ind.
    + apply app_inj_tail in E as [-> ->]. auto.
    + replace (a ++ y :: b ++ [z]) with ((a ++ y :: b) ++ [z]) in E by (rewrite <- app_assoc; reflexivity).
      apply app_inj_tail in E as [-> _]. left. right. exists a, y, b. auto.
  - intros [[H|(a & y & b & -> & H & ->)]|[H ->]]; [auto| |].
    + right. exists a, y, (b ++ [x]). rewrite <- app_assoc. auto.
    + right. exists tr, x, []. auto.
Qed.

(** ** Deadlines *)
Lemma limit_earliest : forall t, limit_of t = earliest (request_due t).
Proof. intros t. unfold limit_of, request_due, opt. destruct (limit t) as [[d l]|]; reflexivity. Qed.
Lemma headers_earliest : forall t f,
  earliest (headers_due t f) = match f with None => limit_of t | Some f => set_deadline t (limit_of t) f end.
Proof.
  intros t f. unfold headers_due, limit_of, opt, set_deadline.
  destruct f as [f|], (limit t) as [[d l]|], (response_headers t) as [h|], (response_end t) as [e|]; try reflexivity; cbn [app earliest fst snd];
    repeat match goal with |- context [if ?x then _ else _] => destruct x eqn:? end; try reflexivity; lia.
Qed.
Lemma body_earliest : forall t start, body_deadline t start = earliest (response_due t start).
Proof.
  intros t start. unfold body_deadline, response_due, opt.
  destruct (response_end t) as [e|], (limit t) as [[d l]|]; reflexivity.
Qed.
Lemma earliest_in : forall l x, earliest l = Some x -> In x l.
Proof.
  induction l as [|y l IH]; intros x; [discriminate|]. cbn. destruct (earliest l) as [z|]; [|intros E; injection E as ->; auto].
  destruct (fst z <? fst y); intros E; injection E as ->; auto.
Qed.
Lemma earliest_le : forall l x y, earliest l = Some x -> In y l -> fst x <= fst y.
Proof.
  induction l as [|z l IH]; intros x y; [discriminate|]. cbn [earliest In]. destruct (earliest l) as [w|] eqn:E.
  - specialize (IH w). destruct (fst w <? fst z) eqn:L; intros Q [->|H]; injection Q as <-; try lia; specialize (IH y eq_refl H); lia.
  - intros Q [->|H]; injection Q as <-; [lia|]. destruct l; [destruct H|]. cbn in E. destruct (earliest l) as [u|]; [destruct (_ <? _)|]; discriminate.
Qed.

(** ** The invariant *)
Definition body_ok (t : timeouts) (due : option (N * error)) (fired : Prop) (b : body) (ts : N) : Prop :=
  (b_deadline b = due /\ ~ fired \/ b_deadline b = None /\ fired) /\
  match idle t with Some i => exists sl, b_idle b = Some sl /\ sl <= ts + i | None => b_idle b = None end.
Definition dl_ok (e : deadline) : Prop := forall d x, e = Some (d, x) -> is_deadline x = true.
Definition resolved (x : entry) : bool := match x with (Poll_response _, Passed) | (Poll_response _, Timed_out _) => true | _ => false end.
Definition got (x : entry) : bool := match x with (Poll_response Response_ok, Passed) => true | _ => false end.
Definition ts_ok (t : timeouts) (tr : list entry) (ts : N) : Prop :=
  idle t <> None -> activity_at ts tr /\ forall a, activity_at a tr -> a <= ts.
Definition waiting_ok (t : timeouts) (tr : list entry) (c : channel) (d : deadline) (f : option N) : Prop :=
  (forall x, In x tr -> resolved x = false) /\
  d = match f with None => limit_of t | Some f => set_deadline t (limit_of t) f end /\
  match c with
  | Open => ended 0 tr = None /\ drops tr = Not_dropped /\ f = None
  | Sent u => ended 0 tr = Some u /\ f = None
  | Closed => ended 0 tr = None /\ drops tr = Dropped /\ f = None
  | Received => exists u, f = Some u /\ (ended 0 tr = Some u \/ ended 0 tr = None /\ drops tr = Noticed u)
  end.
Definition streaming_ok (t : timeouts) (tr : list entry) (b : body) (ts : N) : Prop :=
  exists h a, tr = h ++ (Poll_response Response_ok, Passed) :: a /\ (forall x, In x (h ++ a) -> got x = false) /\
    body_ok t (earliest (response_due t (start_of h))) (response_fired a) b ts.
Record inv (t : timeouts) (tr : list entry) (s : state) : Prop := Inv {
  i_now : now s = clock tr;
  i_ts : ts_ok t tr (timestamp s);
  i_request : match request s with
    | Some b => (forall o, ~ In (Drop_request, o) tr) /\ body_ok t (earliest (request_due t)) (request_fired tr) b (timestamp s)
    | None => exists o, In (Drop_request, o) tr /\ (ended 0 tr = None -> drops tr <> Not_dropped) end;
  i_response : match response_of s with
    | Waiting d f => waiting_ok t tr (channel_of s) d f
    | Streaming b => streaming_ok t tr b (timestamp s) /\ exists x, In x tr /\ resolved x = true
    | Finished => (exists x, In x tr /\ resolved x = true) /\ forall x, In x tr -> got x = false end }.

Lemma request_due_ok : forall t, dl_ok (earliest (request_due t)).
Proof. intros t d x. unfold request_due, opt. destruct (limit t) as [[? ?]|]; cbn; intros E; [injection E as _ <-; reflexivity|discriminate]. Qed.
Lemma response_due_ok : forall t st, dl_ok (earliest (response_due t st)).
Proof.
  intros t st d x E. apply earliest_in in E. unfold response_due, opt in E.
  apply in_app_iff in E as [E|E]; [destruct (limit t)|destruct (response_end t)]; try (destruct E; fail); destruct E as [E|[]]; injection E as _ <-; reflexivity.
Qed.
Lemma init_inv : forall t, inv t [] (call t).
Proof.
  intros t. constructor; cbn.
  - reflexivity.
  - intros _. split; [left; reflexivity|]. intros a [->|([|] & x & b & E & _)]; [lia|discriminate..].
  - split; [auto|]. split; [left; split; [apply limit_earliest|intros (e & [] & _)]|]. cbn. destruct (idle t) as [i|]; [|reflexivity]. exists i. split; [reflexivity|lia].
  - split; [intros x []|]. split; [reflexivity|]. auto.
Qed.
(** Polling a pending body *)
Lemma poll_body_ok : forall t due fired b tr ts, dl_ok due -> ts_ok t tr ts -> body_ok t due fired b ts ->
  let (b', o) := poll_body_timeout t b (clock tr) ts in
  body_answer t due fired tr o /\
  body_ok t due (fired \/ exists e, o = Timed_out e /\ is_deadline e = true) b' ts.
Proof.
  intros t due fired b tr ts Hd Hts [Hb Hi]. unfold poll_body_timeout.
  assert (ON : forall ws, (fired \/ forall d e, due = Some (d, e) -> clock tr < d) ->
    (forall w, In w ws -> clock tr < w) -> (forall d e, ~ fired -> due = Some (d, e) -> In d ws) ->
    let (b', o) := match poll_idle t (b_idle b) (clock tr) ts with
    | (i, Some e, _) => (Body (b_deadline b) i, Timed_out e)
    | (i, None, ws') => (Body (b_deadline b) i, Pending (ws ++ ws'))
    end in body_answer t due fired tr o /\ body_ok t due (fired \/ exists e, o = Timed_out e /\ is_deadline e = true) b' ts).
  { intros ws H1 H2 H3. unfold poll_idle. unfold ts_ok in Hts.
    assert (NF : forall o, (forall e, o = Timed_out e -> is_deadline e = false) ->
      (b_deadline b = due /\ ~ fired \/ b_deadline b = None /\ fired) ->
      b_deadline b = due /\ ~ (fired \/ exists e, o = Timed_out e /\ is_deadline e = true) \/
      b_deadline b = None /\ (fired \/ exists e, o = Timed_out e /\ is_deadline e = true)).
    { intros o Ho [[Q1 Q2]|[Q1 Q2]]; [left|right]; split; auto. intros [Q|(e & E & D)]; [auto|]. rewrite (Ho e E) in D. discriminate. }
    destruct (idle t) as [i|] eqn:I.
    - destruct Hi as (sl & -> & Hsl). destruct (Hts ltac:(discriminate)) as [A1 A2].
      destruct (clock tr <? sl) eqn:L1; [|destruct (ts + i <=? clock tr) eqn:L2].
      + split.
        * apply pending; auto.
          -- intros j E. rewrite I in E. injection E as <-. intros Q. specialize (Q ts A1). lia.
          -- intros w Hw. apply in_app_iff in Hw as [Hw|[<-|[]]]; [auto|]. lia.
          -- intros d e N E. apply in_app_iff. left. eauto.
          -- intros j E. rewrite I in E. injection E as <-. exists sl, ts. split; [apply in_app_iff; right; left; reflexivity|]. split; [exact A1|exact Hsl].
        * split; [apply NF; [discriminate|exact Hb]|]. rewrite I. exists sl. auto.
      + split.
        * apply when_idle; auto. intros a Ha. specialize (A2 a Ha). lia.
        * split; [apply NF; [intros e E; injection E as <-; reflexivity|exact Hb]|]. rewrite I. exists sl. auto.
      + split.
        * apply pending; auto.
          -- intros j E. rewrite I in E. injection E as <-. intros Q. specialize (Q ts A1). lia.
          -- intros w Hw. apply in_app_iff in Hw as [Hw|[<-|[]]]; [auto|]. lia.
          -- intros d e N E. apply in_app_iff. left. eauto.
          -- intros j E. rewrite I in E. injection E as <-. exists (ts + i), ts. split; [apply in_app_iff; right; left; reflexivity|]. split; [exact A1|lia].
        * split; [apply NF; [discriminate|exact Hb]|]. rewrite I. exists (ts + i). split; [reflexivity|lia].
    - rewrite Hi. split.
      + apply pending; auto; try (intros j E; congruence).
        * intros w Hw. rewrite app_nil_r in Hw. auto.
        * intros d e N E. rewrite app_nil_r. eauto.
      + split; [apply NF; [discriminate|exact Hb]|]. rewrite I. reflexivity. }
  destruct (b_deadline b) as [[d e]|] eqn:B.
  - destruct Hb as [[<- NF]|[C _]]; [|discriminate]. destruct (d <=? clock tr) eqn:L.
    + split; [apply (at_deadline t _ _ tr d e); auto; lia|]. split; [|exact Hi]. right. split; [reflexivity|]. right. exists e. split; [reflexivity|]. exact (Hd d e eq_refl).
    + apply ON.
      * right. intros d' e' E. injection E as <- <-. lia.
      * intros w [<-|[]]. lia.
      * intros d' e' _ E. injection E as <- _. left. reflexivity.
  - apply ON.
    + destruct Hb as [[<- NF]|[_ F]]; [right; discriminate|left; exact F].
    + intros w [].
    + intros d e NF E. destruct Hb as [[<- _]|[_ F]]; [discriminate|contradiction].
Qed.

Lemma body_ok_mono : forall t due (P Q : Prop) b ts ts', body_ok t due P b ts -> (P <-> Q) -> ts <= ts' -> body_ok t due Q b ts'.
Proof.
  intros t due P Q b ts ts' [[[H1 H2]|[H1 H2]] H] E L; split; [tauto| |tauto|]; destruct (idle t); auto;
  destruct H as (sl & ? & ?); exists sl; split; auto; lia.
Qed.
Lemma activity_le : forall a tr, activity_at a tr -> a <= clock tr.
Proof. intros a tr [->|(u & x & b & -> & _ & ->)]; [lia|]. rewrite clock_app. lia. Qed.
Lemma ts_keep : forall t tr x ts, ts_ok t tr ts -> active x = false -> ts_ok t (tr ++ [x]) ts.
Proof.
  intros t tr x ts H A I. destruct (H I) as [H1 H2]. split; [apply activity_snoc; auto|].
  intros a Ha. apply activity_snoc in Ha as [Ha|[C _]]; [auto|congruence].
Qed.
Lemma ts_new : forall t tr x, active x = true -> ts_ok t (tr ++ [x]) (clock tr).
Proof.
  intros t tr x A I. split; [apply activity_snoc; auto|]. intros a Ha. apply activity_snoc in Ha as [Ha|[_ ->]]; [apply activity_le; exact Ha|lia].
Qed.
Lemma request_fired_snoc : forall tr x, request_fired (tr ++ [x]) <->
  request_fired tr \/ exists e, x = (Poll_request Body_pending, Timed_out e) /\ is_deadline e = true.
Proof.
  intros tr x. unfold request_fired. split.
  - intros (e & H & D). apply in_app_iff in H as [H|[H|[]]]; [left|right]; eauto.
  - intros [(e & H & D)|(e & -> & D)]; exists e; split; auto; apply in_app_iff; [auto|right; left; reflexivity].
Qed.
Lemma response_fired_snoc : forall tr x, response_fired (tr ++ [x]) <->
  response_fired tr \/ exists e, x = (Poll_body Body_pending, Timed_out e) /\ is_deadline e = true.
Proof.
  intros tr x. unfold response_fired. split.
  - intros (e & H & D). apply in_app_iff in H as [H|[H|[]]]; [left|right]; eauto.
  - intros [(e & H & D)|(e & -> & D)]; exists e; split; auto; apply in_app_iff; [auto|right; left; reflexivity].
Qed.
Lemma drops_none : forall tr, (forall o, ~ In (Drop_request, o) tr) -> drops tr = Not_dropped.
Proof.
  induction tr as [|x tr IH] using rev_ind; intros H; [reflexivity|]. rewrite drops_snoc, IH.
  - destruct x as [e o]. destruct e; try reflexivity. destruct (H o). apply in_app_iff. right. left. reflexivity.
  - intros o Q. apply (H o). apply in_app_iff. auto.
Qed.
Lemma got_unique : forall h a h' a', (forall x, In x (h ++ a) -> got x = false) ->
  h ++ (Poll_response Response_ok, Passed) :: a = h' ++ (Poll_response Response_ok, Passed) :: a' -> h = h' /\ a = a'.
Proof.
  induction h as [|y h IH]; intros a [|y' h'] a' G E; cbn [app] in E.
  - injection E as ->. auto.
  - injection E as E1 E2. subst y' a. exfalso. assert (got (Poll_response Response_ok, Passed) = false) by (apply G; apply in_elt). discriminate.
  - injection E as -> E. assert (got (Poll_response Response_ok, Passed) = false) by (apply G; left; reflexivity). discriminate.
  - injection E as <- E. destruct (IH a h' a') as [-> ->]; [intros x Hx; apply G; right; exact Hx|exact E|auto].
Qed.
Definition answer_ok (t : timeouts) (tr : list entry) (x : entry) : Prop :=
  match x with
  | (Poll_request r, o) => (forall o, ~ In (Drop_request, o) tr) ->
      match r with Body_pending => body_answer t (earliest (request_due t)) (request_fired tr) tr o | Body_ready _ => o = Passed end
  | (Poll_response r, o) => awaiting tr ->
      match r with Response_pending => headers_answer (earliest (headers_due t (flushed tr))) tr o | _ => o = Passed end
  | (Poll_body r, o) => forall h a, tr = h ++ (Poll_response Response_ok, Passed) :: a ->
      match r with Body_pending => body_answer t (earliest (response_due t (start_of h))) (response_fired a) tr o | Body_ready _ => o = Passed end
  | (_, o) => o = Nothing
  end.
Lemma waiting_keep : forall t tr c d f x, waiting_ok t tr c d f -> resolved x = false -> ends x = false ->
  (fst x <> Drop_request) -> (forall r, fst x <> Poll_response r) -> waiting_ok t (tr ++ [x]) c d f.
Proof.
  intros t tr c d f x (H1 & H2 & H3) R E D P. split; [|split; [exact H2|]].
  - intros y Hy. apply in_app_iff in Hy as [Hy|[<-|[]]]; auto.
  - assert (S : ended 0 (tr ++ [x]) = ended 0 tr) by (rewrite ended_snoc, E; destruct (ended 0 tr); reflexivity).
    assert (S' : drops (tr ++ [x]) = drops tr).
    { rewrite drops_snoc. unfold drop_step. destruct (drops tr), (fst x) as [| | |r|]; try reflexivity; try congruence; destruct (P r eq_refl). }
    destruct c; rewrite S, ?S'; exact H3.
Qed.
Lemma streaming_keep : forall t tr b ts ts' x, streaming_ok t tr b ts -> ts <= ts' -> got x = false -> (forall e, x <> (Poll_body Body_pending, Timed_out e)) ->
  streaming_ok t (tr ++ [x]) b ts'.
Proof.
  intros t tr b ts ts' x (h & a & -> & G & B) L Gx N. exists h, (a ++ [x]). split; [rewrite <- app_assoc; reflexivity|]. split.
  - intros y Hy. rewrite app_assoc in Hy. apply in_app_iff in Hy as [Hy|[<-|[]]]; auto.
  - eapply body_ok_mono; [exact B| |exact L]. rewrite response_fired_snoc. split; [auto|]. intros [H|(e & E & _)]; [exact H|]. destruct (N e E).
Qed.
Lemma learn_ok : forall t tr c d f, waiting_ok t tr c d f ->
  let '(c', d', f') := learn t c d f (clock tr) in
  f' = flushed tr /\ d' = earliest (headers_due t (flushed tr)) /\
  forall ws r, waiting_ok t (tr ++ [(Poll_response r, Pending ws)]) c' d' f'.
Proof.
  intros t tr c d f (H1 & H2 & H3).
  assert (R : forall ws r x, In x (tr ++ [(Poll_response r, Pending ws)]) -> resolved x = false).
  { intros ws r x Hx. apply in_app_iff in Hx as [Hx|[<-|[]]]; auto. }
  assert (EN : forall ws r, ended 0 (tr ++ [(Poll_response r, Pending ws)]) = ended 0 tr) by (intros; rewrite ended_snoc; cbn; destruct (ended 0 tr); reflexivity).
  rewrite headers_earliest. unfold learn. destruct c as [|u| |].
  - destruct H3 as (E1 & E2 & E3). assert (F : flushed tr = None) by (rewrite flushed_drops, E1, E2; reflexivity). rewrite F. subst f.
    split; [reflexivity|]. split; [exact H2|]. intros ws r. split; [apply R|]. split; [exact H2|]. rewrite EN, drops_snoc, E2. auto.
  - destruct H3 as (E1 & E3). assert (F : flushed tr = Some u) by (rewrite flushed_drops, E1; reflexivity). rewrite F. subst f. rewrite H2.
    split; [reflexivity|]. split; [reflexivity|]. intros ws r. split; [apply R|]. split; [reflexivity|]. exists u. rewrite EN. auto.
  - destruct H3 as (E1 & E2 & E3). assert (F : flushed tr = Some (clock tr)) by (rewrite flushed_drops, E1, E2; reflexivity). rewrite F. subst f. rewrite H2.
    split; [reflexivity|]. split; [reflexivity|]. intros ws r. split; [apply R|]. split; [reflexivity|]. exists (clock tr). rewrite EN, drops_snoc, E2. auto.
  - destruct H3 as (u & -> & E). assert (F : flushed tr = Some u) by (rewrite flushed_drops; destruct E as [->|[-> ->]]; reflexivity). rewrite F.
    split; [reflexivity|]. split; [exact H2|]. intros ws r. split; [apply R|]. split; [exact H2|]. exists u. rewrite EN, drops_snoc.
    split; [reflexivity|]. destruct E as [E|[E1 E2]]; [auto|right; rewrite E2; auto].
Qed.
Lemma in_snoc : forall (x : entry) tr y, In x (tr ++ [y]) <-> In x tr \/ x = y.
Proof. intros. rewrite in_app_iff. cbn. intuition congruence. Qed.
Lemma step_inv : forall t tr s e, inv t tr s -> let (s', o) := step t s e in inv t (tr ++ [(e, o)]) s' /\ answer_ok t tr (e, o).
Proof.
  intros t tr s e [I1 I2 I3 I4]. destruct e as [d|r| |r|r]; cbn [step].
  - (* Tick *)
    split; [|reflexivity]. constructor; cbn [now timestamp channel_of request response_of].
    + rewrite clock_snoc, I1. reflexivity.
    + apply ts_keep; [exact I2|reflexivity].
    + destruct (request s) as [b|].
      * destruct I3 as [J1 J2]. split; [intros o H; apply in_snoc in H as [H|H]; [apply (J1 o H)|discriminate]|].
        eapply body_ok_mono; [exact J2| |lia]. rewrite request_fired_snoc. split; [auto|]. intros [H|(x & H & _)]; [exact H|discriminate].
      * destruct I3 as (o & J1 & J2). exists o. split; [apply in_snoc; auto|]. rewrite ended_snoc, drops_snoc. cbn.
        destruct (ended 0 tr); [discriminate|]. intros _ C. apply (J2 eq_refl). destruct (drops tr); [reflexivity|discriminate..].
    + destruct (response_of s) as [dl f|b|].
      * apply waiting_keep; auto; discriminate.
      * destruct I4 as [J1 (x & Hx & Rx)]. split; [eapply streaming_keep; [exact J1|lia|reflexivity|discriminate]|]. exists x. split; [apply in_snoc; auto|exact Rx].
      * destruct I4 as [(x & Hx & Rx) J2]. split; [exists x; split; [apply in_snoc; auto|exact Rx]|].
        intros y Hy. apply in_snoc in Hy as [Hy| ->]; [auto|reflexivity].
  - (* Poll_request *)
    destruct (request s) as [b|] eqn:RQ.
    2:{ (* dropped *)
      split.
      - destruct I3 as (o & J1 & J2). constructor.
        + rewrite clock_snoc, I1. cbn. lia.
        + apply ts_keep; [exact I2|]. destruct r; reflexivity.
        + rewrite RQ. exists o. split; [apply in_snoc; auto|]. rewrite ended_snoc, drops_snoc.
          destruct (ended 0 tr); [discriminate|]. intros _ C. apply (J2 eq_refl). destruct (drops tr); [reflexivity|discriminate..].
        + destruct (response_of s) as [dl f|b|].
          * apply waiting_keep; auto; try discriminate. destruct r as [|[|]]; reflexivity.
          * destruct I4 as [K1 (x & Hx & Rx)]. split; [eapply streaming_keep; [exact K1|lia|reflexivity|discriminate]|]. exists x. split; [apply in_snoc; auto|exact Rx].
          * destruct I4 as [(x & Hx & Rx) K2]. split; [exists x; split; [apply in_snoc; auto|exact Rx]|].
            intros y Hy. apply in_snoc in Hy as [Hy| ->]; [auto|reflexivity].
      - intros H. destruct I3 as (o & J1 & _). destruct (H o J1). }
    destruct I3 as [J1 J2]. unfold poll_body. destruct r as [|en].
    + rewrite I1. pose proof (poll_body_ok t _ _ b tr (timestamp s) (request_due_ok t) I2 J2) as Q.
      destruct (poll_body_timeout t b (clock tr) (timestamp s)) as [b' o]. destruct Q as [Q1 Q2]. split; [|intros _; exact Q1].
      replace (flush (channel_of s) Body_pending (clock tr)) with (channel_of s) by reflexivity.
      assert (No : o <> Passed) by (intros ->; inversion Q1).
      constructor; cbn [now timestamp channel_of request response_of].
      * rewrite clock_snoc. cbn. lia.
      * apply ts_keep; [exact I2|]. reflexivity.
      * split; [intros o' H; apply in_snoc in H as [H|H]; [apply (J1 o' H)|discriminate]|].
        eapply body_ok_mono; [exact Q2| |lia]. rewrite request_fired_snoc. split; (intros [H|(x & H & D)]; [left; exact H|right; exists x; split; [congruence|exact D]]).
      * destruct (response_of s) as [dl f|b2|].
        -- apply waiting_keep; auto; discriminate.
        -- destruct I4 as [K1 (x & Hx & Rx)]. split; [eapply streaming_keep; [exact K1|lia|reflexivity|discriminate]|]. exists x. split; [apply in_snoc; auto|exact Rx].
        -- destruct I4 as [(x & Hx & Rx) K2]. split; [exists x; split; [apply in_snoc; auto|exact Rx]|].
           intros y Hy. apply in_snoc in Hy as [Hy| ->]; [auto|reflexivity].
    + split; [|intros _; reflexivity]. set (ts' := match b_idle b with Some _ => now s | None => timestamp s end).
      assert (TS : idle t = None \/ ts' = clock tr).
      { destruct J2 as [_ J2]. destruct (idle t) as [i|]; [|auto]. destruct J2 as (sl & E & _). right. unfold ts'. rewrite E. exact I1. }
      assert (LE : idle t <> None -> timestamp s <= ts').
      { intros N. destruct TS as [C| ->]; [contradiction|]. destruct (I2 N) as [A _]. apply activity_le. exact A. }
      assert (BM : forall due P Q b', body_ok t due P b' (timestamp s) -> (P <-> Q) -> body_ok t due Q b' ts').
      { intros due P Q b' H HPQ. destruct (idle t) as [i|] eqn:Ei.
        - eapply body_ok_mono; [exact H|exact HPQ|]. apply LE. congruence.
        - destruct H as [H H']. split; [tauto|]. rewrite Ei in *. exact H'. }
      constructor; cbn [now timestamp channel_of request response_of].
      * rewrite clock_snoc, I1. cbn. lia.
      * destruct TS as [C| ->]; [intros N; congruence|]. apply ts_new. reflexivity.
      * split; [intros o' H; apply in_snoc in H as [H|H]; [apply (J1 o' H)|discriminate]|].
        destruct J2 as [J2 J3]. split.
        -- cbn [b_deadline]. rewrite request_fired_snoc. destruct J2 as [[Q1 Q2]|[Q1 Q2]]; [left; split; [exact Q1|]|right; split; [exact Q1|auto]].
           intros [H|(x & H & _)]; [auto|discriminate].
        -- cbn [b_idle]. unfold reset_idle. destruct (idle t) as [i|] eqn:Ei; [|rewrite J3; reflexivity].
           destruct J3 as (sl & E & _). rewrite E. exists (now s + i). split; [reflexivity|]. destruct TS as [C| ->]; [discriminate|]. lia.
      * destruct (response_of s) as [dl f|b2|].
        -- destruct en; [|apply waiting_keep; auto; try discriminate; destruct (channel_of s); exact I4].
           destruct I4 as (W1 & W2 & W3). split; [intros y Hy; apply in_snoc in Hy as [Hy| ->]; [auto|reflexivity]|]. split; [exact W2|].
           assert (ND : drops tr = Not_dropped) by (apply drops_none; exact J1).
           assert (EN : ended 0 (tr ++ [(Poll_request (Body_ready true), Passed)]) = match ended 0 tr with Some u => Some u | None => Some (clock tr) end).
           { rewrite ended_snoc. cbn [ends]. destruct (ended 0 tr); reflexivity. }
           unfold flush. destruct (channel_of s) as [|u| |]; rewrite EN.
           ++ destruct W3 as (E1 & _ & E3). rewrite E1, I1. auto.
           ++ destruct W3 as (E1 & E3). rewrite E1. auto.
           ++ destruct W3 as (_ & E2 & _). congruence.
           ++ destruct W3 as (u & E1 & [E2|[_ E2]]); [|congruence]. exists u. rewrite E2. auto.
        -- destruct I4 as [(h & a & -> & G & B) (x & Hx & Rx)]. split; [|exists x; split; [apply in_snoc; auto|exact Rx]].
           exists h, (a ++ [(Poll_request (Body_ready en), Passed)]). split; [rewrite <- app_assoc; reflexivity|]. split.
           ++ intros y Hy. rewrite app_assoc in Hy. apply in_snoc in Hy as [Hy| ->]; auto.
           ++ apply (BM _ _ _ _ B). rewrite response_fired_snoc. split; [auto|]. intros [H|(x' & H & _)]; [exact H|discriminate].
        -- destruct I4 as [(x & Hx & Rx) K2]. split; [exists x; split; [apply in_snoc; auto|exact Rx]|].
           intros y Hy. apply in_snoc in Hy as [Hy| ->]; [auto|reflexivity].
  - (* Drop_request *)
    split; [|reflexivity]. constructor; cbn [now timestamp channel_of request response_of].
    + rewrite clock_snoc, I1. cbn. lia.
    + apply ts_keep; [exact I2|reflexivity].
    + exists Nothing. split; [apply in_snoc; auto|]. intros _. rewrite drops_snoc. cbn. destruct (drops tr); discriminate.
    + destruct (response_of s) as [dl f|b|].
      * destruct I4 as (W1 & W2 & W3). split; [intros y Hy; apply in_snoc in Hy as [Hy| ->]; [auto|reflexivity]|]. split; [exact W2|].
        assert (EN : ended 0 (tr ++ [(Drop_request, Nothing)]) = ended 0 tr) by (rewrite ended_snoc; cbn; destruct (ended 0 tr); reflexivity).
        destruct (channel_of s) as [|u| |]; [destruct (request s) as [b|]|..]; rewrite ?EN, ?drops_snoc.
        -- destruct W3 as (E1 & E2 & E3). rewrite E2. auto.
        -- destruct W3 as (E1 & E2 & E3).
           exfalso. destruct I3 as (o & _ & J). exact (J E1 E2).
        -- exact W3.
        -- destruct W3 as (E1 & E2 & E3). rewrite E2. auto.
        -- destruct W3 as (u & E1 & [E2|[E2 E3]]); exists u; [auto|]. rewrite E3. auto.
      * destruct I4 as [J1 (x & Hx & Rx)]. split; [eapply streaming_keep; [exact J1|lia|reflexivity|discriminate]|]. exists x. split; [apply in_snoc; auto|exact Rx].
      * destruct I4 as [(x & Hx & Rx) J2]. split; [exists x; split; [apply in_snoc; auto|exact Rx]|].
        intros y Hy. apply in_snoc in Hy as [Hy| ->]; [auto|reflexivity].
  - (* Poll_response *)
    assert (RQ : forall o, match request s with
      | Some b => (forall o', ~ In (Drop_request, o') (tr ++ [(Poll_response r, o)])) /\ body_ok t (earliest (request_due t)) (request_fired (tr ++ [(Poll_response r, o)])) b (timestamp s)
      | None => exists o', In (Drop_request, o') (tr ++ [(Poll_response r, o)]) /\ (ended 0 (tr ++ [(Poll_response r, o)]) = None -> drops (tr ++ [(Poll_response r, o)]) <> Not_dropped) end).
    { intros o. destruct (request s) as [b|].
      - destruct I3 as [J1 J2]. split; [intros o' H; apply in_snoc in H as [H|H]; [apply (J1 o' H)|discriminate]|].
        eapply body_ok_mono; [exact J2| |lia]. rewrite request_fired_snoc. split; [auto|]. intros [H|(x & H & _)]; [exact H|discriminate].
      - destruct I3 as (o' & J1 & J2). exists o'. split; [apply in_snoc; auto|]. rewrite ended_snoc, drops_snoc. cbn [ends].
        destruct (ended 0 tr); [discriminate|]. intros _ C. apply (J2 eq_refl). unfold drop_step in C. cbn [fst] in C. destruct (drops tr); [reflexivity|discriminate..]. }
    assert (NOT : (forall d f, response_of s <> Waiting d f) -> inv t (tr ++ [(Poll_response r, Nothing)]) s /\ answer_ok t tr (Poll_response r, Nothing)).
    { intros NW. split.
      - constructor; [rewrite clock_snoc, I1; cbn; lia|apply ts_keep; [exact I2|destruct r; reflexivity]|apply RQ|].
        destruct (response_of s) as [dl f|b|]; [destruct (NW dl f eq_refl)| |].
        + destruct I4 as [K1 (x & Hx & Rx)]. split; [eapply streaming_keep; [exact K1|lia|destruct r; reflexivity|discriminate]|]. exists x. split; [apply in_snoc; auto|exact Rx].
        + destruct I4 as [(x & Hx & Rx) K2]. split; [exists x; split; [apply in_snoc; auto|exact Rx]|].
          intros y Hy. apply in_snoc in Hy as [Hy| ->]; [auto|destruct r; reflexivity].
      - assert (RS : exists x, In x tr /\ resolved x = true).
        { destruct (response_of s) as [dl f|b|]; [destruct (NW dl f eq_refl)|apply I4|apply I4]. }
        intros AW. destruct RS as ([e o] & Hx & Rx). destruct e; try discriminate. destruct (AW _ _ Hx) as (ws & ->). discriminate. }
    destruct (response_of s) as [d f|b|] eqn:RS; [|apply NOT; congruence..]. clear NOT.
    unfold poll_response. rewrite I1. pose proof (learn_ok t tr (channel_of s) d f I4) as L.
    destruct (learn t (channel_of s) d f (clock tr)) as [[c' d'] f']. destruct L as (L1 & L2 & L3).
    destruct I4 as (W1 & _).
    assert (G : forall x, In x tr -> got x = false).
    { intros [e o] Hx. specialize (W1 _ Hx). destruct e as [| | |[]|]; try reflexivity; destruct o; try reflexivity; discriminate. }
    assert (FIN : forall o, active (Poll_response r, o) = false -> got (Poll_response r, o) = false -> resolved (Poll_response r, o) = true ->
      inv t (tr ++ [(Poll_response r, o)]) (State (clock tr) (timestamp s) c' (request s) Finished)).
    { intros o A1 A2 A3. constructor; cbn [now timestamp channel_of request response_of]; [rewrite clock_snoc; cbn; lia|apply ts_keep; auto|apply RQ|].
      split; [exists (Poll_response r, o); split; [apply in_snoc; auto|exact A3]|]. intros y Hy. apply in_snoc in Hy as [Hy| ->]; auto. }
    assert (WAIT : forall ws, inv t (tr ++ [(Poll_response r, Pending ws)]) (State (clock tr) (timestamp s) c' (request s) (Waiting d' f'))).
    { intros ws. constructor; cbn [now timestamp channel_of request response_of]; [rewrite clock_snoc; cbn; lia|apply ts_keep; [exact I2|destruct r; reflexivity]|apply RQ|apply L3]. }
    destruct r.
    + destruct d' as [[dl e]|].
      * destruct (dl <=? clock tr) eqn:LE.
        -- split; [apply FIN; reflexivity|]. intros _. rewrite <- L2. eapply headers_late; [reflexivity|lia].
        -- split; [apply WAIT|]. intros _. rewrite <- L2. eapply headers_wait; [reflexivity|lia].
      * split; [apply WAIT|]. intros _. rewrite <- L2. apply headers_free. reflexivity.
    + split; [|intros _; reflexivity]. set (ts' := match idle t with Some _ => clock tr | None => timestamp s end).
      assert (LE : idle t <> None -> timestamp s <= ts').
      { intros N. destruct (I2 N) as [A _]. unfold ts'. destruct (idle t); [|congruence]. apply activity_le. exact A. }
      constructor; cbn [now timestamp channel_of request response_of].
      * rewrite clock_snoc. cbn. lia.
      * unfold ts'. destruct (idle t) eqn:Ei; [apply ts_new; reflexivity|intros N; congruence].
      * specialize (RQ Passed). destruct (request s) as [b|]; [|exact RQ]. destruct RQ as [Q1 Q2]. split; [exact Q1|].
        destruct (idle t) as [i|] eqn:Ei; [eapply body_ok_mono; [exact Q2|reflexivity|apply LE; congruence]|].
        destruct Q2 as [Q2 Q3]. split; [exact Q2|]. rewrite Ei in *. exact Q3.
      * split; [|exists (Poll_response Response_ok, Passed); split; [apply in_snoc; auto|reflexivity]].
        exists tr, []. split; [reflexivity|]. split; [rewrite app_nil_r; exact G|]. split.
        -- left. cbn [b_deadline]. split; [|intros (e & [] & _)]. rewrite body_earliest. unfold start_of. rewrite L1. reflexivity.
        -- cbn [b_idle]. unfold ts'. destruct (idle t) as [i|]; [|reflexivity]. exists (clock tr + i). split; [reflexivity|lia].
    + split; [apply FIN; reflexivity|]. intros _. reflexivity.
  - (* Poll_body *)
    assert (RQ : forall ts' o, (idle t <> None -> timestamp s <= ts') -> match request s with
      | Some b => (forall o', ~ In (Drop_request, o') (tr ++ [(Poll_body r, o)])) /\ body_ok t (earliest (request_due t)) (request_fired (tr ++ [(Poll_body r, o)])) b ts'
      | None => exists o', In (Drop_request, o') (tr ++ [(Poll_body r, o)]) /\ (ended 0 (tr ++ [(Poll_body r, o)]) = None -> drops (tr ++ [(Poll_body r, o)]) <> Not_dropped) end).
    { intros ts' o LE. destruct (request s) as [b|].
      - destruct I3 as [J1 J2]. split; [intros o' H; apply in_snoc in H as [H|H]; [apply (J1 o' H)|discriminate]|].
        assert (E : request_fired tr <-> request_fired (tr ++ [(Poll_body r, o)])).
        { rewrite request_fired_snoc. split; [auto|]. intros [H|(x & H & _)]; [exact H|discriminate]. }
        destruct (idle t) as [i|] eqn:Ei; [eapply body_ok_mono; [exact J2|exact E|apply LE; congruence]|].
        destruct J2 as [J2 J3]. split; [tauto|]. rewrite Ei in *. exact J3.
      - destruct I3 as (o' & J1 & J2). exists o'. split; [apply in_snoc; auto|]. rewrite ended_snoc, drops_snoc. cbn [ends].
        destruct (ended 0 tr); [discriminate|]. intros _ C. apply (J2 eq_refl). unfold drop_step in C. cbn [fst] in C. destruct (drops tr); [reflexivity|discriminate..]. }
    destruct (response_of s) as [d f|b|] eqn:RS.
    + split.
      * constructor; [rewrite clock_snoc, I1; cbn; lia|apply ts_keep; [exact I2|destruct r; reflexivity]|apply RQ; lia|].
        rewrite RS. apply waiting_keep; auto; discriminate.
      * intros h a ->. exfalso. destruct I4 as (W1 & _). specialize (W1 (Poll_response Response_ok, Passed)).
        assert (C : resolved (Poll_response Response_ok, Passed) = false) by (apply W1; apply in_app_iff; right; left; reflexivity). discriminate.
    + destruct I4 as [(h & a & E & G & B) (x & Hx & Rx)]. unfold poll_body. destruct r as [|en].
      * rewrite I1. pose proof (poll_body_ok t _ _ b tr (timestamp s) (response_due_ok t (start_of h)) I2 B) as Q.
        destruct (poll_body_timeout t b (clock tr) (timestamp s)) as [b' o]. destruct Q as [Q1 Q2]. split.
        -- constructor; cbn [now timestamp channel_of request response_of].
           ++ rewrite clock_snoc. cbn. lia.
           ++ apply ts_keep; [exact I2|]. reflexivity.
           ++ apply RQ. lia.
           ++ split; [|exists x; split; [apply in_snoc; auto|exact Rx]].
              exists h, (a ++ [(Poll_body Body_pending, o)]). split; [rewrite E, <- app_assoc; reflexivity|]. split.
              ** intros y Hy. rewrite app_assoc in Hy. apply in_snoc in Hy as [Hy| ->]; auto.
              ** eapply body_ok_mono; [exact Q2| |lia]. rewrite response_fired_snoc. split; (intros [H|(y & H & D)]; [left; exact H|right; exists y; split; [congruence|exact D]]).
        -- intros h' a' E'. rewrite E in E'. destruct (got_unique _ _ _ _ G E') as [<- <-]. exact Q1.
      * split; [|intros h' a' E'; reflexivity]. set (ts' := match b_idle b with Some _ => now s | None => timestamp s end).
        destruct B as [B1 B2].
        assert (TS : idle t = None \/ ts' = clock tr).
        { destruct (idle t) as [i|]; [|auto]. destruct B2 as (sl & E' & _). right. unfold ts'. rewrite E'. exact I1. }
        assert (LE : idle t <> None -> timestamp s <= ts').
        { intros N. destruct TS as [C| ->]; [contradiction|]. destruct (I2 N) as [A _]. apply activity_le. exact A. }
        constructor; cbn [now timestamp channel_of request response_of].
        -- rewrite clock_snoc, I1. cbn. lia.
        -- destruct TS as [C| ->]; [intros N; congruence|]. apply ts_new. reflexivity.
        -- apply RQ. exact LE.
        -- split; [|exists x; split; [apply in_snoc; auto|exact Rx]].
           exists h, (a ++ [(Poll_body (Body_ready en), Passed)]). split; [rewrite E, <- app_assoc; reflexivity|]. split.
           ++ intros y Hy. rewrite app_assoc in Hy. apply in_snoc in Hy as [Hy| ->]; auto.
           ++ split.
              ** cbn [b_deadline]. rewrite response_fired_snoc. destruct B1 as [[Q1 Q2]|[Q1 Q2]]; [left; split; [exact Q1|]|right; split; [exact Q1|auto]].
                 intros [H|(y & H & _)]; [auto|discriminate].
              ** cbn [b_idle]. unfold reset_idle. destruct (idle t) as [i|] eqn:Ei; [|rewrite B2; reflexivity].
                 destruct B2 as (sl & E' & _). rewrite E'. exists (now s + i). split; [reflexivity|]. destruct TS as [C| ->]; [discriminate|]. lia.
    + destruct I4 as [(x & Hx & Rx) K2]. split.
      * constructor; [rewrite clock_snoc, I1; cbn; lia|apply ts_keep; [exact I2|destruct r; reflexivity]|apply RQ; lia|].
        rewrite RS. split; [exists x; split; [apply in_snoc; auto|exact Rx]|]. intros y Hy. apply in_snoc in Hy as [Hy| ->]; [auto|reflexivity].
      * intros h a ->. exfalso. specialize (K2 (Poll_response Response_ok, Passed)).
        assert (C : got (Poll_response Response_ok, Passed) = false) by (apply K2; apply in_app_iff; right; left; reflexivity). discriminate.
Qed.
Theorem answers : forall t es a x b, trace t es = a ++ x :: b -> answer_ok t a x.
Proof.
  intros t es a x b. unfold trace. enough (G : forall es s tr a, inv t tr s -> run t s es = a ++ x :: b -> answer_ok t (tr ++ a) x).
  { intros H. apply (G es (call t) [] a); [apply init_inv|exact H]. }
  clear. induction es as [|e es IH]; intros s tr a I H; [destruct a; discriminate|]. cbn [run] in H.
  pose proof (step_inv t tr s e I) as Q. destruct (step t s e) as [s' o]. destruct Q as [Q1 Q2]. destruct a as [|y a].
  - injection H as <- _. rewrite app_nil_r. exact Q2.
  - injection H as <- H. specialize (IH s' _ a Q1 H). rewrite <- app_assoc in IH. exact IH.
Qed.
Theorem headers_answered : forall t es a o b, trace t es = a ++ (Poll_response Response_pending, o) :: b -> awaiting a ->
  headers_answer (earliest (headers_due t (flushed a))) a o.
Proof. intros t es a o b H. apply (answers _ _ _ _ _ H). Qed.
Theorem request_answered : forall t es a o b, trace t es = a ++ (Poll_request Body_pending, o) :: b ->
  (forall o', ~ In (Drop_request, o') a) ->
  body_answer t (earliest (request_due t)) (request_fired a) a o.
Proof. intros t es a o b H. apply (answers _ _ _ _ _ H). Qed.
Theorem body_answered : forall t es h a o b, trace t es = (h ++ (Poll_response Response_ok, Passed) :: a) ++ (Poll_body Body_pending, o) :: b ->
  body_answer t (earliest (response_due t (start_of h))) (response_fired a) (h ++ (Poll_response Response_ok, Passed) :: a) o.
Proof. intros t es h a o b H. apply (answers _ _ _ _ _ H). reflexivity. Qed.
Theorem request_passed : forall t es a n o b, trace t es = a ++ (Poll_request (Body_ready n), o) :: b -> (forall o', ~ In (Drop_request, o') a) -> o = Passed.
Proof. intros t es a n o b H. apply (answers _ _ _ _ _ H). Qed.
Theorem response_passed : forall t es a r o b, trace t es = a ++ (Poll_response r, o) :: b -> awaiting a -> r <> Response_pending -> o = Passed.
Proof. intros t es a r o b H A N. pose proof (answers _ _ _ _ _ H A) as Q. destruct r; [congruence|exact Q..]. Qed.
Theorem body_passed : forall t es a n o b, trace t es = a ++ (Poll_body (Body_ready n), o) :: b -> In (Poll_response Response_ok, Passed) a -> o = Passed.
Proof. intros t es a n o b H I. apply in_split in I as (h & a' & E). apply (answers _ _ _ _ _ H h a' E). Qed.

(** A timeout comes from polling something that is pending. *)
Lemma step_error : forall t s e s' o err, step t s e = (s', Timed_out err) -> o = Timed_out err ->
  e = Poll_request Body_pending /\ request s <> None \/ e = Poll_response Response_pending \/ e = Poll_body Body_pending.
Proof.
  intros t s e s' o err H ->. destruct e as [d|r| |r|r]; cbn [step] in H; try discriminate.
  - destruct (request s) as [b|]; [|discriminate]. destruct r; [left; split; [reflexivity|discriminate]|discriminate].
  - destruct (response_of s); try discriminate. unfold poll_response in H. destruct (learn _ _ _ _ _) as [[c d'] f']. destruct r; [auto|discriminate..].
  - destruct (response_of s); try discriminate. destruct r; [auto|discriminate].
Qed.
Lemma body_idle : forall t due fired tr i, dl_ok due -> body_answer t due fired tr (Timed_out (Idle i)) -> idle t = Some i /\ idle_for i tr.
Proof.
  intros t due fired tr i D H. inversion H as [d e F E L Q|j F E L Q|]; [specialize (D _ _ E); subst e; discriminate|subst j; auto].
Qed.
Lemma run_split : forall t es s tr a x b, inv t tr s -> run t s es = a ++ x :: b -> exists s1 s2, inv t (tr ++ a) s1 /\ step t s1 (fst x) = (s2, snd x).
Proof.
  induction es as [|e es IH]; intros s tr a x b I H; [destruct a; discriminate|]. cbn [run] in H.
  pose proof (step_inv t tr s e I) as Q. destruct (step t s e) as [s' o] eqn:S. destruct Q as [Q1 _]. destruct a as [|y a].
  - injection H as <- _. exists s, s'. rewrite app_nil_r. auto.
  - injection H as <- H. destruct (IH s' _ a x b Q1 H) as (s1 & s2 & J1 & J2). exists s1, s2. rewrite <- app_assoc in J1. auto.
Qed.
Theorem idle_only : forall t es a e i b, trace t es = a ++ (e, Timed_out (Idle i)) :: b -> idle t = Some i /\ idle_for i a.
Proof.
  intros t es a e i b H. pose proof (answers _ _ _ _ _ H) as A.
  destruct (run_split t es (call t) [] a _ b (init_inv t) H) as (s1 & s2 & [J1 J2 J3 J4] & S). cbn [fst snd app] in *.
  destruct (step_error _ _ _ _ _ _ S eq_refl) as [[-> R]|[->| ->]].
  - eapply body_idle; [apply request_due_ok|]. apply A. destruct (request s1); [apply J3|congruence].
  - exfalso. cbn [step] in S. destruct (response_of s1) as [d f| |]; try discriminate.
    assert (AW : awaiting a).
    { intros r o Hin. destruct J4 as (W_ & _). pose proof (W_ _ Hin) as W.
      destruct (in_split _ _ Hin) as (a1 & a2 & ->).
      destruct o as [|ws| |e]; try discriminate; [|eauto]. exfalso.
      rewrite <- app_assoc in H. cbn [app] in H.
      destruct (run_split t es (call t) [] a1 _ _ (init_inv t) H) as (u1 & u2 & [K1 K2 K3 K4] & S'). cbn [fst snd app] in *.
      cbn [step] in S'. destruct (response_of u1) as [d1 f1|b1|] eqn:R1.
      - unfold poll_response in S'. destruct (learn _ _ _ _ _) as [[c d'] f']. destruct r; try discriminate. destruct d' as [[dl e]|]; [destruct (dl <=? now u1)|]; discriminate.
      - destruct K4 as [_ (x & Hx & Rx)]. assert (C : resolved x = false) by (apply W_; rewrite in_app_iff; auto). congruence.
      - destruct K4 as [(x & Hx & Rx) _]. assert (C : resolved x = false) by (apply W_; rewrite in_app_iff; auto). congruence. }
    specialize (A AW). inversion A as [d0 e E L Q| |]. apply earliest_in in E. unfold headers_due, opt in E. subst e.
    apply in_app_iff in E as [E|E]; [destruct (limit t); [destruct E as [E|[]]; discriminate|destruct E]|].
    destruct (flushed a); [|destruct E]. destruct (response_headers t); [destruct E as [E|[]]; discriminate|].
    destruct (response_end t); [destruct E as [E|[]]; discriminate|destruct E].
  - cbn [step] in S. destruct (response_of s1) as [| |] eqn:R1; try discriminate.
    destruct J4 as [(h & a' & E & G & B) _]. specialize (A h a' E). eapply body_idle; [apply response_due_ok|exact A].
Qed.
Lemma all_due_earliest : forall t f, (forall h e, response_headers t = Some h -> response_end t = Some e -> h <= e) ->
  earliest (all_due t f) = earliest (headers_due t f).
Proof.
  intros t [f|] H; [|reflexivity]. unfold all_due, headers_due, opt.
  destruct (response_headers t) as [h|]; [|reflexivity]. destruct (response_end t) as [e|]; [|reflexivity].
  specialize (H h e eq_refl eq_refl). destruct (limit t) as [[d l]|]; cbn [app earliest fst snd]; replace (f + e <? f + h) with false by lia; reflexivity.
Qed.
Theorem all_headers_answered : forall t es a o b, (forall h e, response_headers t = Some h -> response_end t = Some e -> h <= e) ->
  trace t es = a ++ (Poll_response Response_pending, o) :: b -> awaiting a ->
  headers_answer (earliest (all_due t (flushed a))) a o.
Proof. intros t es a o b L H A. rewrite all_due_earliest by exact L. eapply headers_answered; eauto. Qed.
Theorem earliest_spec : forall l, match earliest l with
  | Some x => In x l /\ forall y, In y l -> fst x <= fst y
  | None => l = [] end.
Proof.
  intros l. destruct (earliest l) as [x|] eqn:E; [split; [exact (earliest_in _ _ E)|intros y; exact (earliest_le _ _ _ E)]|].
  destruct l as [|x l]; [reflexivity|]. cbn in E. destruct (earliest l); [destruct (_ <? _)|]; discriminate.
Qed.
