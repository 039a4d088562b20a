From Coq Require Import List NArith Bool Lia.
From Verif Require Import FailfastModel FailfastSpec.
Import ListNotations.
Open Scope N_scope.

Lemma answers_app : forall a b, answers (a ++ b) = answers a ++ answers b.
Proof. intros. unfold answers. apply flat_map_app. Qed.
Lemma mode_app : forall a b, mode_of (a ++ b) = fold_left next b (mode_of a).
Proof. intros. unfold mode_of. apply fold_left_app. Qed.
Lemma shut_app : forall a b x, shut x (a ++ b) = shut (shut x a) b.
Proof. induction a as [|e a]; intros; cbn; [reflexivity|]. destruct e; apply IHa. Qed.

(** The last answer of the inner service *)
Definition last_of (l : list seen) : option readiness := hd_error (rev (answers l)).
Lemma last_of_snoc : forall l t r, last_of (l ++ [Inner t r]) = Some r.
Proof. intros. unfold last_of. rewrite answers_app. cbn. rewrite rev_app_distr. reflexivity. Qed.
Lemma last_of_other : forall l b, answers b = [] -> last_of (l ++ b) = last_of l.
Proof. intros. unfold last_of. rewrite answers_app, H, app_nil_r. reflexivity. Qed.

Lemma last_of_last : forall l r, last_of l = Some r -> last (answers l) Pending_ = r.
Proof.
  intros l r. unfold last_of. destruct (answers l) as [|x xs] using rev_ind; [discriminate|].
  rewrite rev_app_distr, last_last. cbn. congruence.
Qed.

(** [pending_since] *)
Lemma since_unique_lt : forall a t b a' t' b',
  a ++ Inner t Pending_ :: b = a' ++ Inner t' Pending_ :: b' ->
  (answers a = [] \/ exists ok, last (answers a) Pending_ = Ready_ ok) -> (forall r, In r (answers b') -> r = Pending_) ->
  (length a <= length a')%nat.
Proof.
  intros a t b a' t' b' E Ha Hb.
  assert (K : (length a <= length a')%nat \/ exists c, a = a' ++ Inner t' Pending_ :: c /\ b' = c ++ Inner t Pending_ :: b).
  { revert a' E. clear Ha Hb. induction a as [|x a IH]; intros [|y a'] E; cbn in *.
    - left. lia.
    - left. lia.
    - injection E as -> E. right. exists a. auto.
    - injection E as -> E. destruct (IH _ E) as [H|(c & -> & ->)]; [left; lia|right; exists c; auto]. }
  destruct K as [K|(c & -> & ->)]; [exact K|exfalso].
  rewrite answers_app in Ha. cbn in Ha. change (flat_map _ c) with (answers c) in Ha.
  rewrite answers_app in Hb. assert (Hc : forall r, In r (answers c) -> r = Pending_) by (intros; apply Hb, in_app_iff; auto).
  destruct Ha as [Ha|(ok & Ha)]; [destruct (answers a'); discriminate|].
  destruct (answers c) as [|x xs] using rev_ind.
  - rewrite last_last in Ha. discriminate.
  - rewrite app_comm_cons, app_assoc, last_last in Ha. specialize (Hc x). rewrite Ha in Hc.
    discriminate Hc. apply in_app_iff. right. left. reflexivity.
Qed.
Lemma since_unique : forall l t t', pending_since t l -> pending_since t' l -> t = t'.
Proof.
  intros l t t' (a & b & -> & H1 & H2) (a' & b' & E & H1' & H2').
  pose proof (since_unique_lt _ _ _ _ _ _ E H1 H2') as L1.
  pose proof (since_unique_lt _ _ _ _ _ _ (eq_sym E) H1' H2) as L2.
  assert (L : length a = length a') by lia.
  assert (K : a = a' /\ Inner t Pending_ :: b = Inner t' Pending_ :: b').
  { clear -E L. revert a' E L. induction a as [|x a IH]; intros [|y a'] E L; cbn in *; try discriminate; [auto|].
    injection E as -> E. injection L as L. destruct (IH _ E L) as [-> ?]. auto. }
  destruct K as [_ K]. congruence.
Qed.
Lemma since_start : forall l t, last_of l <> Some Pending_ -> pending_since t (l ++ [Inner t Pending_]).
Proof.
  intros l t H. exists l, []. split; [reflexivity|]. split; [|intros r []].
  unfold last_of in H. destruct (answers l) as [|x xs] eqn:E using rev_ind; [left; reflexivity|right].
  rewrite rev_app_distr in H. cbn in H. rewrite last_last. destruct x; [congruence|eauto].
Qed.
Lemma since_more : forall l t b, pending_since t l -> (forall r, In r (answers b) -> r = Pending_) -> pending_since t (l ++ b).
Proof.
  intros l t b (a & c & -> & H1 & H2) Hb. exists a, (c ++ b). rewrite <- app_assoc. cbn.
  split; [reflexivity|]. split; [exact H1|]. intros r. rewrite answers_app, in_app_iff. intros [H|H]; auto.
Qed.

Lemma blocked_start : forall l t, blocked (l ++ [Entered t]).
Proof. intros. exists l, t, []. split; [reflexivity|]. split; [intros u []|intros r []]. Qed.
Lemma blocked_more : forall l b, blocked l -> (forall u, ~ In (Entered u) b) ->
  (forall r, In r (answers b) -> r = Pending_) -> blocked (l ++ b).
Proof.
  intros l b (a & t & c & -> & H1 & H2) Hb Hc. exists a, t, (c ++ b). rewrite <- app_assoc.
  split; [reflexivity|]. split.
  - intros u. rewrite in_app_iff. intros [H|H]; [exact (H1 u H)|exact (Hb u H)].
  - intros r. rewrite answers_app, in_app_iff. intros [H|H]; auto.
Qed.
(** Not blocked: nothing entered, or a ready answer since. *)
Definition free (l : list seen) : Prop :=
  (forall u, ~ In (Entered u) l) \/ exists a t ok b, l = a ++ Inner t (Ready_ ok) :: b /\ forall u, ~ In (Entered u) b.
Lemma free_not_blocked : forall l, free l -> ~ blocked l.
Proof.
  intros l [H|(a & t & ok & b & -> & Hb)] (a' & t' & b' & E & H1 & H2).
  - apply (H t'). rewrite E, in_app_iff. right. left. reflexivity.
  - assert (H : exists c, b' = c ++ Inner t (Ready_ ok) :: b).
    { revert a' E. induction a as [|x a]; intros a' E; destruct a' as [|y a']; cbn in E.
      - discriminate E.
      - injection E as -> E. exfalso. apply (Hb t'). rewrite E, in_app_iff. right. left. reflexivity.
      - injection E as -> E. exists a. symmetry. exact E.
      - injection E as -> E. eauto. }
    destruct H as (c & ->). specialize (H2 (Ready_ ok)).
    rewrite answers_app in H2. cbn in H2. rewrite in_app_iff in H2. discriminate H2. right. left. reflexivity.
Qed.
Lemma free_more : forall l b, free l -> (forall u, ~ In (Entered u) b) -> free (l ++ b).
Proof.
  intros l b [H|(a & t & ok & c & -> & Hb)] Hx.
  - left. intros u. rewrite in_app_iff. intros [?|?]; [eapply H|eapply Hx]; eauto.
  - right. exists a, t, ok, (c ++ b). rewrite <- app_assoc. split; [reflexivity|].
    intros u. rewrite in_app_iff. intros [?|?]; [eapply Hb|eapply Hx]; eauto.
Qed.
Lemma free_ready : forall l t ok, free (l ++ [Inner t (Ready_ ok)]).
Proof. intros. right. exists l, t, ok, []. split; [reflexivity|]. intros u []. Qed.

(** The log so far, entry by entry *)
Definition good (timeout : N) (l : list seen) : Prop :=
  forall a e b, l = a ++ e :: b -> entry_ok a e /\
    (forall t, e = Entered t -> exists t0, pending_since t0 a /\ t0 + timeout <= t).
Lemma good_snoc : forall timeout l e, good timeout l -> entry_ok l e ->
  (forall t, e = Entered t -> exists t0, pending_since t0 l /\ t0 + timeout <= t) -> good timeout (l ++ [e]).
Proof.
  intros timeout l e H H1 H2 a e' b E. destruct b as [|x b] using rev_ind.
  - apply app_inj_tail in E as [-> ->]. split; assumption.
  - change (a ++ e' :: b ++ [x]) with (a ++ (e' :: b) ++ [x]) in E. rewrite app_assoc in E.
    apply app_inj_tail in E as [-> ->]. apply (H _ _ _ eq_refl).
Qed.

(** The state and the log agree. *)
Record inv (timeout : N) (s : service) : Prop := {
  i_timeout : f_timeout s = timeout;
  i_good : good timeout (f_log s);
  i_state : match f_state s with
            | S_open => mode_of (f_log s) = Fine /\ last_of (f_log s) <> Some Pending_
            | S_waiting => mode_of (f_log s) = Fine /\ last_of (f_log s) = Some Pending_ /\
                exists t0, pending_since t0 (f_log s) /\ f_wait s = t0 + timeout
            | S_failfast Running => mode_of (f_log s) = Failing
            | S_failfast (Finishing ok) => mode_of (f_log s) = Failing /\ last_of (f_log s) = Some (Ready_ ok)
            | S_failfast (Done ok) => mode_of (f_log s) = Over ok /\ last_of (f_log s) = Some (Ready_ ok)
            | S_dropped => True
            end;
  i_gate : (f_state s = S_failfast Running /\ blocked (f_log s) /\ shut false (f_log s) = f_gated s) \/
           (f_state s = S_dropped /\ (f_gated s = true -> shut false (f_log s) = true <-> blocked (f_log s))) \/
           (f_state s <> S_failfast Running /\ free (f_log s) /\ shut false (f_log s) = false)
}.

Lemma snoc2 : forall (l : list seen) a b, l ++ [a; b] = (l ++ [a]) ++ [b].
Proof. intros. rewrite <- app_assoc. reflexivity. Qed.
Lemma snoc_cons : forall (l : list seen) a b, l ++ a :: b = (l ++ [a]) ++ b.
Proof. intros. rewrite <- app_assoc. reflexivity. Qed.

Lemma new_inv : forall timeout gated, inv timeout (new timeout gated).
Proof.
  intros. constructor; cbn; [reflexivity| |split; [reflexivity|discriminate]|].
  - intros a e b E. destruct a; discriminate.
  - right. right. split; [discriminate|]. split; [left; intros u []|reflexivity].
Qed.

Ltac ans := match goal with |- entry_ok _ (Answer _) => eexists _, _; split; [reflexivity|]; cbv beta iota end.
Ltac noent := let u := fresh in let H := fresh in intros u H; cbn in H; intuition discriminate.

Lemma poll_failfast_inv : forall timeout s t, inv timeout s -> f_state s = S_failfast t -> inv timeout (poll_failfast s t).
Proof.
  intros timeout s t [It Ig Is Igate] E. rewrite E in Is.
  assert (K : forall r, match t with Running | Finishing _ => r = Ready_ true | Done ok => r = Ready_ ok end ->
              good timeout (f_log s ++ [Checked; Answer r])).
  { intros r Hr. rewrite snoc2. apply good_snoc; [apply good_snoc; [exact Ig| |discriminate]| |discriminate].
    { destruct t; [|destruct Is as [Is _]..]; cbn; rewrite Is; discriminate. }
    ans. destruct t as [|ok|ok]; [|destruct Is as [Is _]..]; rewrite Is; exact Hr. }
  destruct t as [|ok|ok]; constructor; cbn [poll_failfast set f_timeout f_state f_log f_gated f_wait]; auto.
  - rewrite mode_app, Is. reflexivity.
  - left. destruct Igate as [(_ & H1 & H2)|[(H & _)|(H & _)]]; [|congruence..].
    split; [reflexivity|]. split; [apply blocked_more; [exact H1|noent|intros ? []]|]. rewrite shut_app, H2. reflexivity.
  - destruct Is as [Is1 Is2]. split; [rewrite mode_app, Is1; reflexivity|rewrite last_of_other; auto].
  - right. right. destruct Igate as [(H & _)|[(H & _)|(_ & H1 & H2)]]; [congruence..|].
    split; [discriminate|]. split; [apply free_more; [exact H1|noent]|]. rewrite shut_app, H2. reflexivity.
  - destruct Is as [Is1 Is2]. split; [rewrite mode_app, Is1; reflexivity|rewrite last_of_other, Is2; [discriminate|reflexivity]].
  - right. right. destruct Igate as [(H & _)|[(H & _)|(_ & H1 & H2)]]; [congruence..|].
    split; [discriminate|]. split; [apply free_more; [exact H1|noent]|]. rewrite shut_app, H2. reflexivity.
Qed.

Lemma gate_answers : forall s e, answers [e] = [] -> answers (gate s e) = [].
Proof. intros s e H. unfold gate. destruct (f_gated s); [exact H|reflexivity]. Qed.

(** Entering failfast *)
Lemma enter_inv : forall timeout s now, inv timeout s -> f_state s = S_waiting -> f_wait s <= now ->
  inv timeout (set s (S_failfast Running) (Inner now Pending_ :: Entered now :: gate s Gate_shut)).
Proof.
  intros timeout s now [It Ig Is Igate] E Hw. rewrite E in Is. destruct Is as (Im & Il & t0 & Hp & H0).
  assert (Hs : shut false (f_log s) = false).
  { destruct Igate as [(H & _)|[(H & _)|(_ & H1 & H2)]]; [congruence..|exact H2]. }
  set (l := f_log s) in *.
  assert (Hp' : pending_since t0 (l ++ [Inner now Pending_])) by (apply since_more; [exact Hp|intros r [<-|[]]; reflexivity]).
  assert (G : good timeout ((l ++ [Inner now Pending_]) ++ [Entered now])).
  { apply good_snoc; [apply good_snoc; [exact Ig|exact I|discriminate]|cbn; rewrite mode_app, Im; reflexivity|].
    intros t Ht. injection Ht as <-. exists t0. split; [exact Hp'|lia]. }
  constructor; cbn [set f_timeout f_state f_log f_gated f_wait]; fold l; auto.
  - rewrite snoc_cons, (snoc_cons _ (Entered now)). unfold gate. destruct (f_gated s); [|rewrite app_nil_r; exact G].
    apply good_snoc; [exact G|exact I|discriminate].
  - rewrite mode_app. cbn. unfold gate. destruct (f_gated s); reflexivity.
  - left. split; [reflexivity|]. split.
    + rewrite snoc_cons, (snoc_cons _ (Entered now)). apply blocked_more; [apply blocked_start| |].
      * unfold gate. destruct (f_gated s); noent.
      * rewrite gate_answers; [intros r []|reflexivity].
    + rewrite shut_app, Hs. cbn. unfold gate. destruct (f_gated s); reflexivity.
Qed.

(** The task sees the inner service ready. *)
Lemma ready_inv : forall timeout s now ok, inv timeout s -> f_state s = S_failfast Running ->
  inv timeout (set s (S_failfast (Finishing ok)) (Inner now (Ready_ ok) :: gate s Gate_open)).
Proof.
  intros timeout s now ok [It Ig Is Igate] E. rewrite E in Is.
  destruct Igate as [(_ & H1 & H2)|[(H & _)|(H & _)]]; [|congruence..].
  set (l := f_log s) in *.
  constructor; cbn [set f_timeout f_state f_log f_gated f_wait]; fold l; auto.
  - rewrite snoc_cons. unfold gate. destruct (f_gated s); [|rewrite app_nil_r];
      repeat apply good_snoc; try exact Ig; try exact I; discriminate.
  - split; [rewrite mode_app, Is; unfold gate; destruct (f_gated s); reflexivity|].
    rewrite snoc_cons, last_of_other by (apply gate_answers; reflexivity). apply last_of_snoc.
  - right. right. split; [discriminate|]. split.
    + rewrite snoc_cons. apply free_more; [apply free_ready|]. unfold gate. destruct (f_gated s); noent.
    + rewrite shut_app, H2. cbn. unfold gate. destruct (f_gated s); reflexivity.
Qed.
Lemma finish_inv : forall timeout s ok, inv timeout s -> f_state s = S_failfast (Finishing ok) ->
  inv timeout (set s (S_failfast (Done ok)) [Finished ok]).
Proof.
  intros timeout s ok [It Ig Is Igate] E. rewrite E in Is.
  destruct Igate as [(H & _)|[(H & _)|(_ & H1 & H2)]]; [congruence..|]. destruct Is as [Is1 Is2].
  constructor; cbn [set f_timeout f_state f_log f_gated f_wait]; auto.
  - apply good_snoc; [exact Ig| |discriminate]. split; [exact Is1|]. apply last_of_last, Is2.
  - split; [rewrite mode_app, Is1; reflexivity|rewrite last_of_other; auto].
  - right. right. split; [discriminate|]. split; [apply free_more; [exact H1|noent]|]. rewrite shut_app, H2. reflexivity.
Qed.
Lemma pending_inv : forall timeout s now, inv timeout s -> f_state s = S_failfast Running ->
  inv timeout (set s (S_failfast Running) [Inner now Pending_]).
Proof.
  intros timeout s now [It Ig Is Igate] E. rewrite E in Is.
  destruct Igate as [(_ & H1 & H2)|[(H & _)|(H & _)]]; [|congruence..].
  constructor; cbn [set f_timeout f_state f_log f_gated f_wait]; auto.
  - apply good_snoc; [exact Ig|exact I|discriminate].
  - rewrite mode_app, Is. reflexivity.
  - left. split; [reflexivity|]. split; [apply blocked_more; [exact H1|noent|intros r [<-|[]]; reflexivity]|].
    rewrite shut_app, H2. reflexivity.
Qed.
Lemma answered_ready : forall timeout s now ok, inv timeout s -> f_state s = S_open \/ f_state s = S_waiting ->
  inv timeout (set s S_open [Inner now (Ready_ ok); Answer (Ready_ ok)]).
Proof.
  intros timeout s now ok [It Ig Is Igate] E.
  assert (Im : mode_of (f_log s) = Fine) by (destruct E as [E|E]; rewrite E in Is; apply Is).
  assert (H : free (f_log s) /\ shut false (f_log s) = false).
  { destruct Igate as [(H & _)|[(H & _)|(_ & H)]]; [destruct E; congruence..|exact H]. }
  constructor; cbn [set f_timeout f_state f_log f_gated f_wait]; auto.
  - rewrite snoc2. apply good_snoc; [apply good_snoc; [exact Ig|exact I|discriminate]| |discriminate]. ans. auto.
  - split; [rewrite mode_app, Im; reflexivity|].
    rewrite snoc2, last_of_other, last_of_snoc; [discriminate|reflexivity].
  - right. right. split; [discriminate|]. split; [apply free_more; [apply H|noent]|].
    rewrite shut_app, (proj2 H). reflexivity.
Qed.

Lemma poll_waiting_inv : forall timeout s now r fires bg, inv timeout s -> f_state s = S_waiting ->
  inv timeout (poll_waiting s now r fires bg).
Proof.
  intros timeout s now r fires bg H E. unfold poll_waiting. destruct r as [|ok].
  2: { apply answered_ready; auto. }
  destruct (fires && (f_wait s <=? now)) eqn:C.
  - apply andb_true_iff in C as [_ C]. apply N.leb_le in C.
    pose proof (enter_inv _ _ now H E C) as H'.
    set (s' := set s _ _) in *. assert (E' : f_state s' = S_failfast Running) by reflexivity. clearbody s'.
    destruct bg as [[|ok]|].
    + apply poll_failfast_inv; [|exact E']. rewrite E'. apply pending_inv; auto.
    + cbv zeta.
      assert (K : inv timeout (set s' (S_failfast (Done ok)) (Inner now (Ready_ ok) :: gate s' Gate_open ++ [Finished ok]))).
      { pose proof (finish_inv _ _ ok (ready_inv _ _ now ok H' E') eq_refl) as K.
        unfold set in K |- *. cbn [f_timeout f_state f_log f_gated f_wait] in K |- *.
        rewrite <- app_assoc in K. exact K. }
      pose proof (poll_failfast_inv _ _ _ K eq_refl) as K'. exact K'.
    + apply poll_failfast_inv; auto.
  - destruct H as [It Ig Is Igate]. rewrite E in Is. destruct Is as (Im & Il & t0 & Hp & H0).
    destruct Igate as [(H & _)|[(H & _)|(_ & H)]]; [congruence..|].
    constructor; cbn [set f_timeout f_state f_log f_gated f_wait]; auto.
    + rewrite snoc2. apply good_snoc; [apply good_snoc; [exact Ig|exact I|discriminate]| |discriminate]. ans. auto.
    + split; [rewrite mode_app, Im; reflexivity|].
      split; [rewrite snoc2, last_of_other, last_of_snoc; reflexivity|].
      exists t0. split; [|exact H0]. apply since_more; [exact Hp|]. intros r [<-|[]]. reflexivity.
    + right. right. split; [discriminate|]. split; [apply free_more; [apply H|noent]|].
      rewrite shut_app, (proj2 H). reflexivity.
Qed.

Lemma next_asked : forall m t, next m (Asked t) = m.
Proof. destruct m; reflexivity. Qed.
Lemma next_called : forall m o, next m (Called o) = m.
Proof. destruct m; reflexivity. Qed.
(** `poll_ready` is called. *)
Lemma asked_inv : forall timeout s now, inv timeout s -> f_state s <> S_dropped -> inv timeout (set s (f_state s) [Asked now]).
Proof.
  intros timeout s now [It Ig Is Igate] E.
  constructor; cbn [set f_timeout f_state f_log f_gated f_wait]; auto.
  - apply good_snoc; [exact Ig|exact I|discriminate].
  - rewrite mode_app, (last_of_other _ [Asked now]) by reflexivity. cbn [fold_left]. rewrite ?next_asked, ?next_called.
    destruct (f_state s) as [| |[|ok|ok]|]; auto.
    destruct Is as (Im & Il & t0 & Hp & H0). split; [exact Im|]. split; [exact Il|]. exists t0. split; [apply since_more; [exact Hp|intros r []]|exact H0].
  - destruct Igate as [(H & H1 & H2)|[(H & _)|(H & H1 & H2)]]; [left|congruence|right; right].
    + split; [exact H|]. split; [apply blocked_more; [exact H1|noent|intros r []]|rewrite shut_app, H2; reflexivity].
    + split; [exact H|]. split; [apply free_more; [exact H1|noent]|rewrite shut_app, H2; reflexivity].
Qed.

Lemma handle_inv : forall timeout s e, inv timeout s -> inv timeout (handle s e).
Proof.
  intros timeout s e H. destruct e as [now r1 r2 fires bg|now r| |]; cbn [handle].
  - destruct (f_state s) eqn:E; [| | |exact H].
    all: assert (A : inv timeout (set s (f_state s) [Asked now])) by (apply asked_inv; congruence).
    all: unfold poll_ready; set (s' := set s _ _) in *; cbv zeta; assert (E' : f_state s' = f_state s) by reflexivity;
      clearbody s'; rewrite E', E.
    + destruct r1 as [|ok]; [|apply answered_ready; [exact A|left; congruence]].
      apply poll_waiting_inv; [|reflexivity]. destruct A as [It Ig Is Igate]. rewrite E', E in Is. destruct Is as [Im Il].
      destruct Igate as [(H1 & _)|[(H1 & _)|(_ & H1)]]; [congruence..|].
      constructor; cbn [set f_timeout f_state f_log f_gated f_wait]; auto.
      * apply good_snoc; [exact Ig|exact I|discriminate].
      * split; [rewrite mode_app, Im; reflexivity|]. split; [apply last_of_snoc|].
        exists now. split; [apply since_start; exact Il|lia].
      * right. right. split; [discriminate|]. split; [apply free_more; [apply H1|noent]|].
        rewrite shut_app, (proj2 H1). reflexivity.
    + apply poll_waiting_inv; [exact A|congruence].
    + apply poll_failfast_inv; [exact A|congruence].
  - unfold poll_task. destruct (f_state s) as [| |[|ok|ok]|] eqn:E; try exact H.
    + destruct r as [|ok]; [apply pending_inv|apply ready_inv]; auto.
    + apply finish_inv; auto.
  - unfold call.
    assert (K : forall o, f_state s <> S_dropped -> o = call_outcome (f_log s) -> inv timeout (set s (f_state s) [Called o])).
    { intros o E Ho. destruct H as [It Ig Is Igate].
      constructor; cbn [set f_timeout f_state f_log f_gated f_wait]; auto.
      - apply good_snoc; [exact Ig|exact Ho|discriminate].
      - rewrite mode_app, (last_of_other _ [Called o]) by reflexivity. cbn [fold_left]. rewrite ?next_asked, ?next_called.
        destruct (f_state s) as [| |[|ok|ok]|]; auto.
        destruct Is as (Im & Il & t0 & Hp & H0). split; [exact Im|]. split; [exact Il|]. exists t0. split; [apply since_more; [exact Hp|intros r []]|exact H0].
      - destruct Igate as [(H & H1 & H2)|[(H & _)|(H & H1 & H2)]]; [left|congruence|right; right].
        + split; [exact H|]. split; [apply blocked_more; [exact H1|noent|intros r []]|rewrite shut_app, H2; reflexivity].
        + split; [exact H|]. split; [apply free_more; [exact H1|noent]|rewrite shut_app, H2; reflexivity]. }
    pose proof (i_state _ _ H) as Is. destruct (f_state s) as [| |t|] eqn:E; try exact H; (apply K; [congruence|]).
    all: unfold call_outcome; unfold last_of in Is.
    + destruct Is as [-> Is]. destruct (rev (answers (f_log s))) as [|[|] ?]; cbn in Is; congruence.
    + destruct Is as (-> & Is & _). destruct (rev (answers (f_log s))) as [|[|] ?]; cbn in Is; congruence.
    + destruct t; [|destruct Is as [Is _]..]; rewrite Is; reflexivity.
  - destruct H as [It Ig Is Igate]. constructor; cbn [f_timeout f_state f_log f_gated f_wait]; auto.
    right. left. split; [reflexivity|]. intros Hg.
    destruct Igate as [(_ & H1 & H2)|[(_ & H)|(_ & H1 & H2)]]; [|auto|].
    + rewrite H2, Hg. tauto.
    + rewrite H2. split; [discriminate|]. intros H. destruct (free_not_blocked _ H1 H).
Qed.
Lemma gated_const : forall s e, f_gated (handle s e) = f_gated s /\ f_timeout (handle s e) = f_timeout s.
Proof.
  intros s e. destruct e; cbn [handle]; unfold poll_ready, poll_task, call; [| | |auto].
  - unfold poll_waiting, poll_failfast. cbn [set f_state]. destruct (f_state s) as [| |[]|]; auto.
    + destruct r1; [|auto]. destruct r2; [|auto]. destruct (_ && _); [|auto]. destruct bg as [[]|]; auto.
    + destruct r1; [|auto]. destruct (_ && _); [|auto]. destruct bg as [[]|]; auto.
  - destruct (f_state s) as [| |[]|]; auto. destruct r; auto.
  - destruct (f_state s); auto.
Qed.
Lemma run_inv : forall timeout gated es, inv timeout (run timeout gated es) /\ f_gated (run timeout gated es) = gated.
Proof.
  intros timeout gated es. unfold run.
  assert (K : forall s, inv timeout s /\ f_gated s = gated ->
              inv timeout (fold_left handle es s) /\ f_gated (fold_left handle es s) = gated).
  { induction es as [|e es IH]; intros s [H1 H2]; cbn [fold_left]; [auto|]. apply IH.
    split; [apply handle_inv, H1|rewrite (proj1 (gated_const s e)); exact H2]. }
  apply K. split; [apply new_inv|reflexivity].
Qed.

Theorem timeout_holds : forall timeout gated es a t b, f_log (run timeout gated es) = a ++ Entered t :: b ->
  exists t0, pending_since t0 a /\ t0 + timeout <= t.
Proof.
  intros timeout gated es a t b E. destruct (run_inv timeout gated es) as [[_ H _ _] _].
  destruct (H _ _ _ E) as [_ K]. exact (K t eq_refl).
Qed.
Theorem entries_ok : forall timeout gated es a e b, f_log (run timeout gated es) = a ++ e :: b -> entry_ok a e.
Proof.
  intros timeout gated es a e b E. destruct (run_inv timeout gated es) as [[_ H _ _] _].
  apply (H _ _ _ E).
Qed.
Theorem gate_holds : forall timeout es, shut false (f_log (run timeout true es)) = true <-> blocked (f_log (run timeout true es)).
Proof.
  intros timeout es. destruct (run_inv timeout true es) as [[_ _ _ H] G].
  destruct H as [(_ & H1 & H2)|[(_ & H)|(_ & H1 & H2)]].
  - rewrite H2, G. tauto.
  - apply H, G.
  - rewrite H2. split; [discriminate|]. intros H. destruct (free_not_blocked _ H1 H).
Qed.
(** A request fails fast: the service entered failfast before. *)
Lemma failing_entered : forall l, mode_of l <> Fine -> (forall a ok b, l = a ++ Finished ok :: b -> mode_of a <> Fine) ->
  exists a t b, l = a ++ Entered t :: b /\ (forall u, ~ In (Entered u) b).
Proof.
  induction l as [|e l IH] using rev_ind; intros H K; [destruct (H eq_refl)|].
  assert (K' : forall a ok b, l = a ++ Finished ok :: b -> mode_of a <> Fine).
  { intros a ok b ->. apply (K a ok (b ++ [e])). rewrite <- app_assoc. reflexivity. }
  assert (X : (exists t, e = Entered t) \/ (mode_of l <> Fine /\ forall t, e <> Entered t)).
  { rewrite mode_app in H. destruct e; cbn in H; eauto; right; (split; [|discriminate]); try (destruct (mode_of l); congruence).
    apply (K l ok []). reflexivity. }
  destruct X as [(t & ->)|[X N]]; [exists l, t, []; split; [reflexivity|intros u []]|].
  destruct (IH X K') as (a & t & b & -> & Hb). exists a, t, (b ++ [e]). rewrite <- app_assoc. split; [reflexivity|].
  intros u. rewrite in_app_iff. intros [Hu|[Hu|[]]]; [exact (Hb u Hu)|exact (N u Hu)].
Qed.
Theorem fails_fast_only : forall timeout gated es a b, f_log (run timeout gated es) = a ++ Called Failed_fast :: b ->
  exists before t0 t since, a = before ++ Entered t :: since /\ pending_since t0 before /\ t0 + timeout <= t /\
    (forall u, ~ In (Entered u) since) /\
    (forall ok s1 s2, since = s1 ++ Finished ok :: s2 -> ~ In Checked s2).
Proof.
  intros timeout gated es a b E. pose proof (entries_ok timeout gated es) as OK.
  assert (M : mode_of a <> Fine).
  { pose proof (OK _ _ _ E) as H. cbn in H. unfold call_outcome in H. intros M. rewrite M in H.
    destruct (rev (answers a)) as [|[] ?]; discriminate. }
  destruct (failing_entered a M) as (x & t & y & -> & Hy).
  { intros c ok d ->. rewrite <- app_assoc in E. destruct (OK _ _ _ E) as [H _]. congruence. }
  rewrite <- app_assoc in E. destruct (timeout_holds timeout gated es _ _ _ E) as (t0 & Hp & Ht).
  exists x, t0, t, y. split; [reflexivity|]. split; [exact Hp|]. split; [exact Ht|]. split; [exact Hy|].
  intros ok s1 s2 -> Hc. apply in_split in Hc as (u & v & ->).
  assert (Q : forall k m n, f_log (run timeout gated es) = k ++ m ++ n -> mode_of k = Fine ->
     (forall u, ~ In (Entered u) m) -> mode_of (k ++ m) = Fine).
  { intros k m. induction m as [|e m IHm] using rev_ind; intros n Ek Mk Nl; [rewrite app_nil_r; exact Mk|].
    rewrite <- app_assoc in Ek. assert (IH : mode_of (k ++ m) = Fine).
    { apply (IHm _ Ek Mk). intros z Hz. apply (Nl z). apply in_app_iff. auto. }
    rewrite app_assoc, mode_app, IH. destruct e; try reflexivity.
    - exfalso. apply (Nl t1). rewrite in_app_iff. right. left. reflexivity.
    - exfalso. assert (Ek' : f_log (run timeout gated es) = (k ++ m) ++ Finished ok0 :: n) by (rewrite <- app_assoc; exact Ek).
      destruct (OK _ _ _ Ek') as [H _]. congruence. }
  (* after the finish, the first look *)
  assert (W : (exists o, mode_of (x ++ Entered t :: s1 ++ Finished ok :: u) = Over o) \/ mode_of (x ++ Entered t :: s1 ++ Finished ok :: u) = Fine).
  { replace (x ++ Entered t :: s1 ++ Finished ok :: u) with ((x ++ Entered t :: s1) ++ Finished ok :: u)
      by (rewrite <- app_assoc; reflexivity).
    rewrite mode_app. cbn [fold_left next].
    assert (Nu : forall z, ~ In (Entered z) u).
    { intros z Hz. apply (Hy z). rewrite in_app_iff. right. right. rewrite in_app_iff. left. exact Hz. }
    clear -Nu. assert (G : forall m, ((exists o, m = Over o) \/ m = Fine) -> (exists o, fold_left next u m = Over o) \/ fold_left next u m = Fine).
    { induction u as [|e u IHu]; intros m Hm; [exact Hm|]. cbn [fold_left]. apply IHu.
      - intros z Hz. apply (Nu z). right. exact Hz.
      - destruct Hm as [(o & ->)| ->]; destruct e; cbn; eauto; exfalso; eapply Nu; left; reflexivity. }
    apply G. eauto. }
  assert (Fn : mode_of (x ++ Entered t :: s1 ++ Finished ok :: u ++ [Checked]) = Fine).
  { replace (x ++ Entered t :: s1 ++ Finished ok :: u ++ [Checked]) with ((x ++ Entered t :: s1 ++ Finished ok :: u) ++ [Checked])
      by (rewrite <- !app_assoc; cbn; rewrite <- !app_assoc; reflexivity).
    rewrite mode_app. destruct W as [(o & ->)| ->]; reflexivity. }
  apply M.
  replace (x ++ Entered t :: s1 ++ Finished ok :: u ++ Checked :: v)
    with ((x ++ Entered t :: s1 ++ Finished ok :: u ++ [Checked]) ++ v)
    by (rewrite <- !app_assoc; cbn; rewrite <- !app_assoc; cbn; rewrite <- !app_assoc; reflexivity).
  (* nothing entered in v *)
  assert (Nv : forall z, ~ In (Entered z) v).
  { intros z Hz. apply (Hy z). rewrite !in_app_iff. right. right. rewrite in_app_iff. right. right. exact Hz. }
  apply (Q _ v (Called Failed_fast :: b)); [|exact Fn|exact Nv]. rewrite E.
  rewrite <- !app_assoc. cbn. rewrite <- !app_assoc. cbn. rewrite <- !app_assoc. reflexivity.
Qed.

Lemma handle_dropped : forall s e, f_state s <> S_dropped -> e <> Drop -> f_state (handle s e) <> S_dropped.
Proof.
  intros s e H1 H2. destruct e; cbn [handle]; unfold poll_ready, poll_task, call; [| | |congruence].
  - unfold poll_waiting, poll_failfast. cbn [set f_state]. destruct (f_state s) as [| |[]|] eqn:S; cbn [set f_state]; try congruence.
    + destruct r1; [|discriminate]. destruct r2; [|discriminate]. destruct (_ && _); [|discriminate]. destruct bg as [[]|]; discriminate.
    + destruct r1; [|discriminate]. destruct (_ && _); [|discriminate]. destruct bg as [[]|]; discriminate.
  - destruct (f_state s) as [| |[]|] eqn:S; cbn [set f_state]; try congruence. destruct r; cbn [set f_state]; discriminate.
  - destruct (f_state s) eqn:S; cbn [set f_state]; congruence.
Qed.
Lemma not_dropped : forall timeout gated es, ~ dropped es -> f_state (run timeout gated es) <> S_dropped.
Proof.
  intros timeout gated es H. induction es as [|e es IH] using rev_ind; [discriminate|].
  unfold run. rewrite fold_left_app. cbn [fold_left]. apply handle_dropped.
  - apply IH. intros D. apply H. apply in_app_iff. auto.
  - intros ->. apply H. apply in_app_iff. right. left. reflexivity.
Qed.
Lemma run_app : forall timeout gated es fs, run timeout gated (es ++ fs) = fold_left handle fs (run timeout gated es).
Proof. intros. apply fold_left_app. Qed.

Theorem fails_after : forall timeout gated es t0 now r2,
  ~ dropped es -> mode_of (f_log (run timeout gated es)) = Fine ->
  pending_since t0 (f_log (run timeout gated es)) -> t0 + timeout <= now ->
  f_log (run timeout gated (es ++ [Poll now Pending_ r2 true None; Call])) =
  f_log (run timeout gated es) ++ [Asked now; Inner now Pending_; Entered now] ++
    (if gated then [Gate_shut] else []) ++ [Checked; Answer (Ready_ true); Called Failed_fast].
Proof.
  intros timeout gated es t0 now r2 D M P L. rewrite run_app.
  pose proof (not_dropped timeout gated es D) as ND. destruct (run_inv timeout gated es) as [[It Ig Is _] G].
  set (s := run timeout gated es) in *. clearbody s.
  assert (E : f_state s = S_waiting /\ f_wait s = t0 + timeout).
  { destruct (f_state s) as [| |[]|]; [exfalso| |exfalso..|congruence]; try (intuition congruence).
    - destruct Is as [_ Is]. apply Is. destruct P as (a & b & -> & _ & Hb). unfold last_of. rewrite answers_app. cbn.
      change (flat_map _ b) with (answers b). destruct (answers b) as [|x xs] using rev_ind.
      + rewrite rev_app_distr. reflexivity.
      + rewrite app_comm_cons, app_assoc, rev_app_distr. cbn. f_equal. apply Hb, in_app_iff. right. left. reflexivity.
    - destruct Is as (_ & _ & t & Hp & ->). split; [reflexivity|]. f_equal. exact (since_unique _ _ _ Hp P). }
  destruct E as [E W]. cbn [fold_left handle]. rewrite E. unfold poll_ready. cbn [set f_state]. rewrite E.
  unfold poll_waiting. cbn [set f_wait f_state]. rewrite W. replace (t0 + timeout <=? now) with true by (symmetry; apply N.leb_le; exact L).
  cbn [andb]. unfold call, gate. cbn [poll_failfast set f_state f_log f_gated]. rewrite G.
  destruct gated; cbn; rewrite <- !app_assoc; reflexivity.
Qed.
Theorem recovers : forall timeout gated es t1 t2 r2 now r3 r4 f bg,
  ~ dropped es -> blocked (f_log (run timeout gated es)) ->
  f_log (run timeout gated (es ++ [Task t1 (Ready_ true); Task t2 r2; Poll now r3 r4 f bg; Call])) =
  f_log (run timeout gated es) ++ [Inner t1 (Ready_ true)] ++ (if gated then [Gate_open] else []) ++
    [Finished true; Asked now; Checked; Answer (Ready_ true); Called Forwarded].
Proof.
  intros timeout gated es t1 t2 r2 now r3 r4 f bg D B. rewrite run_app.
  pose proof (not_dropped timeout gated es D) as ND. destruct (run_inv timeout gated es) as [[It Ig Is Igate] G].
  set (s := run timeout gated es) in *. clearbody s.
  assert (E : f_state s = S_failfast Running).
  { destruct Igate as [(H & _)|[(H & _)|(_ & H & _)]]; [exact H|congruence|]. destruct (free_not_blocked _ H B). }
  cbn [fold_left handle]. unfold poll_task. rewrite E. cbn [set f_state]. unfold gate. cbn [f_gated].
  unfold poll_ready. cbn [set f_state poll_failfast]. unfold call. cbn [set f_state f_log]. rewrite G.
  destruct gated; cbn; rewrite <- !app_assoc; reflexivity.
Qed.
Theorem forwards : forall timeout gated es now r2 f bg,
  ~ dropped es -> mode_of (f_log (run timeout gated es)) = Fine ->
  f_log (run timeout gated (es ++ [Poll now (Ready_ true) r2 f bg; Call])) =
  f_log (run timeout gated es) ++ [Asked now; Inner now (Ready_ true); Answer (Ready_ true); Called Forwarded].
Proof.
  intros timeout gated es now r2 f bg D M. rewrite run_app.
  pose proof (not_dropped timeout gated es D) as ND. destruct (run_inv timeout gated es) as [[It Ig Is Igate] G].
  set (s := run timeout gated es) in *. clearbody s.
  cbn [fold_left handle]. unfold poll_ready. cbn [set f_state].
  destruct (f_state s) as [| |[]|] eqn:E; try congruence; try (intuition congruence).
  all: unfold poll_waiting, call; cbn [set f_state f_log]; rewrite <- !app_assoc; reflexivity.
Qed.
Lemma dropped_log : forall fs s, f_state s = S_dropped -> f_log (fold_left handle fs s) = f_log s.
Proof.
  induction fs as [|e fs IH]; intros s H; [reflexivity|]. cbn [fold_left].
  assert (K : f_state (handle s e) = S_dropped /\ f_log (handle s e) = f_log s).
  { destruct e; cbn [handle]; unfold poll_task, call; rewrite ?H; auto. }
  destruct K as [K1 K2]. rewrite (IH _ K1). exact K2.
Qed.
