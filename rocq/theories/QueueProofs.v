From Coq Require Import List Arith NArith ZArith Bool Lia.
From Verif Require Import QueueModel QueueSpec.
Import ListNotations.
Open Scope nat_scope.

Definition in_hand (s : state) : list nat := match w_mode s with Readying m => [m] | _ => [] end.
Definition is_available (x : event) : Prop := match x with Available _ => True | _ => False end.
Definition unavailable_since (l : list event) (t0 : N) : Prop := exists l1 l2, l = l1 ++ Unavailable t0 :: l2 /\ forall x, In x l2 -> ~ is_available x.
Definition ordered (l : list event) : Prop := forall l1 x l2 e, l = l1 ++ x :: l2 -> tells x e -> forall y, In y l2 -> same_error e y.
Definition shut_by (l : list event) : Prop := exists l1 m t l2, l = l1 ++ Failed m Fail_fast t :: l2 /\ forall x, In x l2 -> ~ is_available x.

Lemma snoc_cases : forall (A : Type) (l : list A) y l1 x l2, l ++ [y] = l1 ++ x :: l2 -> l2 = [] /\ l1 = l /\ x = y \/ exists l3, l2 = l3 ++ [y] /\ l = l1 ++ x :: l3.
Proof.
  intros A l y l1 x l2 H. destruct l2 as [|z l2] using rev_ind.
  - left. apply app_inj_tail in H. destruct H as [-> ->]. auto.
  - right. exists l2. change (l1 ++ x :: l2 ++ [z]) with (l1 ++ (x :: l2) ++ [z]) in H. rewrite app_assoc in H. apply app_inj_tail in H. destruct H as [-> ->]. auto.
Qed.
Lemma ordered_snoc : forall l y, ordered l -> (forall x e, In x l -> tells x e -> same_error e y) -> ordered (l ++ [y]).
Proof.
  intros l y O H l1 x l2 e E T z I. apply snoc_cases in E. destruct E as [[-> _]|[l3 [-> ->]]]; [destruct I|].
  apply in_app_iff in I. destruct I as [I|[<-|[]]]; [exact (O l1 x l3 e eq_refl T z I)|]. apply (H x e); [apply in_elt|exact T].
Qed.
Lemma unavailable_snoc : forall l t y, unavailable_since l t -> ~ is_available y -> unavailable_since (l ++ [y]) t.
Proof.
  intros l t y [l1 [l2 [-> H]]] N. exists l1, (l2 ++ [y]). split; [rewrite <- app_assoc; reflexivity|]. intros x I. apply in_app_iff in I. destruct I as [I|[<-|[]]]; auto.
Qed.
Lemma shut_snoc : forall l y, ~ is_available y -> shut_by l -> shut_by (l ++ [y]).
Proof.
  intros l y N [l1 [m [t [l2 [-> H]]]]]. exists l1, m, t, (l2 ++ [y]). split; [rewrite <- app_assoc; reflexivity|]. intros x I. apply in_app_iff in I. destruct I as [I|[<-|[]]]; auto.
Qed.
Lemma shut_snoc_iff : forall l y, ~ is_available y -> (forall m t, y <> Failed m Fail_fast t) -> (shut_by (l ++ [y]) <-> shut_by l).
Proof.
  intros l y N F. split; [|apply shut_snoc; exact N]. intros [l1 [m [t [l2 [E H]]]]]. apply snoc_cases in E. destruct E as [[-> [-> X]]|[l3 [-> ->]]]; [exfalso; exact (F m t (eq_sym X))|].
  exists l1, m, t, l3. split; [reflexivity|]. intros x I. apply H. apply in_app_iff. auto.
Qed.
Lemma shut_available : forall l t, ~ shut_by (l ++ [Available t]).
Proof.
  intros l t [l1 [m [t' [l2 [E H]]]]]. apply snoc_cases in E. destruct E as [[_ [_ X]]|[l3 [-> ->]]]; [discriminate|]. apply (H (Available t)); [apply in_app_iff; right; left; reflexivity|exact I].
Qed.
Lemma shut_now : forall l m t, shut_by (l ++ [Failed m Fail_fast t]).
Proof. intros. exists l, m, t, []. split; [reflexivity|intros x []]. Qed.

Section Queue.
  Variables (capacity : nat) (timeout : N).
  Notation step := (step capacity timeout).
  Notation run := (run capacity timeout).
  Definition waited (l : list event) (t : N) : Prop := exists t0, (t0 + timeout <= t)%N /\ unavailable_since l t0.
  Definition patient (l : list event) : Prop := forall l1 m t l2, l = l1 ++ Failed m Fail_fast t :: l2 -> waited l1 t.
  Lemma patient_snoc : forall l y, patient l -> (forall m t, y = Failed m Fail_fast t -> waited l t) -> patient (l ++ [y]).
  Proof.
    intros l y P H l1 m t l2 E. apply snoc_cases in E. destruct E as [[-> [-> X]]|[l3 [-> ->]]]; [apply (H m); auto|exact (P l1 m t l3 eq_refl)].
  Qed.
  Definition mode_ok (s : state) : Prop :=
    match w_mode s with
    | Idle => terminal s = None /\ closed s = false /\ match ff s with Some (Waiting _) => False | _ => True end
    | Readying _ => terminal s = None /\ closed s = false
    | Exited => terminal s = None /\ closed s = false /\ queue s = [] /\ clients s = false
    | Failing e => terminal s = None /\ closed s = false
    | Closing e => terminal s = Some e /\ closed s = false
    | Draining e => terminal s = Some e /\ closed s = true
    | Ended => terminal s <> None /\ closed s = true /\ queue s = [] /\ reserved s = 0
    end.
  Definition the_error (s : state) : option N :=
    match w_mode s with Failing e | Closing e | Draining e => Some e | Ended => terminal s | _ => None end.
  Record inv (l : list event) (s : state) : Prop := Inv {
    i_fifo : accepted l = answered l ++ in_hand s ++ queue s;
    i_seq : accepted l = seq 0 (next s);
    i_len : (length_gauge s + Z.of_nat (uncounted s) = Z.of_nat (length (queue s)))%Z;
    i_mode : mode_ok s;
    i_left : clients s = false -> reserved s = 0;
    i_cap : reserved s + length (queue s) <= capacity;
    i_gate : gate_shut s = is_active s;
    i_shut : gate_shut s = true <-> shut_by l;
    i_since : match ff s with
              | None => True
              | Some (Waiting t0) => unavailable_since l t0 /\ (t0 <= now s)%N
              | Some (Active t0) => unavailable_since l t0 /\ (t0 + timeout <= now s)%N
              end;
    i_error : forall x e, In x l -> tells x e -> the_error s = Some e;
    i_order : ordered l;
    i_patient : patient l;
    i_stop : stopped l = true -> w_mode s = Ended \/ w_mode s = Exited }.
  Lemma accepted_app : forall a b, accepted (a ++ b) = accepted a ++ accepted b.
  Proof. intros. apply flat_map_app. Qed.
  Lemma answered_app : forall a b, answered (a ++ b) = answered a ++ answered b.
  Proof. intros. apply flat_map_app. Qed.
  Lemma stopped_app : forall a b, stopped (a ++ b) = stopped a || stopped b.
  Proof. intros. unfold stopped. apply existsb_app. Qed.
  Lemma two : forall (l : list event) a b, l ++ [a; b] = (l ++ [a]) ++ [b].
  Proof. intros. rewrite <- app_assoc. reflexivity. Qed.

  Ltac fields := cbn [now w_mode ff gate_shut terminal closed queue reserved next clients length_gauge uncounted set_mode set_ready set_ff take].
  Lemma inv_run : forall l s, run l s -> inv l s.
  Proof.
    intros l s H. induction H as [|l s i s' l' H I E].
    { constructor; cbn; auto; try lia; try tauto.
      - split; [discriminate|]. intros [l1 [m [t [l2 [X _]]]]]. destruct l1; discriminate.
      - intros l1 x l2 e X. destruct l1; discriminate.
      - intros l1 m t l2 X. destruct l1; discriminate. }
    destruct I as [J1 J2 J3 J4 J5 J6 J7 J8 J9 J10 J11 J12 J13].
    (* steps that do not say anything, and only change what the invariant does not mention *)
    assert (QUIET : forall s', l' = [] -> in_hand s' ++ queue s' = in_hand s ++ queue s -> next s' = next s ->
      (length_gauge s' + Z.of_nat (uncounted s') = Z.of_nat (length (queue s')))%Z -> mode_ok s' -> (clients s' = false -> reserved s' = 0) -> reserved s' + length (queue s') <= capacity ->
      gate_shut s' = gate_shut s -> ff s' = ff s -> (now s <= now s')%N -> (the_error s' = the_error s \/ the_error s = None) -> (w_mode s = Ended \/ w_mode s = Exited -> w_mode s' = w_mode s) -> inv (l ++ l') s').
    { clear E s'. intros s' -> A1 A2 A3 A4 A5 A6 A7 A8 A9 A10 A11. rewrite app_nil_r. constructor; auto.
      - rewrite A1. exact J1.
      - rewrite A2. exact J2.
      - unfold is_active in *. rewrite A8, A7. exact J7.
      - rewrite A7. exact J8.
      - rewrite A8. destruct (ff s) as [[t0|t0]|]; [| |exact Logic.I]; (split; [tauto|lia]).
      - intros x e X T. pose proof (J10 x e X T) as Y. destruct A10 as [Z|Z]; congruence.
      - intros X. rewrite (A11 (J13 X)). exact (J13 X). }
    destruct i as [t| | | | | |e|e| |e| | |]; cbn [QueueModel.step] in E.
    - destruct (N.leb_spec (now s) t); [|discriminate]. injection E as <- <-. apply QUIET; auto.
    - destruct (clients s) eqn:CL; [|discriminate]. destruct (gate_shut s) eqn:GS.
      { injection E as <- <-. apply QUIET; auto; try lia. intros X. congruence. }
      destruct (closed s) eqn:CS.
      + destruct (terminal s) as [e|] eqn:TM; [|discriminate]. injection E as <- <-.
        assert (TE : the_error s = Some e).
        { unfold mode_ok, the_error in *. destruct (w_mode s); try tauto; try (exfalso; intuition congruence); destruct J4; congruence. }
        constructor; auto.
        * rewrite accepted_app, answered_app, !app_nil_r. exact J1.
        * rewrite accepted_app, app_nil_r. exact J2.
        * rewrite CL. discriminate.
        * rewrite GS. exact J7.
        * rewrite GS, shut_snoc_iff; [exact J8|intros []|discriminate].
        * destruct (ff s) as [[t0|t0]|]; [| |exact Logic.I]; (split; [apply unavailable_snoc; [tauto|intros []]|tauto]).
        * intros x e0 X T. apply in_app_iff in X. destruct X as [X|[<-|[]]]; [exact (J10 x e0 X T)|]. cbn in T. congruence.
        * apply ordered_snoc; [exact J11|]. intros x e0 X T. cbn. pose proof (J10 x e0 X T). congruence.
        * apply patient_snoc; [exact J12|discriminate].
        * rewrite stopped_app, orb_false_r. exact J13.
      + destruct (Nat.ltb_spec (reserved s + length (queue s)) capacity); injection E as <- <-.
        * apply QUIET; fields; auto; try lia. unfold mode_ok in *; fields. destruct (w_mode s); intuition congruence.
        * apply QUIET; auto; try lia. intros X. congruence.
    - destruct (reserved s) as [|r] eqn:RS; [discriminate|]. injection E as <- <-. apply QUIET; fields; auto; try lia.
      + unfold mode_ok in *; fields. destruct (w_mode s); auto. exfalso. intuition congruence.
      + intros X. specialize (J5 X). lia.
    - destruct (reserved s) as [|r] eqn:RS; [discriminate|]. injection E as <- <-. constructor; fields; auto; try lia.
      + rewrite accepted_app, answered_app, J1. cbn [accepted answered flat_map app]. rewrite app_nil_r, <- !app_assoc. unfold in_hand. fields. reflexivity.
      + rewrite accepted_app, J2. cbn [accepted flat_map app]. rewrite seq_S. reflexivity.
      + rewrite app_length. cbn [length]. lia.
      + unfold mode_ok in *; fields. destruct (w_mode s); auto; exfalso; [intuition congruence|]. destruct J4 as [_ [_ [_ X]]]. specialize (J5 X). lia.
      + intros X. specialize (J5 X). lia.
      + rewrite app_length. cbn [length]. lia.
      + rewrite shut_snoc_iff; [exact J8|intros []|discriminate].
      + destruct (ff s) as [[t0|t0]|]; [| |exact Logic.I]; (split; [apply unavailable_snoc; [tauto|intros []]|tauto]).
      + intros x e0 X T. apply in_app_iff in X. destruct X as [X|[<-|[]]]; [exact (J10 x e0 X T)|destruct T].
      + apply ordered_snoc; [exact J11|]. intros x e0 X T. exact Logic.I.
      + apply patient_snoc; [exact J12|discriminate].
      + rewrite stopped_app, orb_false_r. exact J13.
    - destruct (uncounted s) as [|u] eqn:UC; [discriminate|]. injection E as <- <-. apply QUIET; fields; auto; lia.
    - destruct (clients s) eqn:CL; [|discriminate]. destruct (Nat.eqb_spec (reserved s) 0); [|discriminate]. injection E as <- <-. apply QUIET; fields; auto; try lia.
      unfold mode_ok in *; fields. destruct (w_mode s); auto. intuition.
    - destruct (w_mode s) as [|m|e0|e0|e0| |] eqn:WM; try discriminate; injection E as <- <-.
      + apply QUIET; fields; auto; try lia; unfold in_hand, mode_ok, the_error in *; rewrite ?WM in *; fields; auto; try tauto. intros [X|X]; discriminate.
      + unfold in_hand, mode_ok, the_error in *. rewrite WM in *. constructor; fields; auto; unfold in_hand, mode_ok, the_error; fields.
        * rewrite accepted_app, answered_app, J1. cbn. rewrite app_nil_r, <- !app_assoc. reflexivity.
        * rewrite accepted_app, app_nil_r. exact J2.
        * rewrite shut_snoc_iff; [exact J8|intros []|discriminate].
        * destruct (ff s) as [[t0|t0]|]; [| |exact Logic.I]; (split; [apply unavailable_snoc; [tauto|intros []]|tauto]).
        * intros x e0 X T. apply in_app_iff in X. destruct X as [X|[<-|[]]]; [specialize (J10 x e0 X T); discriminate|]. cbn in T. congruence.
        * apply ordered_snoc; [exact J11|]. intros x e0 X T. specialize (J10 x e0 X T). discriminate.
        * apply patient_snoc; [exact J12|discriminate].
        * rewrite stopped_app, orb_false_r. intros X. destruct (J13 X); discriminate.
    - destruct (w_mode s) as [|m|e0|e0|e0| |] eqn:WM; try discriminate. destruct (is_active s) eqn:IA; [discriminate|]. injection E as <- <-.
      apply QUIET; fields; auto; try lia; unfold in_hand, mode_ok, the_error in *; rewrite ?WM in *; fields; auto; try tauto. intros [X|X]; discriminate.
    - destruct (w_mode s) as [|m|e0|e0|e0| |] eqn:WM; try discriminate.
      + destruct (is_active s) eqn:IA; [|discriminate]. injection E as <- <-. unfold in_hand, mode_ok, the_error in *. rewrite WM in *. constructor; fields; auto; unfold in_hand, mode_ok, the_error; fields.
        * rewrite accepted_app, answered_app, !app_nil_r. exact J1.
        * rewrite accepted_app, app_nil_r. exact J2.
        * tauto.
        * rewrite IA. reflexivity.
        * rewrite IA. split; [discriminate|]. intros X. exfalso. exact (shut_available _ _ X).
        * intros x e0 X T. apply in_app_iff in X. destruct X as [X|[<-|[]]]; [exact (J10 x e0 X T)|destruct T].
        * apply ordered_snoc; [exact J11|]. intros x e0 X T. exact Logic.I.
        * apply patient_snoc; [exact J12|discriminate].
        * rewrite stopped_app, orb_false_r. exact J13.
      + injection E as <- <-. rewrite two. unfold in_hand, mode_ok, the_error in *. rewrite WM in *. constructor; fields; auto; unfold in_hand, mode_ok, the_error; fields.
        * rewrite !accepted_app, !answered_app, J1. cbn. rewrite !app_nil_r, <- !app_assoc. reflexivity.
        * rewrite !accepted_app, !app_nil_r. exact J2.
        * tauto.
        * unfold is_active in *. fields. destruct (ff s) as [[]|]; [exact J7|reflexivity|exact J7].
        * rewrite shut_snoc_iff; [|intros []|discriminate]. split; [|intros X; exfalso; exact (shut_available _ _ X)]. rewrite J7. destruct (is_active s); discriminate.
        * intros x e0 X T. rewrite !in_app_iff in X. destruct X as [[X|[<-|[]]]|[<-|[]]]; [exact (J10 x e0 X T)|destruct T|destruct T].
        * apply ordered_snoc; [apply ordered_snoc; [exact J11|intros; exact Logic.I]|]. intros x e0 X T. rewrite !in_app_iff in X. destruct X as [X|[<-|[]]]; [specialize (J10 x e0 X T); discriminate|destruct T].
        * apply patient_snoc; [apply patient_snoc; [exact J12|discriminate]|discriminate].
        * rewrite !stopped_app, !orb_false_r. intros X. destruct (J13 X); discriminate.
    - destruct (w_mode s) as [|m|e0|e0|e0| |] eqn:WM; try discriminate.
      + destruct (is_active s) eqn:IA; [|discriminate]. injection E as <- <-. unfold in_hand, mode_ok, the_error in *. rewrite WM in *. constructor; fields; auto; unfold in_hand, mode_ok, the_error; fields.
        * rewrite accepted_app, answered_app, !app_nil_r. exact J1.
        * rewrite accepted_app, app_nil_r. exact J2.
        * tauto.
        * rewrite IA. reflexivity.
        * rewrite IA. split; [discriminate|]. intros X. exfalso. exact (shut_available _ _ X).
        * intros x e0 X T. apply in_app_iff in X. destruct X as [X|[<-|[]]]; [specialize (J10 x e0 X T); discriminate|destruct T].
        * apply ordered_snoc; [exact J11|]. intros x e0 X T. exact Logic.I.
        * apply patient_snoc; [exact J12|discriminate].
        * rewrite stopped_app, orb_false_r. intros X. destruct (J13 X); discriminate.
      + injection E as <- <-. rewrite two. unfold in_hand, mode_ok, the_error in *. rewrite WM in *. constructor; fields; auto; unfold in_hand, mode_ok, the_error; fields.
        * rewrite !accepted_app, !answered_app, J1. cbn. rewrite !app_nil_r, <- !app_assoc. reflexivity.
        * rewrite !accepted_app, !app_nil_r. exact J2.
        * unfold is_active in *. fields. destruct (ff s) as [[]|]; [exact J7|reflexivity|exact J7].
        * rewrite shut_snoc_iff; [|intros []|discriminate]. split; [|intros X; exfalso; exact (shut_available _ _ X)]. rewrite J7. destruct (is_active s); discriminate.
        * intros x e0 X T. rewrite !in_app_iff in X. destruct X as [[X|[<-|[]]]|[<-|[]]]; [specialize (J10 x e0 X T); discriminate|destruct T|]. cbn in T. congruence.
        * apply ordered_snoc; [apply ordered_snoc; [exact J11|intros; exact Logic.I]|]. intros x e0 X T. rewrite !in_app_iff in X. destruct X as [X|[<-|[]]]; [specialize (J10 x e0 X T); discriminate|destruct T].
        * apply patient_snoc; [apply patient_snoc; [exact J12|discriminate]|discriminate].
        * rewrite !stopped_app, !orb_false_r. intros X. destruct (J13 X); discriminate.
    - destruct (w_mode s) as [|m|e0|e0|e0| |] eqn:WM; try discriminate.
      + injection E as <- <-. apply QUIET; auto; lia.
      + destruct (ff s) as [[since|since]|] eqn:FS.
        * destruct (N.leb_spec (since + timeout) (now s)) as [L|L]; injection E as <- <-; [|apply QUIET; auto; lia].
          unfold in_hand, mode_ok, the_error in *. rewrite WM in *. constructor; fields; auto; unfold in_hand, mode_ok, the_error; fields.
          -- rewrite accepted_app, answered_app, J1. cbn. rewrite app_nil_r, <- !app_assoc. reflexivity.
          -- rewrite accepted_app, app_nil_r. exact J2.
          -- tauto.
          -- split; [intros _; apply shut_now|reflexivity].
          -- split; [apply unavailable_snoc; [tauto|intros []]|exact L].
          -- intros x e0 X T. apply in_app_iff in X. destruct X as [X|[<-|[]]]; [exact (J10 x e0 X T)|destruct T].
          -- apply ordered_snoc; [exact J11|]. intros x e0 X T. specialize (J10 x e0 X T). discriminate.
          -- apply patient_snoc; [exact J12|]. intros m0 t0 X. injection X as <- <-. exists since. tauto.
          -- rewrite stopped_app, orb_false_r. intros X. destruct (J13 X); discriminate.
        * injection E as <- <-. unfold in_hand, mode_ok, the_error in *. rewrite WM in *. constructor; fields; auto; unfold in_hand, mode_ok, the_error; fields.
          -- rewrite accepted_app, answered_app, J1. cbn. rewrite app_nil_r, <- !app_assoc. reflexivity.
          -- rewrite accepted_app, app_nil_r. exact J2.
          -- rewrite FS. tauto.
          -- split; [intros _; apply shut_now|]. intros _. rewrite J7. unfold is_active. rewrite FS. reflexivity.
          -- rewrite FS. split; [apply unavailable_snoc; [tauto|intros []]|tauto].
          -- intros x e0 X T. apply in_app_iff in X. destruct X as [X|[<-|[]]]; [exact (J10 x e0 X T)|destruct T].
          -- apply ordered_snoc; [exact J11|]. intros x e0 X T. specialize (J10 x e0 X T). discriminate.
          -- apply patient_snoc; [exact J12|]. intros m0 t0 X. injection X as <- <-. exists since. tauto.
          -- rewrite stopped_app, orb_false_r. intros X. destruct (J13 X); discriminate.
        * injection E as <- <-. unfold in_hand, mode_ok, the_error in *. rewrite WM in *. constructor; fields; auto; unfold in_hand, mode_ok, the_error; fields.
          -- rewrite accepted_app, answered_app, !app_nil_r. exact J1.
          -- rewrite accepted_app, app_nil_r. exact J2.
          -- rewrite J7. unfold is_active. rewrite FS. reflexivity.
          -- rewrite shut_snoc_iff; [exact J8|intros []|discriminate].
          -- split; [|lia]. exists l, []. split; [reflexivity|intros x []].
          -- intros x e0 X T. apply in_app_iff in X. destruct X as [X|[<-|[]]]; [exact (J10 x e0 X T)|destruct T].
          -- apply ordered_snoc; [exact J11|]. intros x e0 X T. exact Logic.I.
          -- apply patient_snoc; [exact J12|discriminate].
          -- rewrite stopped_app, orb_false_r. intros X. destruct (J13 X); discriminate.
    - destruct (w_mode s) as [|m|e0|e0|e0| |] eqn:WM; try discriminate; destruct (queue s) as [|m' q] eqn:QS; try discriminate.
      + destruct (clients s) eqn:CL; [discriminate|]. injection E as <- <-. unfold in_hand, mode_ok, the_error in *. rewrite WM in *. constructor; fields; auto; unfold in_hand, mode_ok, the_error; fields.
        * rewrite accepted_app, answered_app, !app_nil_r, QS. rewrite J1. rewrite app_nil_r. reflexivity.
        * rewrite accepted_app, app_nil_r. exact J2.
        * rewrite QS. exact J3.
        * tauto.
        * rewrite QS. exact J6.
        * rewrite shut_snoc_iff; [exact J8|intros []|discriminate].
        * destruct (ff s) as [[t0|t0]|]; [| |exact Logic.I]; (split; [apply unavailable_snoc; [tauto|intros []]|tauto]).
        * intros x e0 X T. apply in_app_iff in X. destruct X as [X|[<-|[]]]; [exact (J10 x e0 X T)|destruct T].
        * apply ordered_snoc; [exact J11|]. intros x e0 X T. exact Logic.I.
        * apply patient_snoc; [exact J12|discriminate].
      + injection E as <- <-. unfold in_hand, mode_ok, the_error in *. rewrite WM in *. cbn [length] in *. apply QUIET; fields; auto; unfold in_hand, mode_ok, the_error; fields; rewrite ?WM; auto; try lia; try tauto.
        intros [X|X]; discriminate.
      + destruct (Nat.eqb_spec (reserved s) 0) as [RZ|]; [|discriminate]. injection E as <- <-. unfold in_hand, mode_ok, the_error in *. rewrite WM in *. destruct J4 as [T1 T2]. constructor; fields; auto; unfold in_hand, mode_ok, the_error; fields.
        * rewrite accepted_app, answered_app, !app_nil_r, QS. rewrite J1. rewrite app_nil_r. reflexivity.
        * rewrite accepted_app, app_nil_r. exact J2.
        * rewrite QS. exact J3.
        * repeat split; auto. congruence.
        * rewrite QS. exact J6.
        * rewrite shut_snoc_iff; [exact J8|intros []|discriminate].
        * destruct (ff s) as [[t0|t0]|]; [| |exact Logic.I]; (split; [apply unavailable_snoc; [tauto|intros []]|tauto]).
        * intros x e1 X T. rewrite T1. apply in_app_iff in X. destruct X as [X|[<-|[]]]; [exact (J10 x e1 X T)|destruct T].
        * apply ordered_snoc; [exact J11|]. intros x e1 X T. exact Logic.I.
        * apply patient_snoc; [exact J12|discriminate].
      + injection E as <- <-. unfold in_hand, mode_ok, the_error in *. rewrite WM in *. cbn [length] in *. constructor; fields; auto; unfold in_hand, mode_ok, the_error; fields; try lia.
        * rewrite accepted_app, answered_app, J1. cbn. rewrite app_nil_r, <- !app_assoc. reflexivity.
        * rewrite accepted_app, app_nil_r. exact J2.
        * rewrite shut_snoc_iff; [exact J8|intros []|discriminate].
        * destruct (ff s) as [[t0|t0]|]; [| |exact Logic.I]; (split; [apply unavailable_snoc; [tauto|intros []]|tauto]).
        * intros x e1 X T. apply in_app_iff in X. destruct X as [X|[<-|[]]]; [exact (J10 x e1 X T)|cbn in T; congruence].
        * apply ordered_snoc; [exact J11|]. intros x e1 X T. cbn. specialize (J10 x e1 X T). congruence.
        * apply patient_snoc; [exact J12|discriminate].
        * rewrite stopped_app, orb_false_r. intros X. destruct (J13 X); discriminate.
    - destruct (w_mode s) as [|m|e0|e0|e0| |] eqn:WM; try discriminate; injection E as <- <-; apply QUIET; fields; auto; try lia; unfold in_hand, mode_ok, the_error in *; rewrite ?WM in *; fields; auto; try tauto; intros [X|X]; discriminate.
  Qed.

  Lemma fifo : forall l s, run l s -> exists rest, accepted l = answered l ++ rest /\ NoDup (accepted l) /\ length rest <= S capacity /\ (stopped l = true -> rest = []).
  Proof.
    intros l s H. destruct (inv_run l s H) as [J1 J2 J3 J4 J5 J6 J7 J8 J9 J10 J11 J12 J13]. exists (in_hand s ++ queue s). split; [exact J1|]. split; [rewrite J2; apply seq_NoDup|]. split.
    - rewrite app_length. unfold in_hand. destruct (w_mode s); cbn [length]; lia.
    - intros X. unfold in_hand, mode_ok in *. destruct (J13 X) as [M|M]; rewrite M in *; destruct J4 as [_ [_ [-> _]]]; reflexivity.
  Qed.
  Lemma same_failure : forall l1 x l2 e s, run (l1 ++ x :: l2) s -> tells x e -> Forall (same_error e) l2.
  Proof. intros l1 x l2 e s H T. apply Forall_forall. intros y I. exact (i_order _ _ (inv_run _ s H) l1 x l2 e eq_refl T y I). Qed.
  Lemma failed_fast : forall l1 m t l2 s, run (l1 ++ Failed m Fail_fast t :: l2) s ->
    exists t0 l3 l4, (t0 + timeout <= t)%N /\ l1 = l3 ++ Unavailable t0 :: l4 /\ forall t', ~ In (Available t') l4.
  Proof.
    intros l1 m t l2 s H. destruct (i_patient _ _ (inv_run _ s H) l1 m t l2 eq_refl) as [t0 [L [l3 [l4 [E N]]]]]. exists t0, l3, l4. split; [exact L|]. split; [exact E|].
    intros t' I. exact (N _ I Logic.I).
  Qed.
  Lemma gate_is : forall l s, run l s -> (gate_shut s = true <-> exists l1 m t l2, l = l1 ++ Failed m Fail_fast t :: l2 /\ forall t', ~ In (Available t') l2).
  Proof.
    intros l s H. rewrite (i_shut _ _ (inv_run l s H)). split; intros [l1 [m [t [l2 [E N]]]]]; exists l1, m, t, l2; (split; [exact E|]).
    - intros t' I. exact (N _ I Logic.I).
    - intros x I A. destruct x; try exact A. exact (N _ I).
  Qed.
  Lemma no_panic : forall l s i, run l s -> step s i <> Panic.
  Proof.
    intros l s i H E. pose proof (i_mode _ _ (inv_run l s H)) as M. unfold QueueModel.step in E.
    destruct i; repeat match type of E with
      | (if ?b then _ else _) = _ => destruct b eqn:?; try discriminate
      | match ?x with _ => _ end = _ => destruct x eqn:?; try discriminate
      end.
    unfold mode_ok in M. destruct (w_mode s); intuition congruence.
  Qed.
  Lemma length_is : forall l s, run l s -> (length_gauge s + Z.of_nat (uncounted s) = Z.of_nat (length (queue s)))%Z.
  Proof. intros l s H. exact (i_len _ _ (inv_run l s H)). Qed.
  Lemma told : forall l s, run l s -> closed s = true -> gate_shut s = false -> clients s = true ->
    exists e, step s Poll_ready = Next s [Rejected e (now s)] /\ forall x e', In x l -> tells x e' -> e' = e.
  Proof.
    intros l s H C G L. pose proof (inv_run l s H) as [J1 J2 J3 J4 J5 J6 J7 J8 J9 J10 J11 J12 J13]. destruct (terminal s) as [e|] eqn:T.
    - exists e. split; [unfold QueueModel.step; rewrite L, G, C, T; reflexivity|]. intros x e' I X. specialize (J10 x e' I X). unfold the_error, mode_ok in *. destruct (w_mode s); intuition congruence.
    - exfalso. unfold mode_ok in J4. destruct (w_mode s); intuition congruence.
  Qed.

  (* every request can be answered *)
  Notation steps := (steps capacity timeout).
  Lemma steps_app : forall s i1 l1 s1, steps s i1 l1 s1 -> forall i2 l2 s2, steps s1 i2 l2 s2 -> steps s (i1 ++ i2) (l1 ++ l2) s2.
  Proof. intros s i1 l1 s1 H. induction H as [s|s i s1 l1 is l2 s2 E H IH]; intros i2 l3 s3 H2; [exact H2|]. cbn. rewrite <- app_assoc. econstructor; [exact E|]. auto. Qed.
  Definition can (s : state) (q : list nat) (d : N) : Prop := exists is l' s', steps s is l' s' /\ forallb alone is = true /\ answered l' = q /\ (now s' <= now s + d)%N.
  Lemma can_step : forall s i s1 l1 q d d1 q', step s i = Next s1 l1 -> alone i = true -> answered l1 ++ q = q' -> can s1 q d1 -> (now s1 + d1 <= now s + d)%N -> can s q' d.
  Proof.
    intros s i s1 l1 q d d1 q' E A <- [is [l2 [s2 [H [B [C D]]]]]] L. exists (i :: is), (l1 ++ l2), s2. split; [econstructor; eauto|]. split; [cbn; rewrite A; exact B|]. split; [rewrite answered_app, C; reflexivity|lia].
  Qed.
  Lemma drain_active : forall q s, w_mode s = Idle -> is_active s = true -> queue s = q -> can s q 0.
  Proof.
    induction q as [|m q IH]; intros s M A Q.
    - exists [], [], s. split; [constructor|]. repeat split. lia.
    - eapply (can_step s Recv _ _ (m :: q) 0 0); [cbn [QueueModel.step]; rewrite M, Q; reflexivity|reflexivity|reflexivity| |cbn; lia].
      unfold is_active in A. destruct (ff s) as [[since|since]|] eqn:F; try discriminate.
      eapply (can_step (take s q (Readying m)) Pool_pending _ _ q 0 0); [cbn [QueueModel.step w_mode take ff]; rewrite F; reflexivity|reflexivity|reflexivity| |cbn; lia].
      apply IH; [reflexivity| |reflexivity]. unfold is_active. cbn [set_mode take ff]. rewrite F. reflexivity.
  Qed.
  Lemma drain_closed : forall q s e, w_mode s = Draining e -> queue s = q -> can s q 0.
  Proof.
    induction q as [|m q IH]; intros s e M Q.
    - exists [], [], s. split; [constructor|]. repeat split. lia.
    - eapply (can_step s Recv _ _ q 0 0); [cbn [QueueModel.step]; rewrite M, Q; reflexivity|reflexivity|reflexivity| |cbn; lia].
      apply (IH _ e); reflexivity.
  Qed.
  Lemma can_weaken : forall s q d d', can s q d -> (d <= d')%N -> can s q d'.
  Proof. intros s q d d' [is [l2 [s2 [H [B [C D]]]]]] L. exists is, l2, s2. repeat split; auto. lia. Qed.
  Lemma readying_can : forall s m, w_mode s = Readying m -> match ff s with Some (Waiting t0) => (t0 <= now s)%N | _ => True end -> can s (m :: queue s) timeout.
  Proof.
    assert (DUE : forall s m since, w_mode s = Readying m -> ff s = Some (Waiting since) -> (since + timeout <= now s)%N -> can s (m :: queue s) 0).
    { intros s m since M F L. eapply (can_step s Pool_pending _ _ (queue s) 0 0); [cbn [QueueModel.step]; rewrite M, F; apply N.leb_le in L; rewrite L; reflexivity|reflexivity|reflexivity| |cbn; lia].
      apply drain_active; reflexivity. }
    assert (WAIT : forall s m since, w_mode s = Readying m -> ff s = Some (Waiting since) -> (since <= now s)%N -> can s (m :: queue s) timeout).
    { intros s m since M F L. eapply (can_step s (Time (now s + timeout)) _ _ (m :: queue s) timeout 0);
        [cbn [QueueModel.step]; destruct (N.leb_spec (now s) (now s + timeout)); [reflexivity|lia]|reflexivity|reflexivity| |cbn; lia].
      eapply (DUE (State _ _ _ _ _ _ (queue s) _ _ _ _ _)); [exact M|exact F|cbn; lia]. }
    intros s m M W. destruct (ff s) as [[since|since]|] eqn:F.
    - exact (WAIT s m since M F W).
    - apply can_weaken with (d := 0%N); [|lia]. eapply (can_step s Pool_pending _ _ (queue s) 0 0); [cbn [QueueModel.step]; rewrite M, F; reflexivity|reflexivity|reflexivity| |cbn; lia].
      apply drain_active; [reflexivity| |reflexivity]. unfold is_active. cbn [set_mode ff]. rewrite F. reflexivity.
    - eapply (can_step s Pool_pending _ _ (m :: queue s) timeout timeout); [cbn [QueueModel.step]; rewrite M, F; reflexivity|reflexivity|reflexivity| |cbn; lia].
      apply (WAIT (set_ff s (Readying m) (Waiting (now s)) (gate_shut s)) m (now s)); cbn; [reflexivity|reflexivity|lia].
  Qed.
  Lemma answerable : forall l s, run l s -> exists is l' s', steps s is l' s' /\ forallb alone is = true /\ (now s' <= now s + timeout)%N /\
    forall m, In m (accepted l) -> In m (answered (l ++ l')).
  Proof.
    intros l s H. destruct (inv_run l s H) as [J1 J2 J3 J4 J5 J6 J7 J8 J9 J10 J11 J12 J13].
    assert (X : can s (in_hand s ++ queue s) timeout).
    { unfold in_hand, mode_ok in *. destruct (w_mode s) as [|m|e|e|e| |] eqn:M.
      - destruct (queue s) as [|m q] eqn:Q; [exists [], [], s; split; [constructor|]; repeat split; lia|]. cbn [app].
        destruct (is_active s) eqn:A; [apply can_weaken with (d := 0%N); [apply drain_active; auto|lia]|].
        eapply (can_step s Recv _ _ (m :: q) timeout timeout); [cbn [QueueModel.step]; rewrite M, Q; reflexivity|reflexivity|reflexivity| |cbn; lia].
        change (m :: q) with (m :: queue (take s q (Readying m))). apply readying_can; [reflexivity|]. cbn [take ff now]. unfold is_active in A. destruct (ff s) as [[since|since]|]; tauto.
      - apply readying_can; [exact M|]. destruct (ff s) as [[]|]; tauto.
      - eapply (can_step s Continue _ _ (queue s) timeout timeout); [cbn [QueueModel.step]; rewrite M; reflexivity|reflexivity|reflexivity| |cbn; lia].
        eapply (can_step _ Continue _ _ (queue s) timeout timeout); [cbn [QueueModel.step w_mode]; reflexivity|reflexivity|reflexivity| |cbn; lia].
        apply can_weaken with (d := 0%N); [apply (drain_closed _ _ e); reflexivity|lia].
      - eapply (can_step s Continue _ _ (queue s) timeout timeout); [cbn [QueueModel.step]; rewrite M; reflexivity|reflexivity|reflexivity| |cbn; lia].
        apply can_weaken with (d := 0%N); [apply (drain_closed _ _ e); reflexivity|lia].
      - apply can_weaken with (d := 0%N); [apply (drain_closed _ _ e); [exact M|reflexivity]|lia].
      - destruct J4 as [_ [_ [-> _]]]. exists [], [], s. split; [constructor|]. repeat split. lia.
      - destruct J4 as [_ [_ [-> _]]]. exists [], [], s. split; [constructor|]. repeat split. lia. }
    destruct X as [is [l' [s' [A [B [C D]]]]]]. exists is, l', s'. split; [exact A|]. split; [exact B|]. split; [exact D|].
    intros m I. rewrite answered_app, C, <- J1. exact I.
  Qed.
  Lemma steps_run : forall s is l' s', steps s is l' s' -> forall l, run l s -> run (l ++ l') s'.
  Proof. intros s is l' s' H. induction H as [s|s i s1 l1 is l2 s2 E H IH]; intros l R; [rewrite app_nil_r; exact R|]. rewrite app_assoc. apply IH. econstructor; eauto. Qed.
  (* a gate that is shut when the worker ends stays shut *)
  Lemma stuck : forall s is l' s', steps s is l' s' -> w_mode s = Ended -> gate_shut s = true -> reserved s = 0 ->
    w_mode s' = Ended /\ gate_shut s' = true /\ reserved s' = 0 /\ forall e t m, ~ In (Rejected e t) l' /\ ~ In (Accepted m t) l'.
  Proof.
    intros s is l' s' H. induction H as [s|s i s1 l1 is l2 s2 E H IH]; intros M G R; [repeat split; auto|].
    assert (X : w_mode s1 = Ended /\ gate_shut s1 = true /\ reserved s1 = 0 /\ l1 = []).
    { destruct i; cbn [QueueModel.step] in E; rewrite ?M, ?G, ?R in E; try discriminate.
      - destruct (_ <=? _)%N; [|discriminate]. injection E as <- <-. auto.
      - destruct (clients s); [|discriminate]. injection E as <- <-. auto.
      - destruct (uncounted s); [discriminate|]. injection E as <- <-. auto.
      - destruct (clients s && (0 =? 0)); [|discriminate]. injection E as <- <-. auto. }
    destruct X as [X1 [X2 [X3 ->]]]. exact (IH X1 X2 X3).
  Qed.
End Queue.
