From Coq Require Import List Arith NArith Bool Lia.
From Verif Require Import RecoverModel RecoverSpec.
Import ListNotations.

Lemma client_snoc : forall a e, client (a ++ [e]) = match e with Sent u => apply (client a) u | _ => client a end.
Proof. intros. unfold client. rewrite fold_left_app. reflexivity. Qed.
Lemma announced_snoc : forall a e, announced (a ++ [e]) = match e with Received u => apply (announced a) u | _ => announced a end.
Proof. intros. unfold announced. rewrite fold_left_app. reflexivity. Qed.
Lemma informed_snoc : forall a e, existsb informative (a ++ [e]) = existsb informative a || informative e.
Proof. intros. rewrite existsb_app. cbn. rewrite orb_false_r. reflexivity. Qed.

(** The log since the last connection *)
Definition since (l a b : list event) : Prop := l = a ++ Connection :: b /\ ~ In Connection b.
Lemma since_snoc : forall l e a b, e <> Connection -> since (l ++ [e]) a b -> exists b', b = b' ++ [e] /\ since l a b'.
Proof.
  intros l e a b NE [E N]. destruct b as [|x b] using rev_ind.
  - apply app_inj_tail in E as [_ E]. congruence.
  - clear IHb. rewrite app_comm_cons, app_assoc in E. apply app_inj_tail in E as [-> ->]. exists b. split; [reflexivity|]. split; [reflexivity|].
    intros C. apply N. apply in_app_iff. auto.
Qed.
Lemma since_new : forall l a b, since (l ++ [Connection]) a b -> a = l /\ b = [].
Proof.
  intros l a b [E N]. destruct b as [|x b] using rev_ind.
  - apply app_inj_tail in E as [-> _]. auto.
  - rewrite app_comm_cons, app_assoc in E. apply app_inj_tail in E as [_ <-]. destruct N. apply in_app_iff. right. left. reflexivity.
Qed.
Definition good (l : list event) : Prop := forall a b, since l a b ->
  client l = if existsb informative b then announced b else client a.
Definition fine (l : list event) : Prop := forall a b, since l a b -> existsb informative b = false -> announced b = [].

Definition quiet (e : event) : Prop := match e with Sent _ | Received _ | Connection => False | _ => True end.
Lemma good_quiet : forall l e, quiet e -> good l -> good (l ++ [e]).
Proof.
  intros l e Q G a b SI. apply since_snoc in SI as (b' & -> & SI); [|intros ->; exact Q]. rewrite client_snoc, announced_snoc, informed_snoc.
  specialize (G a b' SI). destruct e; try contradiction; cbn [informative]; rewrite orb_false_r; exact G.
Qed.
Lemma fine_quiet : forall l e, quiet e -> fine l -> fine (l ++ [e]).
Proof.
  intros l e Q G a b SI. apply since_snoc in SI as (b' & -> & SI); [|intros ->; exact Q]. rewrite announced_snoc, informed_snoc.
  destruct e; try contradiction; cbn [informative]; rewrite orb_false_r; exact (G a b' SI).
Qed.
Lemma fine_sent : forall l u, fine l -> fine (l ++ [Sent u]).
Proof.
  intros l u G a b SI. apply since_snoc in SI as (b' & -> & SI); [|discriminate]. rewrite announced_snoc, informed_snoc. cbn [informative]. rewrite orb_false_r. exact (G a b' SI).
Qed.
Lemma fine_received : forall l u, fine l -> fine (l ++ [Received u]).
Proof.
  intros l u G a b SI. apply since_snoc in SI as (b' & -> & SI); [|discriminate]. rewrite announced_snoc, informed_snoc.
  intros E. apply orb_false_iff in E as [E1 E2]. rewrite (G a b' SI E1). destruct u; try discriminate. reflexivity.
Qed.

Definition inv (l : list event) (m : machine) : Prop :=
  good l /\ fine l /\ (~ In Connection l -> client l = []) /\
  forall i, m_state m = Connected i -> exists a b, since l a b /\ i = negb (existsb informative b).

Ltac keep G F N := split; [apply good_quiet; [exact I|exact G]|split; [apply fine_quiet; [exact I|exact F]|split; [rewrite client_snoc, in_app_iff; intros C; apply N; tauto|discriminate]]].
Lemma inv_run : forall l m, run l m -> inv l m.
Proof.
  intros l m H. induction H as [|l m a m' l' H (G & F & NC & ST) SS].
  { split; [intros [|? [|]] b [E _]; discriminate|]. split; [intros [|? [|]] b [E _]; discriminate|]. split; [reflexivity|discriminate]. }
  unfold step in SS. destruct m as [st k]. cbn [m_state m_made] in *. destruct st as [b|i|b|b|]; destruct a as [ok|u| |ok|more]; try discriminate; try (destruct i; discriminate).
  - destruct ok; injection SS as <- <-.
    + split; [intros x y SI; apply since_new in SI as [-> ->]; rewrite client_snoc; reflexivity|].
      split; [intros x y SI; apply since_new in SI as [-> ->]; reflexivity|].
      split; [intros C; destruct C; apply in_app_iff; right; left; reflexivity|].
      intros i [= <-]. exists l, []. split; [split; [reflexivity|intros []]|reflexivity].
    + rewrite app_nil_r. split; [exact G|]. split; [exact F|]. split; [exact NC|discriminate].
  - destruct (ST i eq_refl) as (x & y & SI & EI). destruct (SI) as [EL NI].
    assert (REC : forall u, since (l ++ [Received u]) x (y ++ [Received u])).
    { intros w. split; [rewrite EL, <- app_assoc; reflexivity|]. rewrite in_app_iff. intros [C|[C|[]]]; [tauto|discriminate]. }
    destruct (andb i match u with Remove _ => true | _ => false end) eqn:CASE.
    + apply andb_prop in CASE as [-> CASE]. destruct u; try discriminate. injection SS as <- <-.
      split. { intros x' y' SI'. apply since_snoc in SI' as (y'' & -> & SI'); [|discriminate]. rewrite client_snoc, announced_snoc, informed_snoc. cbn [informative]. rewrite orb_false_r.
        specialize (G x' y'' SI'). specialize (F x' y'' SI').
        assert (x' = x /\ y'' = y) as [-> ->]. { clear -SI SI'. destruct SI as [E1 N1], SI' as [E2 N2]. rewrite E1 in E2. clear E1 l. revert x' E2. induction x as [|e x IH]; intros [|e' x'] E; cbn in E.
          - injection E as ->. auto.
          - injection E as _ E. subst y. destruct N1. apply in_app_iff. right. left. reflexivity.
          - injection E as -> E. subst y''. destruct N2. apply in_app_iff. right. left. reflexivity.
          - injection E as -> E. destruct (IH x' E) as [-> ->]. auto. }
        destruct (existsb informative y); [discriminate|exact G]. }
      split; [apply fine_received; exact F|]. split; [rewrite client_snoc, in_app_iff; intros C; apply NC; tauto|].
      intros i [= <-]. exists x, (y ++ [Received (Remove addrs)]). split; [apply REC|]. rewrite informed_snoc. cbn [informative]. rewrite orb_false_r. exact EI.
    + assert (SS' : m' = Machine (Connected false) k /\ l' = [Received u; Sent (if i then match u with Add eps => Reset eps | up => up end else u)]).
      { destruct i, u; try discriminate; injection SS as <- <-; auto. }
      clear SS. destruct SS' as [-> ->]. replace (l ++ [Received u; Sent (if i then match u with Add eps => Reset eps | up => up end else u)]) with ((l ++ [Received u]) ++ [Sent (if i then match u with Add eps => Reset eps | up => up end else u)]) by (rewrite <- app_assoc; reflexivity).
      set (v := if i then match u with Add eps => Reset eps | up => up end else u) in *.
      assert (INF : existsb informative y || informative (Received u) = true). { destruct (existsb informative y); [reflexivity|]. cbn in EI. subst i. destruct u; try discriminate; reflexivity. }
      split. { intros x' y' SI'. apply since_snoc in SI' as (y'' & -> & SI'); [|discriminate]. apply since_snoc in SI' as (y3 & -> & SI'); [|discriminate].
        assert (x' = x /\ y3 = y) as [-> ->]. { clear -SI SI'. destruct SI as [E1 N1], SI' as [E2 N2]. rewrite E1 in E2. clear E1 l. revert x' E2. induction x as [|e x IH]; intros [|e' x'] E; cbn in E.
          - injection E as ->. auto.
          - injection E as _ E. subst y. destruct N1. apply in_app_iff. right. left. reflexivity.
          - injection E as -> E. subst y3. destruct N2. apply in_app_iff. right. left. reflexivity.
          - injection E as -> E. destruct (IH x' E) as [-> ->]. auto. }
        rewrite !client_snoc, !announced_snoc, !informed_snoc, INF. cbn [orb]. specialize (G x y SI). specialize (F x y SI).
        destruct (existsb informative y) eqn:EY; cbn in EI; subst i; subst v; cbv match.
        - rewrite G. reflexivity.
        - rewrite (F eq_refl). destruct u; try reflexivity. discriminate. }
      split; [apply fine_sent, fine_received; exact F|]. split. { intros C. destruct C. rewrite !in_app_iff. left. left. rewrite EL. apply in_elt. }
      intros j [= <-]. exists x, ((y ++ [Received u]) ++ [Sent v]). split.
      * destruct (REC u) as [E N]. split; [rewrite E, <- app_assoc; reflexivity|]. rewrite in_app_iff. intros [C|[C|[]]]; [tauto|discriminate].
      * rewrite !informed_snoc, INF. reflexivity.
  - assert (SS' : m' = Machine (Recovering None) k /\ l' = [Lost]) by (destruct i; injection SS as <- <-; auto). destruct SS' as [-> ->]. keep G F NC.
  - destruct ok; injection SS as <- <-.
    + rewrite app_nil_r. split; [exact G|]. split; [exact F|]. split; [exact NC|discriminate].
    + keep G F NC.
  - injection SS as <- <-. replace (l ++ [Ticked b more; Resolving]) with ((l ++ [Ticked b more]) ++ [Resolving]) by (rewrite <- app_assoc; reflexivity).
    split; [apply good_quiet, good_quiet; [exact I|exact I|exact G]|]. split; [apply fine_quiet, fine_quiet; [exact I|exact I|exact F]|]. split; [|discriminate].
    rewrite !client_snoc, !in_app_iff. intros C. apply NC. tauto.
Qed.
Lemma current : forall l m a b, run l m -> l = a ++ Connection :: b -> ~ In Connection b -> existsb informative b = true -> client l = announced b.
Proof. intros l m a b H E N I. destruct (inv_run _ _ H) as [G _]. rewrite (G a b (conj E N)), I. reflexivity. Qed.
Lemma kept : forall l m a b, run l m -> l = a ++ Connection :: b -> ~ In Connection b -> existsb informative b = false -> client l = client a.
Proof. intros l m a b H E N I. destruct (inv_run _ _ H) as [G _]. rewrite (G a b (conj E N)), I. reflexivity. Qed.
Lemma nothing : forall l m, run l m -> ~ In Connection l -> client l = [].
Proof. intros l m H N. destruct (inv_run _ _ H) as (_ & _ & NC & _). exact (NC N). Qed.

(** Only a connection speaks *)
Lemma lost_keeps : forall l m a b, run l m -> l = a ++ Lost :: b -> ~ In Connection b -> client l = client a.
Proof.
  assert (K : forall l m, run l m -> forall a b, l = a ++ Lost :: b -> ~ In Connection b -> client l = client a /\ forall i, m_state m <> Connected i).
  { intros l m H. induction H as [|l m x m' l' H IH SS]; intros a b E N.
    { destruct a as [|? [|]]; discriminate. }
    assert (T : forall e, l' = [e] -> e <> Lost -> e <> Connection -> exists b', b = b' ++ [e] /\ l = a ++ Lost :: b' /\ ~ In Connection b').
    { intros e -> N1 N2. destruct b as [|y b] using rev_ind; [apply app_inj_tail in E as [_ E]; congruence|]. clear IHb. rewrite app_comm_cons, app_assoc in E. apply app_inj_tail in E as [-> ->].
      exists b. repeat split. intros C. apply N. apply in_app_iff. auto. }
    unfold step in SS. destruct m as [st k]. cbn [m_state m_made] in *. destruct st as [bo|i|bo|bo|]; destruct x as [ok|u| |ok|more]; try discriminate; try (destruct i; discriminate).
    - destruct ok; injection SS as <- <-.
      + destruct b as [|y b] using rev_ind; [apply app_inj_tail in E as [_ E]; discriminate|]. rewrite app_comm_cons, app_assoc in E. apply app_inj_tail in E as [_ <-]. destruct N. apply in_app_iff. right. left. reflexivity.
      + rewrite app_nil_r in *. destruct (IH a b E N) as [I1 I2]. split; [exact I1|discriminate].
    - exfalso. assert (SS' : exists r, l' = Received u :: r /\ (r = [] \/ exists v, r = [Sent v])) by (destruct i, u; injection SS as <- <-; eauto). destruct SS' as (r & -> & R).
      assert (exists b', l = a ++ Lost :: b' /\ ~ In Connection b') as (b' & E' & N').
      { destruct R as [->|[v ->]].
        - destruct (T _ eq_refl ltac:(discriminate) ltac:(discriminate)) as (b' & _ & ? & ?). eauto.
        - replace (l ++ [Received u; Sent v]) with ((l ++ [Received u]) ++ [Sent v]) in E by (rewrite <- app_assoc; reflexivity).
          destruct b as [|y b] using rev_ind; [apply app_inj_tail in E as [_ E]; discriminate|]. clear IHb. rewrite app_comm_cons, app_assoc in E. apply app_inj_tail in E as [E _].
          destruct b as [|z b] using rev_ind; [apply app_inj_tail in E as [_ E]; discriminate|]. clear IHb. rewrite app_comm_cons, app_assoc in E. apply app_inj_tail in E as [-> _].
          exists b. split; [reflexivity|]. intros C. apply N. rewrite !in_app_iff. auto. }
      destruct (IH a b' E' N') as [_ I2]. exact (I2 i eq_refl).
    - assert (SS' : m' = Machine (Recovering None) k /\ l' = [Lost]) by (destruct i; injection SS as <- <-; auto). destruct SS' as [-> ->]. split; [|discriminate].
      destruct b as [|y b] using rev_ind; [apply app_inj_tail in E as [-> _]; rewrite client_snoc; reflexivity|]. exfalso. clear IHb. rewrite app_comm_cons, app_assoc in E. apply app_inj_tail in E as [-> _].
      assert (N' : ~ In Connection b) by (intros C; apply N; apply in_app_iff; auto). destruct (IH a b eq_refl N') as [_ I2]. exact (I2 i eq_refl).
    - destruct ok; injection SS as <- <-.
      + rewrite app_nil_r in *. destruct (IH a b E N) as [I1 I2]. split; [exact I1|discriminate].
      + destruct (T _ eq_refl ltac:(discriminate) ltac:(discriminate)) as (b' & -> & E' & N'). destruct (IH a b' E' N') as [I1 _]. split; [|discriminate]. rewrite client_snoc. exact I1.
    - injection SS as <- <-. split; [|discriminate]. replace (l ++ [Ticked bo more; Resolving]) with ((l ++ [Ticked bo more]) ++ [Resolving]) in * by (rewrite <- app_assoc; reflexivity).
      destruct b as [|y b] using rev_ind; [apply app_inj_tail in E as [_ E]; discriminate|]. clear IHb. rewrite app_comm_cons, app_assoc in E. apply app_inj_tail in E as [E _].
      destruct b as [|z b] using rev_ind; [apply app_inj_tail in E as [_ E]; discriminate|]. clear IHb. rewrite app_comm_cons, app_assoc in E. apply app_inj_tail in E as [E _].
      rewrite !client_snoc. refine (proj1 (IH a b E _)). intros C. apply N. rewrite !in_app_iff. auto. }
  intros l m a b H E N. exact (proj1 (K l m H a b E N)).
Qed.

(** Pacing *)
Definition cur (l : list event) : option nat :=
  fold_left (fun o e => match e with Ticked i more => if more then Some i else None | Connection => None | _ => o end) l None.
Lemma cur_snoc : forall l e, cur (l ++ [e]) = match e with Ticked i more => if more then Some i else None | Connection => None | _ => cur l end.
Proof. intros. unfold cur. rewrite fold_left_app. reflexivity. Qed.
Lemma cur_app_keep : forall b a, ~ In Connection b -> (forall i x, ~ In (Ticked i x) b) -> cur (a ++ b) = cur a.
Proof.
  intros b a N T. induction b as [|e b IH] using rev_ind; [rewrite app_nil_r; reflexivity|]. rewrite app_assoc, cur_snoc.
  assert (IH' : cur (a ++ b) = cur a). { apply IH; [intros C; apply N; apply in_app_iff; auto|]. intros i x C. apply (T i x). apply in_app_iff. auto. }
  destruct e; try exact IH'.
  - destruct N. apply in_app_iff. right. left. reflexivity.
  - destruct (T backoff more). apply in_app_iff. right. left. reflexivity.
Qed.
Lemma cur_app_none : forall b a, In Connection b -> (forall i x, ~ In (Ticked i x) b) -> cur (a ++ b) = None.
Proof.
  intros b a N T. induction b as [|e b IH] using rev_ind; [destruct N|]. rewrite app_assoc, cur_snoc.
  assert (T' : forall i x, ~ In (Ticked i x) b) by (intros i x C; apply (T i x); apply in_app_iff; auto).
  apply in_app_iff in N as [N|[N|[]]]; [|subst e; reflexivity]. specialize (IH N T'). destruct e; try exact IH; [reflexivity|].
  destruct (T backoff more). apply in_app_iff. right. left. reflexivity.
Qed.
Definition fresh (n : nat) (l : list event) : Prop := forall i x, In (Ticked i x) l -> i < n.
Definition new_to (n : nat) (l : list event) : Prop := forall i x, In (Ticked i x) l -> i <> n.
Definition inv2 (l : list event) (m : machine) : Prop :=
  fresh (m_made m) l /\ (forall i, cur l = Some i -> i < m_made m) /\
  match m_state m with
  | Connecting b | Recovering b => b = cur l
  | Connected _ => cur l = None
  | Backing_off b => b < m_made m /\ match cur l with Some i => b = i | None => new_to b l end
  | Failed => True
  end.
Lemma fresh_snoc : forall n l e, fresh n l -> (forall i x, e = Ticked i x -> i < n) -> fresh n (l ++ [e]).
Proof. intros n l e F E i x C. apply in_app_iff in C as [C|[C|[]]]; [exact (F i x C)|exact (E i x C)]. Qed.
Lemma inv2_run : forall l m, run l m -> inv2 l m.
Proof.
  intros l m H. induction H as [|l m a m' l' H (F & C & ST) SS].
  { split; [intros i x [E|[]]; discriminate|]. split; [discriminate|]. reflexivity. }
  unfold step in SS. destruct m as [st k]. cbn [m_state m_made] in *. destruct st as [b|i|b|b|]; destruct a as [ok|u| |ok|more]; try discriminate; try (destruct i; discriminate).
  - destruct ok; injection SS as <- <-; unfold inv2; cbn [m_state m_made].
    + rewrite cur_snoc. split; [apply fresh_snoc; [exact F|discriminate]|]. split; [discriminate|reflexivity].
    + rewrite app_nil_r. auto.
  - assert (SS' : (exists j, m_state m' = Connected j) /\ m_made m' = k /\ exists r, l' = Received u :: r /\ (r = [] \/ exists v, r = [Sent v])) by (destruct i, u; injection SS as <- <-; cbn; eauto 10).
    destruct SS' as ((j & E1) & E2 & r & -> & R). unfold inv2. rewrite E1, E2. destruct R as [->|[v ->]].
    + rewrite cur_snoc. split; [apply fresh_snoc; [exact F|discriminate]|]. split; [exact C|exact ST].
    + replace (l ++ [Received u; Sent v]) with ((l ++ [Received u]) ++ [Sent v]) by (rewrite <- app_assoc; reflexivity). rewrite !cur_snoc.
      split; [do 2 (apply fresh_snoc; [|discriminate]); exact F|]. split; [exact C|exact ST].
  - assert (SS' : m' = Machine (Recovering None) k /\ l' = [Lost]) by (destruct i; injection SS as <- <-; auto). destruct SS' as [-> ->]. unfold inv2. cbn [m_state m_made]. rewrite cur_snoc.
    split; [apply fresh_snoc; [exact F|discriminate]|]. split; [exact C|symmetry; exact ST].
  - destruct ok; injection SS as <- <-; unfold inv2; cbn [m_state m_made].
    + rewrite app_nil_r. split; [intros i x D; specialize (F i x D); lia|]. split; [intros i D; specialize (C i D); lia|].
      destruct (cur l) as [i|]; subst b; cbn.
      * specialize (C i eq_refl). split; [lia|reflexivity].
      * split; [lia|]. intros i x D. specialize (F i x D). lia.
    + rewrite cur_snoc. split; [apply fresh_snoc; [exact F|discriminate]|]. auto.
  - injection SS as <- <-. unfold inv2. cbn [m_state m_made]. destruct ST as [ST _].
    replace (l ++ [Ticked b more; Resolving]) with ((l ++ [Ticked b more]) ++ [Resolving]) by (rewrite <- app_assoc; reflexivity). rewrite !cur_snoc.
    split; [apply fresh_snoc; [|discriminate]; apply fresh_snoc; [exact F|]; intros i x [= <- _]; exact ST|]. split; [|reflexivity].
    destruct more; [|discriminate]. intros i [= <-]. exact ST.
Qed.
Lemma one : forall {A} (l : list A) x a e b, l ++ [x] = a ++ e :: b -> (l = a /\ x = e /\ b = []) \/ exists b', b = b' ++ [x] /\ l = a ++ e :: b'.
Proof.
  intros A l x a e b E. destruct b as [|y b] using rev_ind.
  - apply app_inj_tail in E as [-> ->]. auto.
  - clear IHb. rewrite app_comm_cons, app_assoc in E. apply app_inj_tail in E as [-> ->]. right. eauto.
Qed.
(** When a backoff ticks *)
Lemma ticked_at : forall l m, run l m -> forall a i x b, l = a ++ Ticked i x :: b ->
  (exists b', b = Resolving :: b') /\ exists m0, run a m0 /\ m_state m0 = Backing_off i.
Proof.
  intros l m H. induction H as [|l m ans m' l' H IH SS]; intros a i x b E.
  { destruct a as [|? [|]]; discriminate. }
  assert (K : forall e, l' = [e] -> (forall i x, e <> Ticked i x) -> (exists b', b = Resolving :: b') /\ exists m0, run a m0 /\ m_state m0 = Backing_off i).
  { intros e -> N. apply one in E as [(_ & E & _)|(b' & -> & E)]; [destruct (N i x E)|]. destruct (IH _ _ _ _ E) as [(b2 & ->) R]. split; [|exact R]. eexists. reflexivity. }
  unfold step in SS. destruct m as [st k]. cbn [m_state m_made] in *. destruct st as [bo|j|bo|bo|]; destruct ans as [ok|u| |ok|more]; try discriminate; try (destruct j; discriminate).
  - destruct ok; injection SS as <- <-; [apply (K Connection); [reflexivity|discriminate]|]. rewrite app_nil_r in *. exact (IH _ _ _ _ E).
  - assert (SS' : exists r, l' = Received u :: r /\ (r = [] \/ exists v, r = [Sent v])) by (destruct j, u; injection SS as <- <-; eauto). destruct SS' as (r & -> & [->|[v ->]]).
    + apply (K (Received u)); [reflexivity|discriminate].
    + clear K. replace (l ++ [Received u; Sent v]) with ((l ++ [Received u]) ++ [Sent v]) in E by (rewrite <- app_assoc; reflexivity).
      apply one in E as [(_ & E & _)|(b' & -> & E)]; [discriminate|]. apply one in E as [(_ & E & _)|(b2 & -> & E)]; [discriminate|].
      destruct (IH _ _ _ _ E) as [(b3 & ->) R]. split; [|exact R]. eexists. reflexivity.
  - assert (SS' : m' = Machine (Recovering None) k /\ l' = [Lost]) by (destruct j; injection SS as <- <-; auto). destruct SS' as [-> ->]. apply (K Lost); [reflexivity|discriminate].
  - destruct ok; injection SS as <- <-; [rewrite app_nil_r in *; exact (IH _ _ _ _ E)|apply (K Gave_up); [reflexivity|discriminate]].
  - injection SS as <- <-. clear K. replace (l ++ [Ticked bo more; Resolving]) with ((l ++ [Ticked bo more]) ++ [Resolving]) in E by (rewrite <- app_assoc; reflexivity).
    apply one in E as [(_ & E & _)|(b' & -> & E)]; [discriminate|]. apply one in E as [(-> & [= -> ->] & ->)|(b2 & -> & E)].
    + split; [eexists; reflexivity|]. eexists. split; [exact H|reflexivity].
    + destruct (IH _ _ _ _ E) as [(b3 & ->) R]. split; [|exact R]. eexists. reflexivity.
Qed.
(** When it is resolved *)
Lemma resolving_at : forall l m, run l m -> forall a b, l = a ++ Resolving :: b -> a = [] \/ exists a' i x, a = a' ++ [Ticked i x].
Proof.
  intros l m H. induction H as [|l m ans m' l' H IH SS]; intros a b E.
  { destruct a as [|? [|]]; [auto|discriminate|discriminate]. }
  assert (K : forall e, l' = [e] -> e <> Resolving -> a = [] \/ exists a' i x, a = a' ++ [Ticked i x]).
  { intros e -> N. apply one in E as [(_ & E & _)|(b' & -> & E)]; [congruence|]. exact (IH _ _ E). }
  unfold step in SS. destruct m as [st k]. cbn [m_state m_made] in *. destruct st as [bo|j|bo|bo|]; destruct ans as [ok|u| |ok|more]; try discriminate; try (destruct j; discriminate).
  - destruct ok; injection SS as <- <-; [apply (K Connection); [reflexivity|discriminate]|]. rewrite app_nil_r in *. exact (IH _ _ E).
  - assert (SS' : exists r, l' = Received u :: r /\ (r = [] \/ exists v, r = [Sent v])) by (destruct j, u; injection SS as <- <-; eauto). destruct SS' as (r & -> & [->|[v ->]]).
    + apply (K (Received u)); [reflexivity|discriminate].
    + clear K. replace (l ++ [Received u; Sent v]) with ((l ++ [Received u]) ++ [Sent v]) in E by (rewrite <- app_assoc; reflexivity).
      apply one in E as [(_ & E & _)|(b' & -> & E)]; [discriminate|]. apply one in E as [(_ & E & _)|(b2 & -> & E)]; [discriminate|]. exact (IH _ _ E).
  - assert (SS' : m' = Machine (Recovering None) k /\ l' = [Lost]) by (destruct j; injection SS as <- <-; auto). destruct SS' as [-> ->]. apply (K Lost); [reflexivity|discriminate].
  - destruct ok; injection SS as <- <-; [rewrite app_nil_r in *; exact (IH _ _ E)|apply (K Gave_up); [reflexivity|discriminate]].
  - injection SS as <- <-. clear K. replace (l ++ [Ticked bo more; Resolving]) with ((l ++ [Ticked bo more]) ++ [Resolving]) in E by (rewrite <- app_assoc; reflexivity).
    apply one in E as [(<- & _ & _)|(b' & -> & E)]; [right; eauto|]. apply one in E as [(_ & E & _)|(b2 & -> & E)]; [discriminate|]. exact (IH _ _ E).
Qed.
Lemma paced : forall l m a b c, run l m -> l = a ++ Resolving :: b ++ Resolving :: c -> ~ In Resolving b -> ticks b = 1.
Proof.
  intros l m a b c H E N.
  assert (E2 : l = (a ++ Resolving :: b) ++ Resolving :: c) by (rewrite E, <- app_assoc; reflexivity).
  destruct (resolving_at _ _ H _ _ E2) as [C|(a' & i & x & C)]; [destruct a; discriminate|].
  destruct b as [|e b] using rev_ind; [apply app_inj_tail in C as [_ C]; discriminate|]. clear IHb. rewrite app_comm_cons, app_assoc in C. apply app_inj_tail in C as [_ ->].
  unfold ticks. rewrite filter_app, app_length. cbn.
  assert (Z : filter (fun e => match e with Ticked _ _ => true | _ => false end) b = []).
  { destruct (filter _ b) as [|e f] eqn:F; [reflexivity|]. exfalso. assert (I : In e (filter (fun e => match e with Ticked _ _ => true | _ => false end) b)) by (rewrite F; left; reflexivity).
    apply filter_In in I as [I T]. destruct e as [| | | | |j y|]; try discriminate. apply in_split in I as (p & q & ->).
    assert (E3 : l = (a ++ Resolving :: p) ++ Ticked j y :: (q ++ [Ticked i x]) ++ Resolving :: c) by (rewrite E; repeat (rewrite <- app_assoc; cbn [app]); reflexivity).
    destruct (ticked_at _ _ H _ _ _ _ E3) as [(b' & D) _]. destruct q as [|e q]; [discriminate|]. cbn in D. injection D as -> _.
    apply N. rewrite !in_app_iff. left. right. right. left. reflexivity. }
  rewrite Z. reflexivity.
Qed.
Lemma event_dec : forall e e' : event, {e = e'} + {e <> e'}.
Proof. repeat decide equality. Qed.
Lemma same_backoff : forall l m a i b j y c, run l m -> l = a ++ Ticked i true :: b ++ Ticked j y :: c ->
  (forall k x, ~ In (Ticked k x) b) -> ~ In Connection b -> j = i.
Proof.
  intros l m a i b j y c H E T N. assert (E2 : l = (a ++ Ticked i true :: b) ++ Ticked j y :: c) by (rewrite E, <- app_assoc; reflexivity).
  destruct (ticked_at _ _ H _ _ _ _ E2) as [_ (m0 & R & ST)]. destruct (inv2_run _ _ R) as (_ & _ & I). rewrite ST in I.
  replace (a ++ Ticked i true :: b) with ((a ++ [Ticked i true]) ++ b) in I by (rewrite <- app_assoc; reflexivity). rewrite (cur_app_keep b _ N T), cur_snoc in I. tauto.
Qed.
Lemma new_backoff : forall l m a i x b j y c, run l m -> l = a ++ Ticked i x :: b ++ Ticked j y :: c ->
  (forall k x, ~ In (Ticked k x) b) -> x = false \/ In Connection b -> forall z, ~ In (Ticked j z) (a ++ [Ticked i x]).
Proof.
  intros l m a i x b j y c H E T N z C. assert (E2 : l = (a ++ Ticked i x :: b) ++ Ticked j y :: c) by (rewrite E, <- app_assoc; reflexivity).
  destruct (ticked_at _ _ H _ _ _ _ E2) as [_ (m0 & R & ST)]. destruct (inv2_run _ _ R) as (_ & _ & I). rewrite ST in I. destruct I as [_ I].
  replace (a ++ Ticked i x :: b) with ((a ++ [Ticked i x]) ++ b) in I by (rewrite <- app_assoc; reflexivity).
  assert (Q : cur ((a ++ [Ticked i x]) ++ b) = None).
  { destruct (in_dec event_dec Connection b) as [D|D]; [apply cur_app_none; assumption|].
    rewrite cur_app_keep by assumption. rewrite cur_snoc. destruct N as [->|N]; [reflexivity|contradiction]. }
  rewrite Q in I. exact (I j z (proj2 (in_app_iff _ _ _) (or_introl C)) eq_refl).
Qed.
