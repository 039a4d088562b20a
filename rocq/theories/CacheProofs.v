From Coq Require Import List Arith NArith Bool Lia ZifyBool ZifyNat ZifyN.
From Verif Require Import CacheModel CacheSpec.
Import ListNotations.

Lemma find_remove : forall k l, find_entry k (remove_entry k l) = None.
Proof.
  intros k l. unfold find_entry, remove_entry. induction l as [|[x e] l IH]; [reflexivity|]. cbn.
  destruct (x =? k) eqn:E; cbn; [exact IH|]. rewrite E. exact IH.
Qed.
Lemma find_remove_other : forall k k' l, k' <> k -> find_entry k' (remove_entry k l) = find_entry k' l.
Proof.
  intros k k' l H. unfold find_entry, remove_entry. induction l as [|[x e] l IH]; [reflexivity|]. cbn.
  destruct (x =? k) eqn:E; cbn; [|destruct (x =? k'); [reflexivity|exact IH]].
  replace (x =? k') with false by (symmetry; apply Nat.eqb_neq; apply Nat.eqb_eq in E; congruence). exact IH.
Qed.
Lemma find_set : forall k e l, find_entry k (set_entry k e l) = Some e.
Proof. intros. unfold find_entry, set_entry. cbn. rewrite Nat.eqb_refl. reflexivity. Qed.
Lemma find_set_other : forall k k' e l, k' <> k -> find_entry k' (set_entry k e l) = find_entry k' l.
Proof.
  intros k k' e l H. rewrite <- (find_remove_other k k' l H). unfold find_entry at 1, set_entry. cbn.
  replace (k =? k') with false by (symmetry; apply Nat.eqb_neq; congruence). reflexivity.
Qed.
Lemma nth_update : forall A i (f : A -> A) l j,
  nth_error (update i f l) j = if i =? j then option_map f (nth_error l j) else nth_error l j.
Proof.
  intros A i f l. revert i. induction l as [|x l IH]; intros i j; cbn.
  - destruct j; cbn; destruct (i =? _); reflexivity.
  - destruct i, j; cbn; auto.
Qed.
Lemma length_update : forall A i (f : A -> A) l, length (update i f l) = length l.
Proof. intros A i f l. revert i. induction l; intros [|i]; cbn; auto. Qed.

Lemma run_app : forall idle es fs s,
  run idle s (es ++ fs) = let (s, tr) := run idle s es in let (s', tr') := run idle s fs in (s', tr ++ tr').
Proof.
  intros idle es fs. induction es as [|e es IH]; intros s; cbn [app run].
  - destruct (run idle s fs). reflexivity.
  - destruct (step idle s e) as [s1 o]. rewrite IH. destruct (run idle s1 es) as [s2 tr]. destruct (run idle s2 fs). reflexivity.
Qed.
Lemma run_events : forall idle es s, map fst (snd (run idle s es)) = es.
Proof.
  intros idle es. induction es as [|e es IH]; intros s; cbn [run]; [reflexivity|].
  destruct (step idle s e) as [s1 o]. specialize (IH s1). destruct (run idle s1 es). cbn in *. congruence.
Qed.

Lemma clock_app : forall a b, clock (a ++ b) = (clock a + clock b)%N.
Proof. intros a b. unfold clock. induction a as [|x a IH]; cbn [app fold_right]; [reflexivity|]. rewrite IH. lia. Qed.
Lemma holders_snoc : forall h tr x, holders h (tr ++ [x]) = hold h (holders h tr) x.
Proof. intros. unfold holders. rewrite fold_left_app. reflexivity. Qed.
Lemma drops_fst : forall h tr p, fst (fold_left (drops h) tr p) = fold_left (hold h) tr (fst p).
Proof. intros h tr. induction tr as [|x tr IH]; intros [n d]; [reflexivity|]. cbn [fold_left]. rewrite IH. reflexivity. Qed.
Lemma dropping_snoc : forall h tr x, dropping h (tr ++ [x]) = snd (drops h (holders h tr, dropping h tr) x).
Proof.
  intros. unfold dropping, holders. rewrite fold_left_app. cbn [fold_left].
  pose proof (drops_fst h tr (0, 0)) as E. cbn [fst] in E. rewrite <- E. rewrite <- surjective_pairing. reflexivity.
Qed.

Definition live (x : handle) : Prop := h_task x <> Done.
(** the handles, and time *)
Record hinv (idle : N) (tr : list (event * output)) (t : N) (hs : list handle) : Prop := Hinv {
  i_now : t = clock tr;
  i_held : forall h x, nth_error hs h = Some x -> h_held x = holders h tr /\ h_dropping x = dropping h tr;
  i_none : forall h, nth_error hs h = None -> holders h tr = 0 /\ dropping h tr = 0;
  i_used : forall h x, nth_error hs h = Some x -> 0 < h_held x + h_dropping x -> live x;
  i_wait : forall h x, nth_error hs h = Some x -> h_task x = Waiting -> h_permit x = false -> 0 < h_held x;
  i_time : forall h x d, nth_error hs h = Some x -> h_task x = Timing d ->
    exists a b, tr = a ++ b /\ d = (clock a + idle)%N /\ (h_permit x = false -> ~ dropped h a b);
  i_expired : forall h x, nth_error hs h = Some x -> h_task x = Expired ->
    exists a b c, tr = a ++ b ++ c /\ (clock a + idle <= clock (a ++ b))%N /\ ~ dropped h a b }.
(** the entries *)
Record einv (es : list (key * entry)) (hs : list handle) : Prop := Einv {
  i_entry : forall k v h, find_entry k es = Some (v, Some h) ->
    exists x, nth_error hs h = Some x /\ h_key x = k /\ live x;
  i_live : forall h x, nth_error hs h = Some x -> live x ->
    exists v, find_entry (h_key x) es = Some (v, Some h) \/ find_entry (h_key x) es = Some (v, None) }.
Definition inv (idle : N) (tr : list (event * output)) (s : state) : Prop :=
  hinv idle tr (now s) (handles s) /\ einv (entries s) (handles s).

Lemma init_inv : forall idle, inv idle [] init.
Proof.
  intros idle. split; constructor; cbn; auto; try (intros; discriminate); intros [|]; discriminate.
Qed.
Lemma dropped_snoc : forall h a b x, dropped h a (b ++ [x]) <-> dropped h a b \/ (exists o, x = (Drop h, o)) /\ 0 < holders h (a ++ b).
Proof.
  intros h a b x. unfold dropped. split.
  - intros (u & o & w & E & H). destruct w as [|y w _] using rev_ind.
    + apply app_inj_tail in E as [<- ->]. right. split; [eauto|exact H].
    + replace (u ++ (Drop h, o) :: w ++ [y]) with ((u ++ (Drop h, o) :: w) ++ [y]) in E by (rewrite <- app_assoc; reflexivity).
      apply app_inj_tail in E as [-> _]. left. exists u, o, w. auto.
  - intros [(u & o & w & -> & H)|[(o & ->) H]].
    + exists u, o, (w ++ [x]). split; [rewrite <- app_assoc; reflexivity|exact H].
    + exists b, o, []. auto.
Qed.


Section Step.
  Variables (idle : N) (tr : list (event * output)) (t : N) (hs : list handle).
  Hypothesis I : hinv idle tr t hs.
  Lemma time_kept : forall h x p e o d, nth_error hs h = Some x -> h_task x = Timing d ->
    (p = false -> h_permit x = false /\ (e = Drop h -> holders h tr = 0)) ->
    exists a b, tr ++ [(e, o)] = a ++ b /\ d = (clock a + idle)%N /\ (p = false -> ~ dropped h a b).
  Proof.
    intros h x p e o d Hx T P. destruct (i_time _ _ _ _ I h x d Hx T) as (a & b & E & Hd & Hp).
    exists a, (b ++ [(e, o)]). split; [rewrite E, <- app_assoc; reflexivity|]. split; [exact Hd|].
    intros Q. destruct (P Q) as [P1 P2]. intros D. apply dropped_snoc in D as [D|[(o' & E') D]]; [exact (Hp P1 D)|].
    injection E' as -> _. rewrite <- E in D. specialize (P2 eq_refl). lia.
  Qed.
  Lemma expired_kept : forall h x e o, nth_error hs h = Some x -> h_task x = Expired ->
    exists a b c, tr ++ [(e, o)] = a ++ b ++ c /\ (clock a + idle <= clock (a ++ b))%N /\ ~ dropped h a b.
  Proof.
    intros h x e o Hx T. destruct (i_expired _ _ _ _ I h x Hx T) as (a & b & c & E & H1 & H2).
    exists a, b, (c ++ [(e, o)]). split; [rewrite E, <- !app_assoc; reflexivity|auto].
  Qed.
  (** An event that does [f] to the handle [h] *)
  Lemma hinv_step : forall e o h f,
    (forall h', h' <> h -> (forall n, hold h' n (e, o) = n) /\ (forall n d, drops h' (n, d) (e, o) = (n, d)) /\ e <> Drop h') ->
    (nth_error hs h = None -> hold h 0 (e, o) = 0 /\ snd (drops h (0, 0) (e, o)) = 0) ->
    (forall x, nth_error hs h = Some x ->
       (h_held (f x), h_dropping (f x)) = drops h (h_held x, h_dropping x) (e, o) /\
       (0 < h_held (f x) + h_dropping (f x) -> live (f x)) /\
       (h_task (f x) = Waiting -> h_permit (f x) = false -> 0 < h_held (f x)) /\
       (forall d, h_task (f x) = Timing d ->
         exists a b, tr ++ [(e, o)] = a ++ b /\ d = (clock a + idle)%N /\ (h_permit (f x) = false -> ~ dropped h a b)) /\
       (h_task (f x) = Expired -> exists a b c, tr ++ [(e, o)] = a ++ b ++ c /\ (clock a + idle <= clock (a ++ b))%N /\ ~ dropped h a b)) ->
    hinv idle (tr ++ [(e, o)]) (t + clock_of (e, o)) (update h f hs).
  Proof.
    intros e o h f Hother Hnone Hthis.
    assert (O : forall h' x, nth_error (update h f hs) h' = Some x ->
      (h' <> h /\ nth_error hs h' = Some x) \/ (h' = h /\ exists y, nth_error hs h = Some y /\ x = f y)).
    { intros h' x. rewrite nth_update. destruct (h =? h') eqn:E.
      - apply Nat.eqb_eq in E. subst h'. destruct (nth_error hs h) as [y|] eqn:Y; [|discriminate]. intros H. injection H as <-. right. eauto.
      - apply Nat.eqb_neq in E. auto. }
    constructor.
    - rewrite clock_app, (i_now _ _ _ _ I). unfold clock at 3. cbn [fold_right]. lia.
    - intros h' x Hx. rewrite holders_snoc, dropping_snoc. destruct (O h' x Hx) as [[N H]|[-> (y & Hy & ->)]].
      + destruct (Hother h' N) as (H1 & H2 & _). rewrite H1, H2. apply (i_held _ _ _ _ I). exact H.
      + destruct (Hthis y Hy) as [E _]. destruct (i_held _ _ _ _ I h y Hy) as [E1 E2]. rewrite <- E1, <- E2, <- E.
        cbn [snd]. split; [|reflexivity]. pose proof (f_equal fst E) as E'. cbn [fst] in E'. rewrite E'. unfold drops. reflexivity.
    - intros h' Hx. rewrite nth_update in Hx. rewrite holders_snoc, dropping_snoc. destruct (h =? h') eqn:E.
      + apply Nat.eqb_eq in E. subst h'. destruct (nth_error hs h) eqn:Y; [discriminate|].
        destruct (i_none _ _ _ _ I h Y) as [-> ->]. auto.
      + apply Nat.eqb_neq in E. destruct (Hother h' (not_eq_sym E)) as (H1 & H2 & _). rewrite H1, H2. apply (i_none _ _ _ _ I). exact Hx.
    - intros h' x Hx. destruct (O h' x Hx) as [[N H]|[-> (y & Hy & ->)]]; [apply (i_used _ _ _ _ I h' x H)|apply (Hthis y Hy)].
    - intros h' x Hx. destruct (O h' x Hx) as [[N H]|[-> (y & Hy & ->)]]; [apply (i_wait _ _ _ _ I h' x H)|apply (Hthis y Hy)].
    - intros h' x d Hx T. destruct (O h' x Hx) as [[N H]|[-> (y & Hy & ->)]]; [|apply (Hthis y Hy); exact T].
      apply (time_kept h' x (h_permit x) e o d H T). intros P. split; [exact P|]. intros ->. destruct (Hother h' N) as (_ & _ & C). congruence.
    - intros h' x Hx T. destruct (O h' x Hx) as [[N H]|[-> (y & Hy & ->)]]; [|apply (Hthis y Hy); exact T].
      apply (expired_kept h' x e o H T).
  Qed.
End Step.

Lemma update_keeps : forall h (f : handle -> handle) hs es,
  (forall x, nth_error hs h = Some x -> h_key (f x) = h_key x /\ (live (f x) <-> live x)) -> einv es hs -> einv es (update h f hs).
Proof.
  intros h f hs es Hf [E1 E2]. split.
  - intros k v h' H. destruct (E1 k v h' H) as (x & Hx & Hk & Hl). rewrite nth_update. destruct (h =? h') eqn:E.
    + apply Nat.eqb_eq in E. subst h'. rewrite Hx. exists (f x). destruct (Hf x Hx) as [F1 F2]. repeat split; [congruence|apply F2; exact Hl].
    + eauto.
  - intros h' x Hx Hl. rewrite nth_update in Hx. destruct (h =? h') eqn:E; [|eauto].
    apply Nat.eqb_eq in E. subst h'. destruct (nth_error hs h) as [y|] eqn:Y; [|discriminate]. cbn in Hx. injection Hx as <-.
    destruct (Hf y eq_refl) as [F1 F2]. rewrite F1. apply (E2 h y Y). apply F2. exact Hl.
Qed.
(** An event that does nothing to the handles *)
Definition idle_event (e : event) (o : output) : Prop :=
  match e with Clone _ | Drop _ | Release _ | Poll _ | Lock _ => False | _ => True end /\
  forall v h, o <> Got (Some (v, Some h)).
Lemma hold_idle : forall e o h n, idle_event e o -> hold h n (e, o) = n.
Proof. intros e o h n [H1 H2]. destruct e; try contradiction; destruct o as [|[[v' [h'|]]|]| |]; try reflexivity; exfalso; eapply H2; reflexivity. Qed.
Lemma drops_idle : forall e o h n d, idle_event e o -> drops h (n, d) (e, o) = (n, d).
Proof. intros e o h n d H. unfold drops. rewrite hold_idle by exact H. destruct H as [H _]. destruct e; try contradiction; reflexivity. Qed.
Lemma hinv_idle : forall idle tr t hs e o, hinv idle tr t hs -> idle_event e o -> hinv idle (tr ++ [(e, o)]) (t + clock_of (e, o)) hs.
Proof.
  intros idle tr t hs e o I H.
  assert (U : update (length hs) (fun x => x) hs = hs) by (clear; induction hs; cbn; congruence).
  rewrite <- U. apply hinv_step; [exact I|..].
  - intros h' _. split; [intros; apply hold_idle; exact H|]. split; [intros; apply drops_idle; exact H|]. intros ->. destruct H as [[] _].
  - intros _. rewrite hold_idle, drops_idle by exact H. auto.
  - intros x Hx. exfalso. assert (C : nth_error hs (length hs) <> None) by congruence.
    apply nth_error_Some in C. lia.
Qed.
Lemma acquire_inv : forall idle tr t hs h e v k es, hinv idle tr t hs -> looked_up k e ->
  (exists x, nth_error hs h = Some x /\ live x) -> einv es hs ->
  hinv idle (tr ++ [(e, Got (Some (v, Some h)))]) t (update h acquire hs) /\ einv es (update h acquire hs).
Proof.
  intros idle tr t hs h e v k es I L (x0 & Hx0 & Hl0) E. split.
  - replace t with (t + clock_of (e, Got (Some (v, Some h))))%N at 1 by (destruct L as [->|(w & ->)]; cbn; lia).
    apply hinv_step; [exact I|..].
    + intros h' N. apply Nat.eqb_neq in N. unfold drops, hold. rewrite N. cbn [fst].
      destruct L as [->|(w & ->)]; repeat split; discriminate.
    + congruence.
    + intros x Hx. assert (x = x0) by congruence. subst x0. unfold drops, hold. rewrite Nat.eqb_refl. unfold acquire, live. cbn.
      split; [destruct L as [->|(w & ->)]; reflexivity|]. split; [intros _; exact Hl0|]. split; [intros; lia|]. split.
      * intros d T. eapply (time_kept _ _ _ _ I); eauto. intros P. split; [exact P|]. intros ->. destruct L as [L|(w & L)]; discriminate.
      * intros T. eapply (expired_kept _ _ _ _ I); eauto.
  - apply update_keeps; [|exact E]. intros x Hx. split; reflexivity.
Qed.
Lemma cached_inv : forall idle tr s e k en, inv idle tr s -> looked_up k e -> find_entry k (entries s) = Some en ->
  let (s', o) := cached s en in inv idle (tr ++ [(e, o)]) s' /\ o = Got (Some en) /\ entries s' = entries s.
Proof.
  intros idle tr s e k [v [h|]] [I E] L F; unfold cached; cbn [snd].
  - destruct (i_entry _ _ E k v h F) as (x & Hx & Hk & Hl). rewrite Hx.
    replace (strong x =? 0) with false.
    + split; [|split; reflexivity]. apply (acquire_inv idle tr (now s) (handles s) h e v k (entries s)); eauto.
    + symmetry. apply Nat.eqb_neq. unfold strong. unfold live in Hl. destruct (h_task x); cbn; try lia. congruence.
  - split; [|split; reflexivity]. split; [|exact E].
    replace (now s) with (now s + clock_of (e, Got (Some (v, None))))%N by (destruct L as [->|(w & ->)]; cbn; lia).
    apply hinv_idle; [exact I|]. split; [destruct L as [->|(w & ->)]; exact Logic.I|]. intros v' h' C. discriminate.
Qed.
Lemma on_inv : forall idle tr s e h f, inv idle tr s -> e = Clone h \/ e = Drop h \/ e = Release h \/ e = Poll h \/ e = Lock h ->
  (nth_error (handles s) h <> None -> forall x, nth_error (handles s) h = Some x ->
       (h_held (f x), h_dropping (f x)) = drops h (h_held x, h_dropping x) (e, Nothing) /\
       (h_task (f x) = h_task x /\ (h_permit (f x) = h_permit x /\ (e = Drop h -> h_held x = 0) \/ h_permit (f x) = true) \/
        h_task x = Waiting /\ h_permit x = true /\ h_task (f x) = Timing (now s + idle) /\ e <> Drop h \/
        (exists d, h_task x = Timing d /\ h_permit x = true /\ h_task (f x) = Timing (now s + idle) /\ e <> Drop h) \/
        h_task x = Expired /\ h_task (f x) = Timing (now s + idle) /\ e <> Drop h \/
        (exists d, h_task x = Timing d /\ h_permit x = false /\ (d <= now s)%N /\ h_task (f x) = Expired /\ e <> Drop h)) /\
       h_key (f x) = h_key x /\ (h_task (f x) = Waiting -> h_permit (f x) = false -> 0 < h_held (f x)) /\
       (0 < h_held (f x) + h_dropping (f x) -> 0 < h_held x + h_dropping x)) ->
  inv idle (tr ++ [(e, Nothing)]) (fst (on_handle s h f)).
Proof.
  intros idle tr s e h f [I E] He Hf. unfold on_handle. cbn [fst]. split; cbn [now handles entries].
  - replace (now s) with (now s + clock_of (e, Nothing))%N by (destruct He as [->|[->|[->|[->| ->]]]]; cbn; lia).
    apply hinv_step; [exact I|..].
    + intros h' N. unfold drops, hold. apply Nat.eqb_neq in N as N'.
      destruct He as [->|[->|[->|[->| ->]]]]; cbn [fst]; rewrite ?N'; repeat split; congruence.
    + intros _. unfold drops, hold. destruct He as [->|[->|[->|[->| ->]]]]; cbn [fst snd]; rewrite ?Nat.eqb_refl; split; reflexivity.
    + intros x Hx. destruct (Hf ltac:(congruence) x Hx) as (H1 & H2 & H3 & H4 & H5). split; [exact H1|].
      assert (NEW : forall p, exists a b, tr ++ [(e, Nothing)] = a ++ b /\ (now s + idle)%N = (clock a + idle)%N /\ (p = false -> ~ dropped h a b)).
      { intros p. exists (tr ++ [(e, Nothing)]), []. rewrite app_nil_r. split; [reflexivity|]. split.
        - rewrite clock_app, (i_now _ _ _ _ I). destruct He as [->|[->|[->|[->| ->]]]]; cbn; lia.
        - intros _ ([|] & o & b & C & _); discriminate. }
      split; [|split; [exact H4|split]].
      * intros U. apply H5 in U. pose proof (i_used _ _ _ _ I h x Hx U) as Hl. unfold live in *.
        destruct H2 as [[T2 _]|[(T1 & _ & T2 & _)|[(d & T1 & _ & T2 & _)|[(T1 & T2 & _)|(d & T1 & _ & _ & T2 & _)]]]]; congruence.
      * intros d T. destruct H2 as [[T1 P]|[(T1 & P & T2 & D)|[(d' & T1 & P & T2 & D)|[(T1 & T2 & D)|(d' & T1 & P & L & T2 & D)]]]].
        -- eapply (time_kept _ _ _ _ I); eauto; [congruence|]. intros Q. destruct P as [[P1 P2]|P]; [|congruence].
           split; [congruence|]. intros C. destruct (i_held _ _ _ _ I h x Hx) as [<- _]. auto.
        -- assert (d = (now s + idle)%N) by congruence. subst d. apply NEW.
        -- assert (d = (now s + idle)%N) by congruence. subst d. apply NEW.
        -- assert (d = (now s + idle)%N) by congruence. subst d. apply NEW.
        -- congruence.
      * intros T. destruct H2 as [[T1 P]|[(T1 & P & T2 & D)|[(d' & T1 & P & T2 & D)|[(T1 & T2 & D)|(d' & T1 & P & L & T2 & D)]]]]; try congruence.
        -- eapply (expired_kept _ _ _ _ I); eauto. congruence.
        -- destruct (i_time _ _ _ _ I h x d' Hx T1) as (a & b & E' & Hd & Hp).
           exists a, b, [(e, Nothing)]. split; [rewrite E', <- app_assoc; reflexivity|]. split; [|auto].
           rewrite <- E', <- (i_now _ _ _ _ I), <- Hd. exact L.
  - apply update_keeps; [|exact E]. intros x Hx. destruct (Hf ltac:(congruence) x Hx) as (_ & H2 & H3 & _). split; [exact H3|]. unfold live.
    destruct H2 as [[T2 _]|[(T1 & _ & T2 & _)|[(d & T1 & _ & T2 & _)|[(T1 & T2 & _)|(d & T1 & _ & _ & T2 & _)]]]]; split; congruence.
Qed.
Lemma step_inv : forall idle tr s e, inv idle tr s -> let (s', o) := step idle s e in inv idle (tr ++ [(e, o)]) s' /\ o <> Panicked.
Proof.
  intros idle tr s e Inv. pose proof Inv as [I E]. destruct e as [d|k|k v|k v|h|h|h|h|h]; cbn [step].
  - split; [|discriminate]. split; [|exact E]. cbn [now handles]. apply (hinv_idle idle tr (now s) (handles s) (Tick d) Nothing I). split; [exact Logic.I|discriminate].
  - unfold get. destruct (find_entry k (entries s)) as [en|] eqn:F.
    + pose proof (cached_inv idle tr s (Get k) k en Inv (or_introl eq_refl) F) as C. destruct (cached s en) as [s' o].
      destruct C as (C1 & -> & _). split; [exact C1|discriminate].
    + split; [|discriminate]. split; [|exact E]. rewrite <- (N.add_0_r (now s)).
      apply (hinv_idle idle tr (now s) (handles s) (Get k) (Got None) I). split; [exact Logic.I|discriminate].
  - unfold insert. destruct (find_entry k (entries s)) as [en|] eqn:F.
    + pose proof (cached_inv idle tr s (Insert k v) k en Inv (or_intror (ex_intro _ v eq_refl)) F) as C. destruct (cached s en) as [s' o].
      destruct C as (C1 & -> & _). split; [exact C1|discriminate].
    + split; [|discriminate]. set (h := length (handles s)). set (o := Got (Some (v, Some h))).
      assert (Nh : nth_error (handles s) h = None) by (apply nth_error_None; unfold h; lia).
      assert (NX : forall h' x, nth_error (handles s ++ [Handle k 1 0 false Waiting]) h' = Some x ->
        nth_error (handles s) h' = Some x /\ h' <> h \/ h' = h /\ x = Handle k 1 0 false Waiting).
      { intros h' x Hx. destruct (Nat.lt_ge_cases h' h) as [L|L]; [rewrite nth_error_app1 in Hx by exact L; left; split; [exact Hx|lia]|].
        rewrite nth_error_app2 in Hx by exact L. fold h in Hx. destruct (h' - h) as [|n] eqn:D; [|destruct n; discriminate].
        injection Hx as <-. right. split; [lia|reflexivity]. }
      assert (HO : forall h' n, h' <> h -> hold h' n (Insert k v, o) = n) by (intros h' n N; unfold hold, o; apply Nat.eqb_neq in N; rewrite N; reflexivity).
      split; cbn [now handles entries].
      * constructor.
        -- rewrite clock_app, (i_now _ _ _ _ I). cbn. lia.
        -- intros h' x Hx. rewrite holders_snoc, dropping_snoc. unfold drops. cbn [snd fst]. destruct (NX h' x Hx) as [[H N]|[-> ->]].
           ++ rewrite HO by exact N. apply (i_held _ _ _ _ I). exact H.
           ++ destruct (i_none _ _ _ _ I h Nh) as [-> ->]. unfold hold, o. rewrite Nat.eqb_refl. auto.
        -- intros h' Hx. apply nth_error_None in Hx. rewrite app_length in Hx. cbn in Hx. rewrite holders_snoc, dropping_snoc. unfold drops. cbn [snd fst].
           rewrite HO by (unfold h; lia). apply (i_none _ _ _ _ I). apply nth_error_None. lia.
        -- intros h' x Hx. destruct (NX h' x Hx) as [[H N]|[-> ->]]; [apply (i_used _ _ _ _ I h' x H)|]. intros _ C. discriminate.
        -- intros h' x Hx. destruct (NX h' x Hx) as [[H N]|[-> ->]]; [apply (i_wait _ _ _ _ I h' x H)|]. cbn. intros; lia.
        -- intros h' x d Hx T. destruct (NX h' x Hx) as [[H N]|[-> ->]]; [|discriminate].
           apply (time_kept _ _ _ _ I h' x (h_permit x) (Insert k v) o d H T). intros P. split; [exact P|discriminate].
        -- intros h' x Hx T. destruct (NX h' x Hx) as [[H N]|[-> ->]]; [|discriminate]. apply (expired_kept _ _ _ _ I h' x _ _ H T).
      * split.
        -- intros k' v' h' F'. destruct (Nat.eq_dec k' k) as [->|N].
           ++ rewrite find_set in F'. injection F' as <- <-. exists (Handle k 1 0 false Waiting). split; [|split; [reflexivity|discriminate]].
              rewrite nth_error_app2 by (unfold h; lia). replace (h - length (handles s)) with 0 by (unfold h; lia). reflexivity.
           ++ rewrite find_set_other in F' by exact N. destruct (i_entry _ _ E k' v' h' F') as (x & Hx & R). exists x. split; [|exact R].
              rewrite nth_error_app1; [exact Hx|]. apply nth_error_Some. congruence.
        -- intros h' x Hx Hl. destruct (NX h' x Hx) as [[H N]|[-> ->]].
           ++ destruct (i_live _ _ E h' x H Hl) as (w & F'). exists w. rewrite find_set_other; [exact F'|]. intros C. rewrite C, F in F'. destruct F'; discriminate.
           ++ exists v. left. cbn [h_key]. apply find_set.
  - unfold insert_permanent. split; [|discriminate]. split; cbn [now handles entries].
    + rewrite <- (N.add_0_r (now s)). apply (hinv_idle idle tr (now s) (handles s) (Permanent k v) Nothing I). split; [exact Logic.I|discriminate].
    + split.
      * intros k' v' h' F'. destruct (Nat.eq_dec k' k) as [->|N]; [rewrite find_set in F'; discriminate|].
        rewrite find_set_other in F' by exact N. exact (i_entry _ _ E k' v' h' F').
      * intros h' x Hx Hl. destruct (Nat.eq_dec (h_key x) k) as [->|N]; [exists v; right; apply find_set|].
        destruct (i_live _ _ E h' x Hx Hl) as (w & F'). exists w. rewrite find_set_other by exact N. exact F'.
  - split; [|discriminate]. apply on_inv; [exact Inv|auto|]. intros _ x Hx. unfold clone, drops, hold. rewrite Nat.eqb_refl. cbn [fst].
    destruct (h_held x) eqn:H; cbn [acquire h_held h_dropping h_task h_permit h_key]; rewrite ?H, ?Nat.eqb_refl.
    + split; [congruence|]. split; [left; split; [reflexivity|left; split; [reflexivity|discriminate]]|].
      split; [reflexivity|]. split; [|lia]. intros T P. pose proof (i_wait _ _ _ _ I h x Hx T P). lia.
    + split; [congruence|]. split; [left; split; [reflexivity|left; split; [reflexivity|discriminate]]|]. split; [reflexivity|]. split; intros; lia.
  - split; [|discriminate]. apply on_inv; [exact Inv|auto|]. intros _ x Hx. unfold drop, drops, hold. rewrite Nat.eqb_refl. cbn [fst].
    destruct (h_held x) eqn:H; cbn [h_held h_dropping h_task h_permit h_key pred]; rewrite ?H, ?Nat.eqb_refl.
    + split; [congruence|]. split; [left; split; [reflexivity|left; split; reflexivity]|].
      split; [reflexivity|]. split; [|lia]. intros T P. pose proof (i_wait _ _ _ _ I h x Hx T P). lia.
    + split; [congruence|]. split; [left; split; [reflexivity|right; reflexivity]|]. split; [reflexivity|]. split; [discriminate|lia].
  - split; [|discriminate]. apply on_inv; [exact Inv|auto|]. intros _ x Hx. unfold release, drops, hold. cbn [fst h_held h_dropping h_task h_permit h_key]. rewrite ?Nat.eqb_refl.
    split; [congruence|]. split; [left; split; [reflexivity|left; split; [reflexivity|discriminate]]|].
    split; [reflexivity|]. split; [exact (i_wait _ _ _ _ I h x Hx)|lia].
  - split; [|discriminate]. apply on_inv; [exact Inv|auto|]. intros _ x Hx. unfold drops, hold. cbn [fst].
    unfold poll. destruct (h_task x) as [|d| |] eqn:T.
    + destruct (h_permit x) eqn:P; cbn [h_held h_dropping h_task h_permit h_key].
      * split; [reflexivity|]. split; [right; left; repeat split; discriminate|]. split; [reflexivity|]. split; [discriminate|auto].
      * rewrite T, P. split; [reflexivity|]. split; [left; split; [reflexivity|left; split; [reflexivity|discriminate]]|]. split; [reflexivity|]. split; [|auto].
        intros _ _. exact (i_wait _ _ _ _ I h x Hx T P).
    + destruct (h_permit x) eqn:P; [|destruct (d <=? now s)%N eqn:L]; cbn [h_held h_dropping h_task h_permit h_key].
      * split; [reflexivity|]. split; [right; right; left; exists d; repeat split; discriminate|]. split; [reflexivity|]. split; [discriminate|auto].
      * split; [reflexivity|]. split; [right; right; right; right; exists d; repeat split; [apply N.leb_le; exact L|discriminate]|]. split; [reflexivity|]. split; [discriminate|auto].
      * rewrite T, P. split; [reflexivity|]. split; [left; split; [reflexivity|left; split; [reflexivity|discriminate]]|]. split; [reflexivity|]. split; [discriminate|auto].
    + rewrite T. split; [reflexivity|]. split; [left; split; [reflexivity|left; split; [reflexivity|discriminate]]|]. split; [reflexivity|]. split; [discriminate|auto].
    + rewrite T. split; [reflexivity|]. split; [left; split; [reflexivity|left; split; [reflexivity|discriminate]]|]. split; [reflexivity|]. split; [discriminate|auto].
  - assert (SAME : inv idle (tr ++ [(Lock h, Nothing)]) s).
    { assert (U : update h (fun x => x) (handles s) = handles s) by (generalize (handles s); clear; intros hs; revert h; induction hs; intros [|h]; cbn; congruence).
      replace s with (fst (on_handle s h (fun x => x))) at 1 by (unfold on_handle; cbn [fst]; rewrite U; destruct s; reflexivity).
      apply on_inv; [exact Inv|auto 6|]. intros _ x Hx. split; [reflexivity|]. split; [left; split; [reflexivity|left; split; [reflexivity|discriminate]]|].
      split; [reflexivity|]. split; [exact (i_wait _ _ _ _ I h x Hx)|auto]. }
    unfold lock. destruct (nth_error (handles s) h) as [x|] eqn:Hx; [|split; [exact SAME|discriminate]].
    destruct (h_task x) eqn:T; try (split; [exact SAME|discriminate]).
    destruct (strong x =? 1) eqn:S1.
    + set (f := fun x : handle => _). apply Nat.eqb_eq in S1. unfold strong in S1. rewrite T in S1. cbn in S1.
      assert (DONE : forall o, (forall v h', o <> Got (Some (v, Some h'))) -> hinv idle (tr ++ [(Lock h, o)]) (now s) (update h f (handles s))).
      { intros o No. rewrite <- (N.add_0_r (now s)). apply (hinv_step _ _ _ _ I (Lock h) o h f).
        - intros h' _. unfold drops, hold. cbn [fst]. destruct o as [|[[v [h2|]]|]| |]; repeat split; try discriminate; try reflexivity; exfalso; eapply No; reflexivity.
        - intros _. unfold drops, hold. cbn [fst snd]. destruct o as [|[[v [h2|]]|]| |]; split; try reflexivity; exfalso; eapply No; reflexivity.
        - intros y Hy. assert (y = x) by congruence. subst y. unfold f. cbn [h_held h_dropping h_task h_permit]. split.
          + unfold drops, hold. cbn [fst]. destruct o as [|[[v [h2|]]|]| |]; try reflexivity; exfalso; eapply No; reflexivity.
          + split; [lia|]. repeat split; intros; discriminate. }
      assert (Hl : live x) by (unfold live; congruence).
      destruct (i_live _ _ E h x Hx Hl) as (v & [F|F]); rewrite F.
      * split; [|discriminate]. split; cbn [now handles entries]; [apply DONE; discriminate|]. split.
        -- intros k' v' h' F'. destruct (Nat.eq_dec k' (h_key x)) as [->|N]; [rewrite find_remove in F'; discriminate|].
           rewrite find_remove_other in F' by exact N. destruct (i_entry _ _ E k' v' h' F') as (y & Hy & Hk & Hl').
           exists y. rewrite nth_update. destruct (h =? h') eqn:Eh; [|auto]. apply Nat.eqb_eq in Eh. subst h'. congruence.
        -- intros h' y Hy Hl'. rewrite nth_update in Hy. destruct (h =? h') eqn:Eh.
           ++ apply Nat.eqb_eq in Eh. subst h'. rewrite Hx in Hy. injection Hy as <-. exfalso. apply Hl'. reflexivity.
           ++ destruct (i_live _ _ E h' y Hy Hl') as (w & F'). exists w. apply Nat.eqb_neq in Eh.
              rewrite find_remove_other; [exact F'|]. intros C. rewrite C, F in F'. destruct F' as [F'|F']; [|discriminate]. congruence.
      * split; [|discriminate]. split; cbn [now handles entries]; [apply DONE; discriminate|]. split.
        -- intros k' v' h' F'. destruct (i_entry _ _ E k' v' h' F') as (y & Hy & Hk & Hl').
           exists y. rewrite nth_update. destruct (h =? h') eqn:Eh; [|auto]. apply Nat.eqb_eq in Eh. subst h'. congruence.
        -- intros h' y Hy Hl'. rewrite nth_update in Hy. destruct (h =? h') eqn:Eh.
           ++ apply Nat.eqb_eq in Eh. subst h'. rewrite Hx in Hy. injection Hy as <-. exfalso. apply Hl'. reflexivity.
           ++ exact (i_live _ _ E h' y Hy Hl').
    + split; [|discriminate]. apply (on_inv idle tr s (Lock h) h _ Inv); [auto 6|]. intros _ y Hy. assert (y = x) by congruence. subst y.
      cbn [h_held h_dropping h_task h_permit h_key]. split; [reflexivity|]. split; [right; right; right; left; repeat split; [exact T|discriminate]|].
      split; [reflexivity|]. split; [discriminate|auto].
Qed.

(** ** Whole runs *)
Lemma trace_split : forall idle es a e o b, trace idle es = a ++ (e, o) :: b ->
  exists s s' fs, inv idle a s /\ step idle s e = (s', o) /\ run idle s' fs = (fst (run idle init es), b) /\
    es = map fst a ++ e :: fs /\ run idle init (map fst a) = (s, a).
Proof.
  intros idle es a e o b. unfold trace.
  enough (G : forall es s0 tr0 a, inv idle tr0 s0 -> snd (run idle s0 es) = a ++ (e, o) :: b ->
    exists s s' fs, inv idle (tr0 ++ a) s /\ step idle s e = (s', o) /\ run idle s' fs = (fst (run idle s0 es), b) /\
      es = map fst a ++ e :: fs /\ run idle s0 (map fst a) = (s, a)).
  { intros H. destruct (G es init [] a (init_inv idle) H) as (s & s' & fs & R). exists s, s', fs. exact R. }
  clear. induction es as [|x es IH]; intros s0 tr0 a I H; [destruct a; discriminate|].
  cbn [run] in H |- *. destruct (step idle s0 x) as [s1 o1] eqn:S. pose proof (step_inv idle tr0 s0 x I) as I1. rewrite S in I1. destruct I1 as [I1 _].
  destruct (run idle s1 es) as [s2 tr2] eqn:R. cbn [snd fst] in H |- *. destruct a as [|y a].
  - injection H as -> -> ->. exists s0, s1, es. rewrite app_nil_r. cbn [map app run]. auto.
  - injection H as <- H. specialize (IH s1 (tr0 ++ [(x, o1)]) a I1). rewrite R in IH. cbn [snd fst] in IH.
    destruct (IH H) as (s & s' & fs & H1 & H2 & H3 & H4 & H5). exists s, s', fs. rewrite <- app_assoc in H1.
    split; [exact H1|]. split; [exact H2|]. split; [exact H3|]. split; [cbn [map fst app]; congruence|].
    cbn [map fst run]. rewrite S, H5. reflexivity.
Qed.
Theorem never_panics : forall idle es e, ~ In (e, Panicked) (trace idle es).
Proof.
  intros idle es e H. apply in_split in H as (a & b & H). destruct (trace_split _ _ _ _ _ _ H) as (s & s' & fs & I & S & _).
  pose proof (step_inv idle a s e I) as Q. rewrite S in Q. destruct Q as [_ Q]. congruence.
Qed.
Theorem run_inv : forall idle es, inv idle (trace idle es) (fst (run idle init es)).
Proof.
  intros idle es. unfold trace. enough (G : forall es s tr, inv idle tr s -> inv idle (tr ++ snd (run idle s es)) (fst (run idle s es))) by (apply (G es init []); apply init_inv).
  clear. induction es as [|e es IH]; intros s tr I; cbn [run]; [rewrite app_nil_r; exact I|].
  pose proof (step_inv idle tr s e I) as I1. destruct (step idle s e) as [s1 o]. destruct I1 as [I1 _].
  specialize (IH s1 _ I1). destruct (run idle s1 es). cbn [fst snd] in *. rewrite <- app_assoc in IH. exact IH.
Qed.
(** What an event does to an entry *)
Lemma entry_step : forall idle tr s e s' o k en, inv idle tr s -> step idle s e = (s', o) -> find_entry k (entries s) = Some en ->
  (forall v, e <> Permanent k v) -> (forall h, snd en = Some h -> 0 < holders h tr) -> find_entry k (entries s') = Some en.
Proof.
  intros idle tr s e s' o k en Inv S F NP U. pose proof Inv as [I E].
  destruct e as [d|k'|k' v|k' v|h|h|h|h|h]; cbn [step] in S; try (injection S as <- <-; exact F).
  - unfold get in S. destruct (find_entry k' (entries s)) as [en'|] eqn:F'; [|injection S as <- <-; exact F].
    pose proof (cached_inv idle tr s (Get k') k' en' Inv (or_introl eq_refl) F') as C. rewrite S in C. destruct C as (_ & _ & ->). exact F.
  - unfold insert in S. destruct (find_entry k' (entries s)) as [en'|] eqn:F'.
    + pose proof (cached_inv idle tr s (Insert k' v) k' en' Inv (or_intror (ex_intro _ v eq_refl)) F') as C. rewrite S in C. destruct C as (_ & _ & ->). exact F.
    + injection S as <- <-. cbn [entries]. rewrite find_set_other; [exact F|]. congruence.
  - unfold insert_permanent in S. injection S as <- <-. cbn [entries]. rewrite find_set_other; [exact F|]. intros ->. eapply NP. reflexivity.
  - unfold lock in S. destruct (nth_error (handles s) h) as [x|] eqn:Hx; [|injection S as <- <-; exact F].
    destruct (h_task x) eqn:T; try (injection S as <- <-; exact F).
    destruct (strong x =? 1) eqn:S1; [|injection S as <- <-; exact F].
    destruct (find_entry (h_key x) (entries s)) as [[v [h'|]]|] eqn:F'; injection S as <- <-; try exact F. cbn [entries].
    destruct (Nat.eq_dec k (h_key x)) as [->|N]; [|rewrite find_remove_other by exact N; exact F].
    exfalso. rewrite F' in F. injection F as <-. destruct (i_live _ _ E h x Hx) as (w & [F|F]); [unfold live; congruence| |congruence].
    rewrite F' in F. injection F as -> ->. specialize (U h eq_refl). destruct (i_held _ _ _ _ I h x Hx) as [H _].
    apply Nat.eqb_eq in S1. unfold strong in S1. rewrite T in S1. cbn in S1. lia.
Qed.
Lemma entry_run : forall idle fs tr s s' b k en, inv idle tr s -> run idle s fs = (s', b) -> find_entry k (entries s) = Some en ->
  never_permanent k b -> (forall h, snd en = Some h -> held_throughout h tr b) -> find_entry k (entries s') = Some en.
Proof.
  intros idle fs. induction fs as [|e fs IH]; intros tr s s' b k en I R F NP U; cbn [run] in R; [injection R as <- <-; exact F|].
  destruct (step idle s e) as [s1 o] eqn:S. destruct (run idle s1 fs) as [s2 tr2] eqn:R2. injection R as <- <-.
  pose proof (step_inv idle tr s e I) as I1. rewrite S in I1. destruct I1 as [I1 _].
  apply (IH (tr ++ [(e, o)]) s1 s2 tr2 k en I1 R2).
  - apply (entry_step idle tr s e s1 o k en I S F).
    + intros v ->. apply (NP v o). left. reflexivity.
    + intros h Hh. specialize (U h Hh [] _ eq_refl). rewrite app_nil_r in U. exact U.
  - intros v o' H. apply (NP v o'). right. exact H.
  - intros h Hh a b' E. subst tr2. specialize (U h Hh ((e, o) :: a) b' eq_refl). rewrite <- app_assoc. exact U.
Qed.
Lemma lookup_entry : forall idle tr s e s' o k, inv idle tr s -> step idle s e = (s', o) -> looked_up k e ->
  (forall en, o = Got (Some en) -> find_entry k (entries s') = Some en) /\
  (forall en, find_entry k (entries s) = Some en -> o = Got (Some en)).
Proof.
  intros idle tr s e s' o k I S L.
  assert (C : forall en, find_entry k (entries s) = Some en -> cached s en = (s', o) ->
    (forall en, o = Got (Some en) -> find_entry k (entries s') = Some en) /\ (forall en, find_entry k (entries s) = Some en -> o = Got (Some en))).
  { intros en F C. pose proof (cached_inv idle tr s e k en I L F) as Q. rewrite C in Q. destruct Q as (_ & -> & ->).
    split; intros en' H; congruence. }
  destruct L as [->|(v & ->)]; cbn [step] in S; [unfold get in S|unfold insert in S]; destruct (find_entry k (entries s)) as [en|] eqn:F; eauto.
  - injection S as <- <-. split; intros; discriminate.
  - injection S as <- <-. split; [|discriminate]. intros en H. injection H as <-. cbn [entries]. apply find_set.
Qed.
Theorem same_value : forall idle es a b c k e1 e2 v h o,
  trace idle es = a ++ (e1, Got (Some (v, Some h))) :: b ++ (e2, o) :: c -> looked_up k e1 -> looked_up k e2 ->
  held_throughout h (a ++ [(e1, Got (Some (v, Some h)))]) b -> never_permanent k b -> o = Got (Some (v, Some h)).
Proof.
  intros idle es a b c k e1 e2 v h o T L1 L2 U NP. set (o1 := Got _) in *.
  pose proof T as T2. replace (a ++ (e1, o1) :: b ++ (e2, o) :: c) with ((a ++ (e1, o1) :: b) ++ (e2, o) :: c) in T2 by (rewrite <- app_assoc; reflexivity).
  destruct (trace_split _ _ _ _ _ _ T2) as (s2 & s2' & fs2 & I2 & S2 & R2 & E2 & P2).
  apply (lookup_entry _ _ _ _ _ _ _ I2 S2 L2).
  assert (Q : trace idle (map fst (a ++ (e1, o1) :: b)) = a ++ (e1, o1) :: b) by (unfold trace; rewrite P2; reflexivity).
  destruct (trace_split _ _ _ _ _ _ Q) as (s1 & s1' & fs1 & I1 & S1 & R1 & E1 & P1). rewrite P2 in R1. cbn [fst] in R1.
  pose proof (step_inv idle a s1 e1 I1) as J1. rewrite S1 in J1. destruct J1 as [J1 _].
  apply (entry_run idle fs1 (a ++ [(e1, o1)]) s1' s2 b k (v, Some h) J1 R1); auto.
  - apply (lookup_entry _ _ _ _ _ _ _ I1 S1 L1). reflexivity.
  - cbn [snd]. intros h' H. injection H as <-. exact U.
Qed.
Theorem permanent_kept : forall idle es a b c k v o1 e2 o,
  trace idle es = a ++ (Permanent k v, o1) :: b ++ (e2, o) :: c -> looked_up k e2 -> never_permanent k b -> o = Got (Some (v, None)).
Proof.
  intros idle es a b c k v o1 e2 o T L2 NP.
  pose proof T as T2. replace (a ++ (Permanent k v, o1) :: b ++ (e2, o) :: c) with ((a ++ (Permanent k v, o1) :: b) ++ (e2, o) :: c) in T2 by (rewrite <- app_assoc; reflexivity).
  destruct (trace_split _ _ _ _ _ _ T2) as (s2 & s2' & fs2 & I2 & S2 & R2 & E2 & P2).
  apply (lookup_entry _ _ _ _ _ _ _ I2 S2 L2).
  assert (Q : trace idle (map fst (a ++ (Permanent k v, o1) :: b)) = a ++ (Permanent k v, o1) :: b) by (unfold trace; rewrite P2; reflexivity).
  destruct (trace_split _ _ _ _ _ _ Q) as (s1 & s1' & fs1 & I1 & S1 & R1 & E1 & P1). rewrite P2 in R1. cbn [fst] in R1.
  pose proof (step_inv idle a s1 (Permanent k v) I1) as J1. rewrite S1 in J1. destruct J1 as [J1 _].
  apply (entry_run idle fs1 (a ++ [(Permanent k v, o1)]) s1' s2 b k (v, None) J1 R1); auto.
  - cbn [step] in S1. unfold insert_permanent in S1. injection S1 as <- <-. cbn [entries]. apply find_set.
  - discriminate.
Qed.
Lemma cached_entries : forall s en s' o, cached s en = (s', o) -> entries s' = entries s /\ (o = Got (Some en) \/ o = Panicked).
Proof.
  intros s [v [h|]] s' o C; unfold cached in C; cbn [snd] in C.
  - destruct (nth_error (handles s) h) as [x|]; [destruct (strong x =? 0)|]; injection C as <- <-; auto.
  - injection C as <- <-. auto.
Qed.
Lemma own_step : forall idle s e s' o tr, step idle s e = (s', o) ->
  (forall k v h, find_entry k (entries s) = Some (v, h) -> put k v tr) ->
  (forall k v h, find_entry k (entries s') = Some (v, h) -> put k v (tr ++ [(e, o)])) /\
  (forall k v h, looked_up k e -> o = Got (Some (v, h)) -> put k v (tr ++ [(e, o)])).
Proof.
  intros idle s e s' o tr S P.
  assert (P' : forall k v h, find_entry k (entries s) = Some (v, h) -> put k v (tr ++ [(e, o)])).
  { intros k v h F. destruct (P k v h F) as (e' & o' & H & R). exists e', o'. split; [apply in_app_iff; auto|exact R]. }
  assert (X : (forall k, ~ looked_up k e) -> entries s' = entries s ->
    (forall k v h, find_entry k (entries s') = Some (v, h) -> put k v (tr ++ [(e, o)])) /\
    (forall k v h, looked_up k e -> o = Got (Some (v, h)) -> put k v (tr ++ [(e, o)]))).
  { intros N ->. split; [exact P'|]. intros k v h L. destruct (N k L). }
  assert (Y : forall k en, find_entry k (entries s) = Some en -> looked_up k e -> cached s en = (s', o) ->
    (forall k v h, find_entry k (entries s') = Some (v, h) -> put k v (tr ++ [(e, o)])) /\
    (forall k v h, looked_up k e -> o = Got (Some (v, h)) -> put k v (tr ++ [(e, o)]))).
  { intros k en F L C. destruct (cached_entries _ _ _ _ C) as [-> Ho]. split; [exact P'|]. intros k' v h L' E.
    assert (k' = k) by (destruct L as [->|(w & ->)], L' as [L'|(w' & L')]; congruence). subst k'.
    destruct Ho as [Ho|Ho]; rewrite Ho in E; [|discriminate]. injection E as ->. apply (P' k v h F). }
  assert (LK : forall k, ~ looked_up k e \/ looked_up k e) by (intros k; destruct e as [d|k'|k' v|k' v|h|h|h|h|h]; try (left; intros [C|(w & C)]; discriminate);
    destruct (Nat.eq_dec k' k) as [->|N]; [right; left; reflexivity|left; intros [C|(w & C)]; congruence|right; right; eauto|left; intros [C|(w & C)]; congruence]).
  destruct e as [d|k'|k' v|k' v|h|h|h|h|h]; cbn [step] in S;
    try (injection S as <- <-; apply X; [intros k [C|(w & C)]; discriminate|reflexivity]).
  - unfold get in S. destruct (find_entry k' (entries s)) as [en|] eqn:F; [apply (Y k' en F); [left; reflexivity|exact S]|].
    injection S as <- <-. split; [exact P'|]. discriminate.
  - unfold insert in S. destruct (find_entry k' (entries s)) as [en|] eqn:F; [apply (Y k' en F); [right; eauto|exact S]|].
    injection S as <- <-. assert (Q : forall o, put k' v (tr ++ [(Insert k' v, o)])).
    { intros o. exists (Insert k' v), o. split; [apply in_app_iff; right; left; reflexivity|auto]. }
    split.
    + intros k w h F'. cbn [entries] in F'. destruct (Nat.eq_dec k k') as [->|N]; [rewrite find_set in F'; injection F' as <- <-; apply Q|].
      rewrite find_set_other in F' by exact N. eapply P'; exact F'.
    + intros k w h L E. injection E as <- <-. destruct L as [L|(w & L)]; [discriminate|]. injection L as <- _. apply Q.
  - unfold insert_permanent in S. injection S as <- <-. split; [|discriminate]. cbn [entries]. intros k w h F'.
    destruct (Nat.eq_dec k k') as [->|N]; [rewrite find_set in F'; injection F' as <- <-|rewrite find_set_other in F' by exact N; eapply P'; exact F'].
    exists (Permanent k' v), Nothing. split; [apply in_app_iff; right; left; reflexivity|auto].
  - unfold lock in S. destruct (nth_error (handles s) h) as [x|] eqn:Hx; [|injection S as <- <-; split; [exact P'|discriminate]].
    destruct (h_task x) eqn:T; try (injection S as <- <-; split; [exact P'|discriminate]).
    destruct (strong x =? 1); [|injection S as <- <-; split; [exact P'|discriminate]].
    destruct (find_entry (h_key x) (entries s)) as [[v [h'|]]|] eqn:F'; injection S as <- <-; split; try exact P'; try discriminate.
    intros k w h2 F2. cbn [entries] in F2. destruct (Nat.eq_dec k (h_key x)) as [->|N]; [rewrite find_remove in F2; discriminate|].
    rewrite find_remove_other in F2 by exact N. eapply P'; exact F2.
Qed.
Theorem own_value : forall idle es a b k e v h,
  trace idle es = a ++ (e, Got (Some (v, h))) :: b -> looked_up k e -> put k v (a ++ [(e, Got (Some (v, h)))]).
Proof.
  intros idle es a b k e v h T L. destruct (trace_split _ _ _ _ _ _ T) as (s & s' & fs & I & S & _ & _ & P).
  assert (G : forall fs s0 tr0, (forall k v h, find_entry k (entries s0) = Some (v, h) -> put k v tr0) ->
    forall k v h, find_entry k (entries (fst (run idle s0 fs))) = Some (v, h) -> put k v (tr0 ++ snd (run idle s0 fs))).
  { clear. induction fs as [|e fs IH]; intros s0 tr0 H0; cbn [run].
    - intros k v h F. rewrite app_nil_r. apply (H0 k v h F).
    - destruct (step idle s0 e) as [s1 o] eqn:S. destruct (own_step idle s0 e s1 o tr0 S H0) as [H1 _].
      specialize (IH s1 _ H1). destruct (run idle s1 fs) as [s2 tr2]. cbn [fst snd] in *. intros k v h F. specialize (IH k v h F). rewrite <- app_assoc in IH. exact IH. }
  assert (G' : forall k v h, find_entry k (entries s) = Some (v, h) -> put k v a).
  { specialize (G (map fst a) init []). rewrite P in G. cbn [fst snd app] in G. apply G. intros k' v' h'. discriminate. }
  apply (own_step idle s e s' _ a S G' ) with (h := h); [exact L|reflexivity].
Qed.
Lemma evicted_state : forall idle s e s' k, step idle s e = (s', Evicted k) ->
  exists h x, e = Lock h /\ nth_error (handles s) h = Some x /\ h_task x = Expired /\ strong x = 1 /\ h_key x = k.
Proof.
  intros idle s e s' k S. destruct e as [d|k'|k' v|k' v|h|h|h|h|h]; cbn [step] in S; try discriminate.
  - unfold get in S. destruct (find_entry k' (entries s)) as [en|]; [|discriminate]. apply cached_entries in S as [_ [S|S]]; discriminate.
  - unfold insert in S. destruct (find_entry k' (entries s)) as [en|]; [|discriminate]. apply cached_entries in S as [_ [S|S]]; discriminate.
  - unfold lock in S. destruct (nth_error (handles s) h) as [x|] eqn:Hx; [|discriminate]. destruct (h_task x) eqn:T; try discriminate.
    destruct (strong x =? 1) eqn:S1; [|discriminate]. destruct (find_entry (h_key x) (entries s)) as [[v [h'|]]|]; try discriminate.
    injection S as _ <-. exists h, x. apply Nat.eqb_eq in S1. auto.
Qed.
Theorem evicted_unheld : forall idle es a b e k, trace idle es = a ++ (e, Evicted k) :: b ->
  exists h, e = Lock h /\ holders h a = 0 /\ dropping h a = 0.
Proof.
  intros idle es a b e k T. destruct (trace_split _ _ _ _ _ _ T) as (s & s' & fs & [I E] & S & _).
  destruct (evicted_state _ _ _ _ _ S) as (h & x & -> & Hx & Ht & Hs & _). exists h. split; [reflexivity|].
  destruct (i_held _ _ _ _ I h x Hx) as [<- <-]. unfold strong in Hs. rewrite Ht in Hs. cbn in Hs. lia.
Qed.
Lemma unheld_back : forall h c a, holders h (a ++ c) = 0 -> ~ dropped h a c -> unheld_throughout h a c.
Proof.
  intros h c. induction c as [|x c IH] using rev_ind; intros a H D u w E.
  - symmetry in E. apply app_eq_nil in E as [-> ->]. exact H.
  - assert (Z : holders h (a ++ c) = 0).
    { rewrite app_assoc, holders_snoc in H. destruct (Nat.eq_dec (holders h (a ++ c)) 0) as [Z|Z]; [exact Z|]. exfalso.
      apply D. apply dropped_snoc. right. split; [|lia]. destruct x as [e o]. set (n := holders h (a ++ c)) in *. clearbody n.
      destruct (match e with Drop h2 => h =? h2 | _ => false end) eqn:Q.
      - destruct e; try discriminate. apply Nat.eqb_eq in Q. subst. eauto.
      - exfalso. revert H. unfold hold. destruct o as [|[[v [h'|]]|]| |], e; rewrite ?Q;
          repeat match goal with |- context [if ?x then _ else _] => destruct x end; try destruct n; intros; try discriminate; lia. }
    assert (D' : ~ dropped h a c) by (intros D'; apply D; apply dropped_snoc; auto).
    destruct w as [|y w _] using rev_ind; [rewrite app_nil_r in E; subst u; exact H|].
    rewrite app_assoc in E. apply app_inj_tail in E as [-> _]. apply (IH a Z D' u w eq_refl).
Qed.
Lemma dropped_app : forall h a b c, dropped h a (b ++ c) -> dropped h a b \/ dropped h (a ++ b) c.
Proof.
  intros h a b c. induction c as [|x c IH] using rev_ind; [rewrite app_nil_r; auto|]. rewrite app_assoc. intros D.
  apply dropped_snoc in D as [D|D]; [destruct (IH D) as [H|H]; [auto|right; apply dropped_snoc; auto]|].
  right. apply dropped_snoc. right. rewrite <- app_assoc. exact D.
Qed.
Theorem evicted_idle : forall idle es tr b h k, trace idle es = tr ++ (Lock h, Evicted k) :: b ->
  exists a1 a2 a3, tr = a1 ++ a2 ++ a3 /\ (clock a1 + idle <= clock (a1 ++ a2))%N /\ ~ dropped h a1 a2 /\
    (~ dropped h (a1 ++ a2) a3 -> unheld_throughout h a1 (a2 ++ a3)).
Proof.
  intros idle es tr b h k T. destruct (evicted_unheld _ _ _ _ _ _ T) as (h' & E & Z & _). injection E as <-.
  destruct (trace_split _ _ _ _ _ _ T) as (s & s' & fs & [I _] & S & _).
  destruct (evicted_state _ _ _ _ _ S) as (h' & x & E & Hx & Ht & _). injection E as <-.
  destruct (i_expired _ _ _ _ I h x Hx Ht) as (a1 & a2 & a3 & -> & C & D). exists a1, a2, a3. repeat split; auto.
  intros D3. apply unheld_back; [exact Z|]. intros Q. apply dropped_app in Q as [Q|Q]; auto.
Qed.
(** Unused values go away. *)
Theorem no_leak : forall idle es h k v o, holders h (trace idle es) = 0 -> dropping h (trace idle es) = 0 ->
  In (Get k, o) (skipn (length es + 4) (trace idle (es ++ [Poll h; Tick idle; Poll h; Lock h; Get k]))) -> o <> Got (Some (v, Some h)).
Proof.
  intros idle es h k v o Z1 Z2. pose proof (run_inv idle es) as [I E]. unfold trace in *. rewrite run_app.
  pose proof (run_events idle es init) as LE. destruct (run idle init es) as [s tr] eqn:R. cbn [fst snd] in *.
  set (fs := [Poll h; Tick idle; Poll h; Lock h]). change [Poll h; Tick idle; Poll h; Lock h; Get k] with (fs ++ [Get k]). rewrite run_app.
  destruct (run idle s fs) as [s4 tr4] eqn:R4. cbn [run]. destruct (step idle s4 (Get k)) as [s5 o5] eqn:S5. cbn [snd].
  assert (L4 : length tr4 = 4) by (pose proof (run_events idle fs s) as Q; rewrite R4 in Q; cbn [snd] in Q; rewrite <- (map_length fst tr4), Q; reflexivity).
  assert (L : length tr = length es) by (rewrite <- LE, map_length; reflexivity).
  replace (length es + 4) with (length (tr ++ tr4)) by (rewrite app_length; lia).
  rewrite app_assoc, skipn_app, skipn_all, Nat.sub_diag. cbn [app skipn In]. intros [H|[]]. injection H as ->. intros ->.
  (* the handle's task has returned *)
  assert (D : forall x, nth_error (handles s4) h = Some x -> h_task x = Done).
  { intros x4 H4. destruct (nth_error (handles s) h) as [x|] eqn:Hx.
    2:{ unfold fs in R4. cbn [run step on_handle] in R4. unfold lock in R4. cbn [handles] in R4. rewrite !nth_update, Hx, Nat.eqb_refl in R4. cbn [option_map] in R4.
        injection R4 as <- _. cbn [handles] in H4. rewrite !nth_update, Hx, Nat.eqb_refl in H4. discriminate. }
    destruct (i_held _ _ _ _ I h x Hx) as [Q1 Q2]. rewrite Z1 in Q1. rewrite Z2 in Q2.
    unfold fs in R4. cbn [run step on_handle now handles entries] in R4. unfold lock in R4. cbn [handles now entries] in R4.
    rewrite !nth_update, Hx, Nat.eqb_refl in R4. cbn [option_map] in R4.
    set (x1 := poll idle (now s) x) in *. set (x2 := poll idle (now s + idle) x1) in *.
    assert (T2 : (h_task x2 = Expired \/ h_task x2 = Done) /\ h_held x2 = 0 /\ h_dropping x2 = 0).
    { unfold x2, x1. destruct x as [xk xh xd xp xt]. cbn in Q1, Q2. subst xh xd. unfold poll. destruct xt as [|d| |]; cbn [h_task h_permit h_key h_held h_dropping].
      - destruct xp; cbn [h_task h_permit h_key h_held h_dropping].
        + replace (now s + idle <=? now s + idle)%N with true by (symmetry; apply N.leb_le; lia). cbn. auto.
        + pose proof (i_wait _ _ _ _ I h _ Hx eq_refl eq_refl) as Q. cbn in Q. lia.
      - destruct xp; cbn [h_task h_permit h_key h_held h_dropping].
        + replace (now s + idle <=? now s + idle)%N with true by (symmetry; apply N.leb_le; lia). cbn. auto.
        + destruct (i_time _ _ _ _ I h _ d Hx eq_refl) as (a & b & E' & Hd & _).
          destruct (d <=? now s)%N; cbn [h_task h_permit h_key h_held h_dropping]; [auto|].
          replace (d <=? now s + idle)%N with true; [cbn; auto|]. symmetry. apply N.leb_le.
          rewrite (i_now _ _ _ _ I), E', clock_app. lia.
      - cbn. auto.
      - cbn. auto. }
    destruct T2 as ([T2|T2] & Y1 & Y2).
    - rewrite T2 in R4. replace (strong x2 =? 1) with true in R4 by (symmetry; apply Nat.eqb_eq; unfold strong; rewrite T2, Y1, Y2; reflexivity).
      destruct (find_entry (h_key x2) (entries s)) as [[w [h'|]]|]; injection R4 as <- _; cbn [handles] in H4; rewrite !nth_update, Hx, Nat.eqb_refl in H4; injection H4 as <-; reflexivity.
    - rewrite T2 in R4. injection R4 as <- _. cbn [handles] in H4. rewrite !nth_update, Hx, Nat.eqb_refl in H4. injection H4 as <-. exact T2. }
  pose proof (run_inv idle (es ++ fs)) as J. rewrite run_app, R, R4 in J. cbn [fst] in J.
  destruct (lookup_entry _ _ _ _ _ _ k J S5 (or_introl eq_refl)) as [_ LK].
  cbn [step] in S5. unfold get in S5. destruct (find_entry k (entries s4)) as [en|] eqn:F; [|discriminate].
  specialize (LK en eq_refl). injection LK as <-. destruct J as [_ JE]. destruct (i_entry _ _ JE k v h F) as (x & Hx & _ & Hl).
  apply Hl. apply D. exact Hx.
Qed.
