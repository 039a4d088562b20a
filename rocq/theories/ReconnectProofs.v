From Coq Require Import List Arith Lia.
From Verif Require Import ReconnectModel ReconnectSpec.
Import ListNotations.

Lemma rounds_snoc l a : forall r, rounds r (l ++ [a]) = match rounds r l with Some (r', _) => round r' a | None => None end.
Proof.
  induction l as [|b l IH]; intros r.
  - cbn. destruct (round r a) as [(r' & x)|]; reflexivity.
  - change ((b :: l) ++ [a]) with (b :: (l ++ [a])). cbn [rounds]. destruct (round r b) as [(r' & x)|]; [|reflexivity].
    destruct l as [|c l].
    + cbn. destruct (round r' a) as [(r2 & y)|]; reflexivity.
    + change ((c :: l) ++ [a]) with (c :: (l ++ [a])) in *. rewrite <- IH. cbn [app]. destruct (l ++ [a]); reflexivity.
Qed.
Lemma two {A} (l : list A) a b : l ++ [a; b] = (l ++ [a]) ++ [b].
Proof. now rewrite <- app_assoc. Qed.
Lemma waits_snoc log e : forall acc, waits_since (log ++ [e]) acc =
  match e with Up _ => [] | Waited b n => waits_since log acc ++ [(b, n)] | _ => waits_since log acc end.
Proof. induction log as [|x log IH]; intros acc; [destruct e; reflexivity|]. destruct x; cbn; auto. Qed.
Lemma made_snoc log e : forall k, last_made (log ++ [e]) k = match e with Made j => Some j | _ => last_made log k end.
Proof. induction log as [|x log IH]; intros k; [destruct e; reflexivity|]. destruct x; cbn; auto. Qed.

(* every service but the first is made after the one before was given up, and a wait *)
Definition alternates (log : list seen) : Prop := forall pre k post, log = pre ++ Made k :: post ->
  (k = 0 /\ pre = []) \/ exists pre' j b n, k = S j /\ pre = pre' ++ [Gave_up j; Waited b n].
Lemma alternates_snoc log e : alternates log -> (forall k, e <> Made k) -> alternates (log ++ [e]).
Proof.
  intros H N pre k post E. destruct post as [|p post _] using rev_ind.
  - apply app_inj_tail in E as (_ & E). destruct (N k E).
  - rewrite app_comm_cons, app_assoc in E. apply app_inj_tail in E as (E & _). eauto.
Qed.
Record inv (r : reconnect) : Prop := {
  i_log : alternates (e_seen r);
  i_state : match e_state r with
            | Disconnected None => e_made r = 0 /\ e_seen r = []
            | Disconnected (Some _) => exists j pre, e_made r = S j /\ e_seen r = pre ++ [Gave_up j]
            | Pending k _ => e_made r = S k /\ last_made (e_seen r) None = Some k /\ exists pre, e_seen r = pre ++ [Made k]
            | Connected k => e_made r = S k /\ last_made (e_seen r) None = Some k /\ exists pre, e_seen r = pre ++ [Made k; Up k]
            end }.
Lemma made_alternates log k : alternates log -> (k = 0 /\ log = [] \/ exists pre' j b n, k = S j /\ log = pre' ++ [Gave_up j; Waited b n]) ->
  alternates (log ++ [Made k]).
Proof.
  intros H K pre j post E. destruct post as [|p post _] using rev_ind.
  - apply app_inj_tail in E as (E & F). injection F as <-. subst pre. exact K.
  - rewrite app_comm_cons, app_assoc in E. apply app_inj_tail in E as (E & _). eauto.
Qed.
Lemma inv_rounds l : forall r x, rounds new l = Some (r, x) -> inv r.
Proof.
  induction l as [|a l IH] using rev_ind; intros r x R.
  - injection R as <- <-. constructor; cbn; [intros [|? pre] ? ? E; discriminate|auto].
  - rewrite rounds_snoc in R. destruct (rounds new l) as [(r0 & y)|]; [|discriminate]. destruct (IH _ _ eq_refl) as [A B].
    destruct r0 as [s made bs log]. cbn [e_state e_made e_seen] in *.
    destruct s as [[b|]|k b|k]; destruct a as [[| |[|]]|[| |]|]; cbn in R; try discriminate; injection R as <- <-;
      try (constructor; [exact A|exact B]).
    + destruct B as (j & pre & -> & ->). constructor; cbn [make e_state e_made e_seen app].
      * rewrite two.
        apply made_alternates; [apply alternates_snoc; [exact A|discriminate]|]. right. exists pre, j, (b_id b), (S (b_waits b)).
        split; [reflexivity|]. now rewrite <- app_assoc.
      * split; [reflexivity|]. rewrite two, made_snoc. split; [reflexivity|eauto].
    + destruct B as (j & pre & -> & ->). constructor; cbn [make e_state e_made e_seen app].
      * rewrite two.
        apply made_alternates; [apply alternates_snoc; [exact A|discriminate]|]. right. exists pre, j, (b_id b), (S (b_waits b)).
        split; [reflexivity|]. now rewrite <- app_assoc.
      * split; [reflexivity|]. rewrite two, made_snoc. split; [reflexivity|eauto].
    + destruct B as (-> & ->). constructor; cbn [make e_state e_made e_seen app].
      * apply (made_alternates [] 0); [intros [|? pre] ? ? E; discriminate|auto].
      * split; [reflexivity|]. split; [reflexivity|]. exists []. reflexivity.
    + destruct B as (-> & M & pre & ->). constructor; cbn [make e_state e_made e_seen app].
      * apply alternates_snoc; [exact A|discriminate].
      * split; [reflexivity|]. rewrite made_snoc. split; [exact M|]. exists pre. now rewrite <- app_assoc.
    + destruct B as (-> & M & pre & ->). constructor; cbn [make e_state e_made e_seen app].
      * apply alternates_snoc; [exact A|discriminate].
      * exists k. eauto.
    + destruct B as (-> & M & pre & ->). constructor; cbn [make e_state e_made e_seen app].
      * apply alternates_snoc; [exact A|discriminate].
      * exists k. eauto.
Qed.
Lemma after_a_wait l r x pre k post : rounds new l = Some (r, x) -> e_seen r = pre ++ Made k :: post ->
  (k = 0 /\ pre = []) \/ exists pre' j b n, k = S j /\ pre = pre' ++ [Gave_up j; Waited b n].
Proof. intros R E. destruct (inv_rounds _ _ _ R) as [A _]. eapply A; eauto. Qed.
Lemma no_panic l r : rounds new l = Some (r, Some Ready) ->
  exists k pre, call r = Some k /\ e_seen r = pre ++ [Made k; Up k].
Proof.
  destruct l as [|a l _] using rev_ind; [discriminate|]. intros R. pose proof (inv_rounds _ _ _ R) as [_ B]. rewrite rounds_snoc in R.
  destruct (rounds new l) as [(r0 & y)|]; [|discriminate]. destruct r0 as [s made bs log].
  destruct s as [[b|]|k b|k]; destruct a as [[| |[|]]|[| |]|]; cbn in R; try discriminate; injection R as <-;
    cbn in B; destruct B as (_ & _ & pre & B); exists k, pre; auto.
Qed.
(* an error is returned only when the service failed, and there is no recovery from it *)
Lemma errors l r : rounds new l = Some (r, Some Error) -> exists l', l = l' ++ [Service (A_err false)].
Proof.
  destruct l as [|a l _] using rev_ind; [discriminate|]. intros R. exists l. rewrite rounds_snoc in R.
  destruct (rounds new l) as [(r0 & y)|]; [|discriminate]. destruct r0 as [s made bs log].
  destruct s as [[b|]|k b|k]; destruct a as [[| |[|]]|[| |]|]; cbn in R; try discriminate; reflexivity.
Qed.

(* what the service says, if it is asked last, is what is returned *)
Lemma returns l a r x : rounds new (l ++ [Service a]) = Some (r, x) ->
  x = match a with A_pending => Some Not_ready | A_ok => Some Ready | A_err false => Some Error | A_err true => None end.
Proof.
  intros R. rewrite rounds_snoc in R.
  destruct (rounds new l) as [(r0 & y)|]; [|discriminate]. destruct r0 as [s made bs log].
  destruct s as [[b|]|k b|k]; destruct a as [| |[|]]; cbn in R; try discriminate; injection R as <- <-; reflexivity.
Qed.
Lemma asks_timer l m r x : rounds new (l ++ [Timer m]) = Some (r, x) ->
  x = match m with M_pending => Some Not_ready | _ => None end.
Proof.
  intros R. rewrite rounds_snoc in R.
  destruct (rounds new l) as [(r0 & y)|]; [|discriminate]. destruct r0 as [s made bs log].
  destruct s as [[b|]|k b|k]; destruct m; cbn in R; try discriminate; injection R as <- <-; reflexivity.
Qed.

(* the waits of a backoff, one after the other *)
Definition grows (log : list seen) (r : reconnect) : Prop :=
  match e_state r with
  | Disconnected None => waits log = []
  | Disconnected (Some b) => waits log = map (pair (b_id b)) (seq 1 (b_waits b)) /\ b_id b < e_backoffs r
  | Pending k (Some b) => waits log = map (pair (b_id b)) (seq 1 (b_waits b)) /\ b_id b < e_backoffs r
  | Pending k None => waits log = []
  | Connected k => waits log = []
  end.
Lemma grows_rounds l : ~ In (Timer M_none) l -> forall r x, rounds new l = Some (r, x) -> grows (e_seen r) r.
Proof.
  induction l as [|a l IH] using rev_ind; intros N r x R.
  - injection R as <- <-. reflexivity.
  - rewrite rounds_snoc in R. destruct (rounds new l) as [(r0 & y)|] eqn:E; [|discriminate].
    assert (N' : ~ In (Timer M_none) l) by (intros I; apply N, in_or_app; auto).
    assert (Na : a <> Timer M_none) by (intros ->; apply N, in_or_app; cbn; auto).
    pose proof (inv_rounds _ _ _ E) as [_ C].
    specialize (IH N' _ _ eq_refl). destruct r0 as [s made bs log]. unfold grows in *. cbn [e_state e_made e_seen e_backoffs] in *.
    destruct s as [[b|]|k b|k]; destruct a as [[| |[|]]|[| |]|]; cbn in R; try discriminate; try congruence; injection R as <- <-;
      cbn [make e_state e_made e_seen e_backoffs app]; try exact IH; unfold waits in *.
    + rewrite two, !waits_snoc. destruct IH as (-> & L). cbn [b_id b_waits]. split; [|exact L].
      replace (S (b_waits b)) with (b_waits b + 1) at 2 by lia. rewrite seq_app, map_app. reflexivity.
    + destruct C as (_ & ->). reflexivity.
    + rewrite waits_snoc. reflexivity.
    + rewrite waits_snoc. destruct b as [b|]; cbn [b_id b_waits]; [destruct IH; split; [auto|lia]|]. rewrite IH. split; [reflexivity|lia].
    + rewrite waits_snoc, IH. cbn. split; [reflexivity|lia].
Qed.
Lemma one_backoff l r x : ~ In (Timer M_none) l -> rounds new l = Some (r, x) ->
  exists b n, waits (e_seen r) = map (pair b) (seq 1 n).
Proof.
  intros N R. pose proof (grows_rounds _ N _ _ R) as G. unfold grows in G.
  destruct (e_state r) as [[b|]|k [b|]|k]; try (destruct G as (G & _)); rewrite ?G; eauto; exists 0, 0; reflexivity.
Qed.
Lemma flapping n : exists l r, rounds new l = Some (r, None) /\
  length (filter (fun e => match e with Waited _ _ => true | _ => false end) (e_seen r)) = n /\
  forall b m, In (Waited b m) (e_seen r) -> m = 1.
Proof.
  cut (exists l r k b, rounds new l = Some (r, None) /\ e_state r = Pending k b /\
    length (filter (fun e => match e with Waited _ _ => true | _ => false end) (e_seen r)) = n /\
    forall b m, In (Waited b m) (e_seen r) -> m = 1).
  { intros (l & r & k & b & A & _ & B & C). eauto. }
  induction n as [|n (l & r & k & b & A & B & C & D)].
  - exists [Nobody], (Reconnect (Pending 0 None) 1 0 [Made 0]), 0, None. repeat split. intros b m [F|[]]. discriminate.
  - destruct r as [s made bs log]. cbn [e_state e_seen] in *. subst s.
    exists (((l ++ [Service A_ok]) ++ [Service (A_err true)]) ++ [Timer M_some]). rewrite !rounds_snoc, A. cbn [round].
    do 3 eexists. split; [reflexivity|]. split; [reflexivity|]. cbn [make e_seen e_made app b_id b_waits]. split.
    + rewrite !filter_app, !app_length, C. cbn. lia.
    + intros b' m I. rewrite !in_app_iff in I. cbn in I. destruct I as [[[I|[I|[]]]|[I|[]]]|[I|[I|[]]]]; try discriminate; [eauto|].
      now inversion I.
Qed.
