(** C23: the pool of endpoints *)
From Coq Require Import String List Arith NArith ZArith.
From Verif Require Import P2cModel P2cSpec P2cProofs.
From Verif Require RecoverModel RecoverSpec.
Import ListNotations.

(** There are services for just the addresses that were discovered, and not two ready (or two pending) for one. *)
Theorem C23_exact : forall l s, run l s -> failed s = false ->
  NoDup (map s_addr (ready s)) /\ NoDup (map s_addr (pending s)) /\ forall a, In a (map s_addr (pool s)) <-> target_of a (discovered l) <> None.
Proof. exact exact. Qed.
Print Assumptions C23_exact.

(** One of them was built from what was discovered last. *)
Theorem C23_latest : forall l s a t, run l s -> failed s = false -> target_of a (discovered l) = Some t ->
  exists w, newest l a = Some w /\ s_target w = t /\ In w (pool s).
Proof. exact latest. Qed.
Print Assumptions C23_latest.

(** A request is sent to a service for an address that is discovered.  The service was built from its current target,
    unless the one that was has not been ready yet.  It said that it is ready, and was not sent a request since then. *)
Theorem C23_sent : forall l1 r v l2 s, run (l1 ++ Sent r v :: l2) s ->
  exists t w, target_of (s_addr v) (discovered l1) = Some t /\ newest l1 (s_addr v) = Some w /\ s_target w = t /\
    In v (built l1) /\ (v = w \/ ~ In (Became_ready w) l1) /\ fresh l1 v.
Proof. exact sent. Qed.
Print Assumptions C23_sent.

(** A service is not used again once its address was not discovered. *)
Theorem C23_removed : forall l1 l2 r v l3 s, run (l1 ++ l2 ++ Sent r v :: l3) s -> In v (built l1) -> target_of (s_addr v) (discovered l1) = None -> False.
Proof. exact removed. Qed.
Print Assumptions C23_removed.

(** An update builds one service for each endpoint that is new or different, and no other. *)
Theorem C23_rebuilt : forall l1 u b l2 s, run (l1 ++ Updated u b :: l2) s -> NoDup (addresses u) ->
  NoDup (map s_addr b) /\ forall a t, (exists v, In v b /\ s_addr v = a /\ s_target v = t) <-> says u a t /\ target_of a (discovered l1) <> Some t.
Proof. exact rebuilt. Qed.
Print Assumptions C23_rebuilt.

Theorem C23_gauge : forall l s, run l s -> gauge s = Z.of_nat (length (discovered l)).
Proof. exact gauge_is. Qed.
Print Assumptions C23_gauge.

(** The service that is chosen is no more loaded than another one. *)
Theorem C23_pick : forall l s da db load an s' v, run l s -> step s (Poll da db load an) = Next s' (Answered v an) -> next_idx s = None -> 1 < length (ready s) ->
  In v (ready s) /\ exists w, In w (ready s) /\ w <> v /\ (load v <= load w)%N.
Proof. exact pick_run. Qed.
Print Assumptions C23_pick.

(** Two draws give each pair of two different services just once, and no other pair. *)
Theorem C23_pairs : forall n i j, i < n -> j < n -> i <> j ->
  exists da db, da < n /\ S db < n /\ gen_pair da db = (i, j) /\ forall da' db', gen_pair da' db' = (i, j) -> da' = da /\ db' = db.
Proof. exact pairs. Qed.
Print Assumptions C23_pairs.
Theorem C23_distinct : forall n da db, da < n -> S db < n -> fst (gen_pair da db) < n /\ snd (gen_pair da db) < n /\ fst (gen_pair da db) <> snd (gen_pair da db).
Proof. exact pairs_in. Qed.
Print Assumptions C23_distinct.

(** It is only not ready when no service is. *)
Theorem C23_idle : forall s da db load an s', step s (Poll da db load an) = Next s' None_ready -> s' = s /\ ready s = [].
Proof. exact idle. Qed.
Print Assumptions C23_idle.

(** Only a call that nothing was selected for panics; one right after a service said it is ready goes to that service. *)
Theorem C23_no_panic : forall l s i, run l s -> step s i = Panic -> (exists r, i = Call r) /\ next_idx s = None.
Proof. exact no_panic. Qed.
Print Assumptions C23_no_panic.
Theorem C23_call : forall l v s r, run (l ++ [Answered v Is_ready]) s -> exists s', step s (Call r) = Next s' (Sent r v).
Proof. exact call_after. Qed.
Print Assumptions C23_call.

(* --- examples *)
Fixpoint go (s : state) (l : list input) : option (state * list event) :=
  match l with
  | [] => Some (s, [])
  | i :: l => match step s i with Next s e => option_map (fun x => (fst x, e :: snd x)) (go s l) | _ => None end
  end.
Lemma go_run : forall l s pre s' es, run pre s -> go s l = Some (s', es) -> run (pre ++ es) s'.
Proof.
  induction l as [|i l IH]; intros s pre s' es R E; cbn in E.
  - injection E as <- <-. rewrite app_nil_r. exact R.
  - destruct (step s i) as [s1 e| |] eqn:S1; try discriminate. destruct (go s1 l) as [[s2 es2]|] eqn:G; [|discriminate]. cbn in E. injection E as <- <-.
    replace (pre ++ e :: es2) with ((pre ++ [e]) ++ es2) by (rewrite <- app_assoc; reflexivity). exact (IH _ _ _ _ (run_step _ _ _ _ _ R S1) G).
Qed.
Open Scope N_scope.
Definition load_of (v : svc) : N := N.of_nat (sid v).
Definition demo : list input :=
  [Update (RecoverModel.Reset [(1, 10); (2, 20); (3, 30)]); Become_ready 1; Become_ready 3; Poll 1 0 load_of Is_ready; Call 7;
   Update (RecoverModel.Add [(1, 11)]); Update (RecoverModel.Remove [2]); Poll 0 0 load_of Is_ready; Call 8; Become_ready 1; Poll 0 0 load_of Is_ready; Call 9].
(** Requests: 7 to the less loaded one; 8 to the one at address 3, as 1 is pending; 9 to the new one *)
Example C23_demo : option_map (fun x => filter (fun e => match e with Sent _ _ => true | _ => false end) (snd x)) (go init demo)
  = Some [Sent 7 (Svc 0 1 10); Sent 8 (Svc 2 3 30); Sent 9 (Svc 3 1 11)].
Proof. vm_compute. reflexivity. Qed.
Example C23_demo_run : exists s es, run es s /\ failed s = false /\ discovered es = [(1, 11); (3, 30)] /\ gauge s = 2%Z.
Proof. do 2 eexists. split; [eapply (go_run demo init []); [exact run_init|vm_compute; reflexivity]|vm_compute; repeat split]. Qed.

(** A request can be sent to a service that was built from an older target than the current one. *)
Theorem C23_stale_refuted : exists l1 r v s t, run (l1 ++ [Sent r v]) s /\ target_of (s_addr v) (discovered l1) = Some t /\ s_target v <> t.
Proof.
  exists [Updated (RecoverModel.Reset [(1, 10)]) [Svc 0 1 10]; Became_ready (Svc 0 1 10); Updated (RecoverModel.Add [(1, 11)]) [Svc 1 1 11]; Answered (Svc 0 1 10) Is_ready], 5%nat, (Svc 0 1 10). do 2 eexists. split.
  - refine (go_run [Update (RecoverModel.Reset [(1, 10)]); Become_ready 1; Update (RecoverModel.Add [(1, 11)]); Poll 0 0 load_of Is_ready; Call 5] init [] _ _ run_init _). vm_compute. reflexivity.
  - split; [reflexivity|discriminate].
Qed.
Print Assumptions C23_stale_refuted.

(** An update that has an address twice makes the endpoint be built again although nothing changed. *)
Theorem C23_duplicate_refuted : exists l u b s a t, run (l ++ [Updated u b]) s /\ target_of a (discovered l) = Some t /\
  (forall x, says u a x -> x = t) /\ exists v, In v b /\ s_addr v = a.
Proof.
  exists [Updated (RecoverModel.Reset [(1, 10)]) [Svc 0 1 10]], (RecoverModel.Reset [(1, 10); (1, 10)]), [Svc 1 1 10]. eexists. exists 1, 10. split.
  - refine (go_run [Update (RecoverModel.Reset [(1, 10)]); Update (RecoverModel.Reset [(1, 10); (1, 10)])] init [] _ _ run_init _). vm_compute. reflexivity.
  - split; [reflexivity|]. split; [|exists (Svc 1 1 10); split; [left|]; reflexivity]. intros x [E|[E|[]]]; injection E as <-; reflexivity.
Qed.
Print Assumptions C23_duplicate_refuted.
