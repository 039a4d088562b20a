(** The properties of the life of the process: C109, C110. *)
From Coq Require Import List Arith NArith Bool Lia.
From Verif Require Import LifeModel LifeSpec LifeProofs.
Import ListNotations.
Open Scope N_scope.

(** ** C109: the start *)

(** No connection of the application is accepted before the proxy's identity is certified; *)
Theorem C109_certified_first : forall g a e b s,
  run g (init g) (a ++ e :: b) = Some s -> proxies e -> In Certified a.
Proof. exact certified_first. Qed.
Print Assumptions C109_certified_first.

(** after that, each listener accepts until it has seen the shutdown. *)
Theorem C109_serves : forall g es s l id k,
  run g (init g) es = Some s -> In Started es -> ~ In (Stopped l) es -> s_exit s = None ->
  l = Outbound \/ l = Inbound -> handles l k = true -> find_conn id (s_conns s) = None ->
  exists s', step g s (Accepted l id k) = Some s'.
Proof. exact proxy_serves. Qed.
Print Assumptions C109_serves.

(** The admin server needs no identity: it serves from the first moment on. *)
Theorem C109_admin : forall g es s id k,
  run g (init g) es = Some s -> ~ In (Stopped Admin) es -> s_exit s = None ->
  find_conn id (s_conns s) = None -> k = K_http1 \/ k = K_h2 ->
  exists s', step g s (Accepted Admin id k) = Some s'.
Proof. exact admin_serves. Qed.
Print Assumptions C109_admin.

(** So does the tap, if it is configured; *)
Theorem C109_tap : forall g es s id,
  run g (init g) es = Some s -> g_tap g = true -> ~ In (Stopped Tap) es -> s_exit s = None ->
  find_conn id (s_conns s) = None ->
  exists s', step g s (Accepted Tap id K_tap) = Some s'.
Proof. exact tap_serves. Qed.
Print Assumptions C109_tap.

(** if not, nobody connects to it. *)
Theorem C109_tap_configured : forall g a id k b s,
  run g (init g) (a ++ Accepted Tap id k :: b) = Some s -> g_tap g = true /\ k = K_tap.
Proof. exact tap_configured. Qed.
Print Assumptions C109_tap_configured.

Example C109_tap_case :
  let g := Config Spire true 120 in
  exists s, run g (init g) [Accepted Tap 0%nat K_tap; Asked; Stopped Admin; Accepted Tap 1%nat K_tap] = Some s /\
    s_exit s = None /\ find_conn 2%nat (s_conns s) = None.
Proof. eexists. split; [vm_compute; reflexivity|]. split; reflexivity. Qed.

(** With an identity of the control plane, the proxy says it is ready only once that is certified. *)
Theorem C109_ready : forall g es s,
  run g (init g) es = Some s -> g_identity g = Control_plane -> says_ready s -> In Certified es.
Proof. exact ready_certified. Qed.
Print Assumptions C109_ready.

(** With SPIRE it may say so though it has no identity, and never will, and accepts no connection. *)
Theorem C109_spire_ready_refuted : forall tap grace,
  let g := Config Spire tap grace in
  exists es s, run g (init g) es = Some s /\ ~ In Certified es /\ says_ready s /\ s_exit s = None /\
    forall es' s', run g s es' = Some s' -> forall e, In e es' -> ~ proxies e /\ e <> Certified.
Proof.
  intros tap grace g. exists [Lost; Start_failed; Latch_failed].
  exists (State false true false false (Admin :: if tap then [Tap] else []) [] None 0 None).
  split; [reflexivity|]. split; [intros [H|[H|[H|[]]]]; discriminate|]. split; [reflexivity|]. split; [reflexivity|].
  intros es' s' R. eapply lost_forever; [exact R|reflexivity|reflexivity|].
  destruct tap; cbn; intros l I; repeat destruct I as [<-|I]; try destruct I; split; discriminate.
Qed.
Print Assumptions C109_spire_ready_refuted.

(** A listener that has seen the shutdown accepts nothing more, and none sees one that was not asked for. *)
Theorem C109_stopped : forall g a l b s id k,
  run g (init g) (a ++ Stopped l :: b) = Some s -> In Asked a /\ ~ In (Accepted l id k) b.
Proof. exact (fun g a l b s id k R => conj (stopped_asked g a l b s R) (stopped_no_more g a l b s id k R)). Qed.
Print Assumptions C109_stopped.

(** Yet connections may be accepted after the shutdown began, even if the proxy was not yet serving. *)
Theorem C109_no_new_refuted : exists g es s,
  run g (init g) (Asked :: es) = Some s /\ In (Accepted Inbound 1%nat K_http1) es /\ s_exit s = None.
Proof.
  exists (Config Control_plane false 120), [Certified; Started; Accepted Inbound 1%nat K_http1]. eexists.
  split; [reflexivity|]. split; [cbn; auto|reflexivity].
Qed.
Print Assumptions C109_no_new_refuted.

Definition usual : list event :=
  [Accepted Admin 0%nat K_http1; Passed 3; Certified; Released; Started; Accepted Inbound 1%nat K_http1;
   Accepted Outbound 2%nat K_tcp; Accepted Inbound 3%nat K_h2; Closed 0%nat; Upgraded 1%nat; Passed 60; Asked; Stopped Inbound;
   Was_told 3%nat; Closed 3%nat; Stopped Outbound; Stopped Admin].
Example C109_case :
  let g := Config Control_plane false 120 in
  exists s, run g (init g) usual = Some s /\ says_ready s /\ In Started usual /\ s_exit s = None.
Proof. eexists. split; [vm_compute; reflexivity|]. split; [reflexivity|]. split; [cbn; tauto|reflexivity]. Qed.

(** ** C110: the end *)

(** The process ends only if it was asked to. *)
Theorem C110_asked : forall g es s, run g (init g) es = Some s -> s_exit s <> None -> In Asked es.
Proof. exact exit_asked. Qed.
Print Assumptions C110_asked.

(** It ends gracefully only once every connection is closed that was ever accepted, and every tunnel that such a
    connection became, but for those to the tap; *)
Theorem C110_graceful : forall g es s id l,
  run g (init g) es = Some s -> s_exit s = Some true -> open_after es id l -> l = Tap.
Proof. exact graceful_closed. Qed.
Print Assumptions C110_graceful.

(** and nothing would be accepted any more. *)
Theorem C110_graceful_stopped : forall g es s,
  run g (init g) es = Some s -> s_exit s = Some true -> s_accepting s = [] /\ s_waiting s = false.
Proof. exact graceful_stopped. Qed.
Print Assumptions C110_graceful_stopped.

(** Otherwise it ends when the grace period is over, not before, *)
Theorem C110_forced : forall g a b s,
  run g (init g) (a ++ Asked :: b) = Some s -> s_exit s = Some false -> elapsed b = g_grace g.
Proof. exact forced_iff. Qed.
Print Assumptions C110_forced.

(** and it never lasts longer. *)
Theorem C110_deadline : forall g a b s, run g (init g) (a ++ Asked :: b) = Some s -> elapsed b <= g_grace g.
Proof. exact deadline. Qed.
Print Assumptions C110_deadline.

(** At any moment after the shutdown was asked for, if the identity is certified, the process can end at once and
    gracefully, if its connections are closed. *)
Theorem C110_can_end : forall g es s,
  run g (init g) es = Some s -> s_exit s = None -> In Asked es -> In Certified es ->
  exists es' s', run g s es' = Some s' /\ s_exit s' = Some true /\ Forall winds_down es'.
Proof. exact can_end. Qed.
Print Assumptions C110_can_end.

(** If the identity is not certified it cannot: it takes the whole grace period, though it has no connections. *)
Theorem C110_uncertified : forall g es s,
  run g (init g) es = Some s -> ~ In Certified es -> ~ In Lost es -> s_exit s <> Some true.
Proof. exact uncertified_forced. Qed.
Print Assumptions C110_uncertified.
Theorem C110_idle_refuted :
  ~ forall g a b s, run g (init g) (a ++ Asked :: b) = Some s -> s_exit s <> None ->
      (forall l id k, In (Accepted l id k) (a ++ b) -> False) -> elapsed b < g_grace g \/ s_exit s = Some true.
Proof.
  intros H. specialize (H (Config Control_plane false 120) [] [Stopped Admin; Passed 120; Timed_out] _ eq_refl ltac:(discriminate)).
  destruct H as [H|H]; [|vm_compute in H; discriminate|discriminate].
  intros l id k I. cbn in I. repeat destruct I as [I|I]; try discriminate; destruct I.
Qed.
Print Assumptions C110_idle_refuted.

(** Connections to the tap are not waited for. *)
Theorem C110_tap_refuted : exists g es s,
  run g (init g) es = Some s /\ s_exit s = Some true /\ open_after es 7%nat Tap.
Proof.
  exists (Config Control_plane true 120),
    [Certified; Started; Accepted Tap 7%nat K_tap; Asked; Stopped Tap; Stopped Admin; Stopped Inbound; Stopped Outbound; Drained].
  eexists. split; [reflexivity|]. split; [reflexivity|].
  exists [Certified; Started], K_tap, [Asked; Stopped Tap; Stopped Admin; Stopped Inbound; Stopped Outbound; Drained].
  split; [reflexivity|]. cbn. intuition discriminate.
Qed.
Print Assumptions C110_tap_refuted.

(** A tunnel keeps the process until it is closed, or the grace period is over. *)
Example C110_case :
  let g := Config Control_plane false 120 in
  (exists s, run g (init g) usual = Some s /\ holders s = 2%nat /\ step g s Drained = None) /\
  (exists s, run g (init g) (usual ++ [Closed 2%nat; Passed 5; Closed 1%nat; Drained]) = Some s /\ s_exit s = Some true) /\
  (exists s, run g (init g) (usual ++ [Closed 2%nat; Passed 120; Timed_out]) = Some s /\ s_exit s = Some false) /\
  run g (init g) (usual ++ [Passed 121]) = None.
Proof.
  cbv zeta. split; [eexists; split; [vm_compute; reflexivity|split; vm_compute; reflexivity]|].
  split; [eexists; split; [vm_compute; reflexivity|reflexivity]|].
  split; [eexists; split; [vm_compute; reflexivity|reflexivity]|]. vm_compute. reflexivity.
Qed.
