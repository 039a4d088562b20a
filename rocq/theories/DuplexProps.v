(** The theorems about copying between the two sockets of a proxied connection. *)
From Coq Require Import List NArith Bool Lia.
From Verif Require Import Bytes DuplexModel DuplexSpec DuplexProofs.
Import ListNotations.
Open Scope nat_scope.

(** * C90: bytes are forwarded unchanged *)

(** At any time, what has been written to the one socket is what was read from the other one first, and no more than
    8 KiB are held back. *)
Theorem C90_bytes : forall tr, seen tr -> forall s, exists held,
  reads s tr = writes (across s) tr ++ held /\ (len held <= 8192)%N.
Proof. exact bytes_forwarded. Qed.
Print Assumptions C90_bytes.

(** Each call is in order after those before. *)
Theorem C90_order : forall tr, seen tr -> forall pre e post, tr = pre ++ e :: post -> allowed pre e.
Proof. exact legal_seen. Qed.
Print Assumptions C90_order.

Example C90_case : exists tr, seen tr /\
  reads Inner tr = [1; 2; 3]%N /\ writes Outer tr = [1; 2]%N /\ reads Outer tr = [7]%N /\ writes Inner tr = [7]%N.
Proof.
  eexists. split.
  - exists new, [], [has [1; 2; 3]%N; takes 2; not_yet; not_yet; has [7]%N; takes 5; not_yet; done]. do 2 eexists. split; [apply Run_new|].
    vm_compute. reflexivity.
  - repeat split.
Qed.

(** * C91: each direction is closed on its own, after its last byte *)

Theorem C91_half_close : forall tr, seen tr -> forall s pre r post, tr = pre ++ Event (across s) (Shutdown r) :: post ->
  eof s pre /\ reads s pre = writes (across s) pre /\ reads s tr = reads s pre /\ writes (across s) tr = writes (across s) pre.
Proof. exact shut_after. Qed.
Print Assumptions C91_half_close.

(** The client has ended its side and the server goes on answering. *)
Example C91_case : exists tr, seen tr /\
  shut Outer tr /\ ~ shut Inner tr /\ writes Outer tr = [1]%N /\ writes Inner tr = [7; 8; 9]%N.
Proof.
  eexists. split.
  - do 2 eexists. exists [has [7; 8; 9]%N; takes 3; not_yet; done]. do 2 eexists. split.
    + eapply Run_poll; [apply Run_new|]. instantiate (4 := [has [1]%N; takes 1; has []; done; not_yet]). vm_compute. reflexivity.
    + vm_compute. reflexivity.
  - repeat split; [vm_compute; tauto|]. intro H. vm_compute in H. repeat (destruct H as [H|H]; [discriminate|]). exact H.
Qed.

(** * C92: when the connection is done, waits or fails *)

(** It is done when both directions are closed, and no earlier; *)
Theorem C92_done : forall d tr answers d' r rest tr', run d tr ->
  poll_duplex d (answers, tr) = (Some (d', r), (rest, tr')) -> (forall f, r <> Failed f) ->
  (r = Ready tt <-> shut Inner tr' /\ shut Outer tr').
Proof. exact finished. Qed.
Print Assumptions C92_done.
(** then all that either side has sent has reached the other. *)
Theorem C92_all : forall d tr answers d' rest tr', run d tr ->
  poll_duplex d (answers, tr) = (Some (d', Ready tt), (rest, tr')) ->
  forall s, eof s tr' /\ reads s tr' = writes (across s) tr'.
Proof. exact all_copied. Qed.
Print Assumptions C92_all.
(** When it is pending, each direction is closed, or waits for a call of this very poll, which will wake it. *)
Theorem C92_waits : forall d tr answers d' rest tr' s, run d tr ->
  poll_duplex d (answers, tr) = (Some (d', Pending), (rest, tr')) ->
  exists evs, tr' = tr ++ evs /\ (shut (across s) tr' \/ waiting s evs).
Proof. intros d tr answers d' rest tr' s R P. destruct (waits d tr answers d' rest tr' s R P) as (evs & E & W & _). eauto. Qed.
Print Assumptions C92_waits.
(** It fails when a call does, which is the last one. *)
Theorem C92_fails : forall d tr answers d' f rest tr', run d tr ->
  poll_duplex d (answers, tr) = (Some (d', Failed f), (rest, tr')) -> exists pre e, tr' = pre ++ [e] /\ failing e f.
Proof. exact fails. Qed.
Print Assumptions C92_fails.
(** A poll comes to an end as soon as the sockets let it: it still is going on only when their answers are lacking. *)
Theorem C92_ends : forall d answers tr rest tr', poll_duplex d (answers, tr) = (None, (rest, tr')) -> rest = [].
Proof. exact poll_ends. Qed.
Print Assumptions C92_ends.
(** But while the client has something to read and the server takes it, however long, the poll does not turn to the
    other direction. *)
Theorem C92_fair_refuted : forall n, exists tr,
  poll_duplex new (busy n, []) = (None, ([], tr)) /\ length tr = 2 * n /\ forall e, In e tr -> direction e = Inner.
Proof. exact starves. Qed.
Print Assumptions C92_fair_refuted.

Example C92_case_done : exists d' rest tr',
  poll_duplex new ([has [1]%N; takes 1; has []; done; has [7]%N; takes 1; has []; done], []) = (Some (d', Ready tt), (rest, tr')).
Proof. do 3 eexists. vm_compute. reflexivity. Qed.
Example C92_case_waits : exists d' rest tr',
  poll_duplex new ([has [1]%N; takes 1; has []; done; not_yet], []) = (Some (d', Pending), (rest, tr')).
Proof. do 3 eexists. vm_compute. reflexivity. Qed.
Example C92_case_fails : exists d' rest tr',
  poll_duplex new ([has [1]%N; takes 0], []) = (Some (d', Failed Write_zero), (rest, tr')).
Proof. do 3 eexists. vm_compute. reflexivity. Qed.

(** * C93: what has been written is flushed before waiting *)

(** That holds when the socket took at once all it was offered. *)
Theorem C93_flush_partial : forall d tr answers d' rest tr' s, run d tr ->
  poll_duplex d (answers, tr) = (Some (d', Pending), (rest, tr')) ->
  exists evs, tr' = tr ++ evs /\ (flushed s evs \/ congested s evs).
Proof. intros d tr answers d' rest tr' s R P. destruct (waits d tr answers d' rest tr' s R P) as (evs & E & _ & W). eauto. Qed.
Print Assumptions C93_flush_partial.
(** A flush that did not complete is taken up again before anything else in that direction. *)
Theorem C93_resumed : forall tr, seen tr -> forall pre e post, tr = pre ++ e :: post ->
  flush_due (direction e) pre -> exists r, ev_call e = Flush r.
Proof. exact resumed. Qed.
Print Assumptions C93_resumed.
(** Otherwise it may not: a socket that took part of the bytes, was flushed and took the others is not flushed again. *)
Theorem C93_flush_refuted : ~ (forall d tr answers d' rest tr' s, run d tr ->
  poll_duplex d (answers, tr) = (Some (d', Pending), (rest, tr')) -> exists evs, tr' = tr ++ evs /\ flushed s evs).
Proof.
  intro H. specialize (H new [] [has [1; 2]%N; takes 1; not_yet; done; takes 1; not_yet; not_yet]
    (Duplex (Half (Some []) false false) (Half (Some []) false false)) [] 
    [Event Inner (Read (Ready [1; 2]%N)); Event Outer (Write [1; 2]%N (Ready 1)); Event Outer (Write [2]%N Pending); Event Outer (Flush (Ready tt));
     Event Outer (Write [2]%N (Ready 1)); Event Inner (Read Pending); Event Outer (Read Pending)] Inner Run_new).
  destruct (H ltac:(vm_compute; reflexivity)) as (evs & E & F). cbn [app] in E. subst evs.
  destruct (F [Event Inner (Read (Ready [1; 2]%N)); Event Outer (Write [1; 2]%N (Ready 1)); Event Outer (Write [2]%N Pending); Event Outer (Flush (Ready tt))]
    [2]%N 1 [Event Inner (Read Pending)] eq_refl) as (r & [[G|[]]|[G|[]]]); discriminate.
Qed.
Print Assumptions C93_flush_refuted.

Example C93_case : exists d' rest tr',
  poll_duplex new ([has [1]%N; takes 1; not_yet; not_yet; not_yet], []) = (Some (d', Pending), (rest, tr')) /\
  flushed Inner tr' /\ flush_due Inner tr'.
Proof.
  do 3 eexists. split; [vm_compute; reflexivity|]. split.
  - intros a b n c E. cbn in E. exists Pending. left. destruct a as [|x a]; [discriminate|]. destruct a as [|y a]; [|destruct a as [|z a]; [discriminate|]].
    + inversion E. right. left. reflexivity.
    + exfalso. repeat (destruct a as [|? a]; try discriminate).
  - eexists. cbn. instantiate (1 := [_; _; _]). reflexivity.
Qed.
