(** C139: bytes are counted by zone *)
From Coq Require Import String List NArith Bool Arith.
From Verif Require Import Bytes EndpointModel EndpointSpec EndpointProofs LabelModel ZoneModel ZoneSpec ZoneProofs.
Import ListNotations.
Open Scope N_scope.

(** What is shown for a zone is what was received from, or sent to, the endpoints of that zone, over all connections that were made to them *)
Theorem C139_bytes : forall h s o z n, run h s -> shown s o z n -> n = transferred h o z mod 2 ^ 64.
Proof. exact bytes. Qed.
Print Assumptions C139_bytes.

(** Something is shown, and one thing, for the zones of the endpoints for which connections were asked for *)
Theorem C139_series : forall h s o z, run h s -> (exists n, shown s o z n) <-> In z (zones h).
Proof. exact series. Qed.
Print Assumptions C139_series.
Theorem C139_once : forall h s o z n m, run h s -> shown s o z n -> shown s o z m -> n = m.
Proof. exact once. Qed.
Print Assumptions C139_once.

(** The zone of an endpoint is what its own label says, in any case; without one, or with another text, it is not known *)
Theorem C139_zone : forall set_labels w m url authority duration, described url authority duration set_labels w m ->
  (zone_new m = Z_local <-> exists v, In (bs "zone_locality"%string, v) (w_labels w) /\ lowers v = bs "local"%string) /\
  (zone_new m = Z_remote <-> exists v, In (bs "zone_locality"%string, v) (w_labels w) /\ lowers v = bs "remote"%string).
Proof. exact zone_said. Qed.
Print Assumptions C139_zone.

(** Shows the hypotheses can be met: two connections to a zone, of which one is made; one to another *)
Definition at_zone (z : option bool) : metadata := Metadata [] 1 Unknown None None None h2_default z.
Definition ex_history : list event :=
  [Connects (at_zone (Some true)); Connects (at_zone (Some false)); Connects (at_zone (Some true)); Connected 2; Fails 0; Connected 1;
   Reads 2 (Done 10); Writes 1 (Done 3); Reads 2 Pending; Writes 2 (Done 5); Reads 1 Failed; Drops 1; Reads 2 (Done 7)].
Example C139_ex : exists s, run ex_history s /\ shown s Recv Z_local 17 /\ shown s Send Z_local 5 /\ shown s Send Z_remote 3 /\ shown s Recv Z_remote 0 /\
  transferred ex_history Recv Z_local = 17.
Proof.
  assert (K : forall h h' s s', run h s -> fold_left (fun s e => match s with Some s => step s e | None => None end) h' (Some s) = Some s' -> run (h ++ h') s').
  { intros h h'. revert h. induction h' as [|e h' IH]; intros h s s' R E; cbn [fold_left] in E.
    - injection E as <-. rewrite app_nil_r. exact R.
    - destruct (step s e) as [s1|] eqn:S.
      + replace (h ++ e :: h') with ((h ++ [e]) ++ h') by (rewrite <- app_assoc; reflexivity). exact (IH _ _ _ (run_step _ _ _ _ R S) E).
      + exfalso. clear -E. induction h' as [|x h' IH]; cbn [fold_left] in E; [discriminate|exact (IH E)]. }
  exists (State [((Recv, Z_local), 17); ((Send, Z_local), 5); ((Recv, Z_remote), 0); ((Send, Z_remote), 3)] [(Z_local, Gone); (Z_remote, Gone); (Z_local, Open)]).
  split; [apply (K [] ex_history _ _ run_init); vm_compute; reflexivity|]. unfold shown. cbn [counters In]. split; [auto|]. split; [auto|]. split; [auto|]. split; [auto|]. vm_compute. reflexivity.
Qed.
