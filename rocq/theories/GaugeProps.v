(** C25: readiness gauges *)
From Coq Require Import String List Arith ZArith.
From Verif Require Import GaugeModel GaugeSpec GaugeProofs.
Import ListNotations.

(** The gauges are the numbers of endpoints that are there and said last that they are ready, or pending. *)
Theorem C25_gauges : forall l s, run l s -> g_ready s = Z.of_nat (ready_endpoints l) /\ g_pending s = Z.of_nat (pending_endpoints l).
Proof. exact gauges. Qed.
Print Assumptions C25_gauges.

Theorem C25_zero : forall l s, run l s -> (forall i, i < created l -> In (Drop i) l) -> g_ready s = 0%Z /\ g_pending s = 0%Z.
Proof. exact all_dropped. Qed.
Print Assumptions C25_zero.

Definition demo : list op := [New; New; New; Poll 0 Pending; Poll 1 Ready; Poll 2 Ready; Poll 0 Error; Poll 1 Error; Drop 2].
Lemma run_of : forall l s s' pre, run pre s -> fold_left (fun o x => match o with Some s => step s x | None => None end) l (Some s) = Some s' -> run (pre ++ l) s'.
Proof.
  induction l as [|o l IH]; intros s s' pre R E; cbn in E.
  - injection E as <-. rewrite app_nil_r. exact R.
  - destruct (step s o) as [s1|] eqn:S; [|exfalso; clear -E; induction l as [|x l IH]; cbn in E; [discriminate|auto]].
    replace (pre ++ o :: l) with ((pre ++ [o]) ++ l) by (rewrite <- app_assoc; reflexivity). exact (IH _ _ _ (run_step _ _ _ _ R S) E).
Qed.
Example C25_demo : run demo (State [Some (Some Known_pending); Some (Some Known_ready); None] 1 1) /\ ready_endpoints demo = 1 /\ pending_endpoints demo = 1.
Proof. split; [exact (run_of demo _ _ [] run_init eq_refl)|split; reflexivity]. Qed.
Example C25_zero_demo : exists s, run (demo ++ [Drop 0; Drop 1]) s /\ created (demo ++ [Drop 0; Drop 1]) = 3 /\ g_ready s = 0%Z.
Proof. eexists. split; [exact (run_of (demo ++ [Drop 0; Drop 1]) _ _ [] run_init eq_refl)|split; reflexivity]. Qed.
