(** C55: the metrics of a target are shared, reported and kept while they are in use *)
From Coq Require Import String List NArith.
From Verif Require Import StoreModel StoreSpec StoreProofs.
Import ListNotations.
Open Scope N_scope.

(** A report has one entry for each key that is known, with all that was recorded for it through any handle. *)
Theorem C55_reported : forall retain_idle l t rs s, run retain_idle (l ++ [Report t]) rs s ->
  exists rs0 r, rs = rs0 ++ [r] /\ says r (after retain_idle l).
Proof. exact reported. Qed.
Print Assumptions C55_reported.

(** A key that is in use is known. *)
Theorem C55_in_use : forall retain_idle l rs s k, run retain_idle l rs s -> in_use (after retain_idle l) k = true ->
  exists v, known (after retain_idle l) k = Some v.
Proof. exact in_use_known. Qed.
Print Assumptions C55_in_use.

(** While it is in use, nothing that was recorded is lost between two reports. *)
Theorem C55_lossless : forall retain_idle l t l' t' rs s k n, run retain_idle (l ++ Report t :: l' ++ [Report t']) rs s ->
  always_in_use retain_idle (after retain_idle l) (Report t :: l') k = true ->
  exists rs0 r rs1 r', rs = rs0 ++ r :: rs1 ++ [r'] /\
    (In (k, n) r -> In (k, n + added retain_idle (after retain_idle l) (Report t :: l') k) r').
Proof. exact lossless. Qed.
Print Assumptions C55_lossless.

(** ** Examples *)
Fixpoint go (retain_idle : N) (s : state) (l : list input) : option (state * list (list (N * N))) :=
  match l with
  | [] => Some (s, [])
  | i :: l => match step retain_idle s i with
              | Some (s, r) => option_map (fun x => (fst x, match r with Some r => [r] | None => [] end ++ snd x)) (go retain_idle s l)
              | None => None
              end
  end.
Lemma go_run : forall retain_idle l s pre rs s' rs', run retain_idle pre rs s -> go retain_idle s l = Some (s', rs') -> run retain_idle (pre ++ l) (rs ++ rs') s'.
Proof.
  intros retain_idle. induction l as [|i l IH]; intros s pre rs s' rs' R E; cbn in E.
  - injection E as <- <-. rewrite !app_nil_r. exact R.
  - destruct (step retain_idle s i) as [[s1 r]|] eqn:S1; [|discriminate]. destruct (go retain_idle s1 l) as [[s2 rs2]|] eqn:G; [|discriminate].
    cbn in E. injection E as <- <-. replace (pre ++ i :: l) with ((pre ++ [i]) ++ l) by (rewrite <- app_assoc; reflexivity).
    rewrite app_assoc. apply (IH s1); [|exact G]. econstructor; eassumption.
Qed.
(** Two services of target 7 and one of target 8; the latter goes away and its metrics are dropped after a while *)
Definition demo : list input :=
  [Get 7 0; Get 8 1; Get 7 2; Record_ 0 5 3; Record_ 2 6 4; Record_ 1 1 5; Drop 1; Report 10; Record_ 2 4 11; Report 30; Copy 0; Drop 0; Drop 2; Record_ 3 9 31; Report 60].
Example C55_demo : option_map snd (go 10 init demo) = Some [[(7, 11); (8, 1)]; [(7, 15); (8, 1)]; [(7, 24)]].
Proof. vm_compute. reflexivity. Qed.
Example C55_demo_run : exists s, run 10 demo [[(7, 11); (8, 1)]; [(7, 15); (8, 1)]; [(7, 24)]] s.
Proof. eexists. eapply (go_run 10 demo init [] []); [exact (run_init 10)|vm_compute; reflexivity]. Qed.
Example C55_demo_in_use : always_in_use 10 (after 10 (firstn 7 demo)) (firstn 2 (skipn 7 demo)) 7 = true /\
  added 10 (after 10 (firstn 7 demo)) (firstn 2 (skipn 7 demo)) 7 = 4 /\ in_use (after 10 demo) 7 = true /\ in_use (after 10 demo) 8 = false.
Proof. vm_compute. repeat split. Qed.
