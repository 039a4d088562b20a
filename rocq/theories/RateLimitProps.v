(** C31 *)
From Coq Require Import String List NArith Bool.
From Verif Require Import Bytes AuthzModel RateLimitModel RateLimitSpec RateLimitProofs.
Import ListNotations.
Open Scope N_scope.

(** For any limiter ([L], [fresh], [step]), limits [l] and requests [rs]: the outcome of
    each request is the one of its bucket's limiter and of the total one, if those were
    asked alone: the total one by every request, the bucket's by the requests in this
    bucket that the total one let pass. *)
Theorem C31_outcomes : forall L fresh step l, shared_rates l -> forall rs h i now o rest,
  combine rs (run L fresh step l (start L) rs) = h ++ ((i, now), o) :: rest ->
  exists b ts, bucket_of l i b /\ asked l b h ts /\ decision L fresh step l b (times h) ts now o.
Proof. exact outcome_ok. Qed.
Print Assumptions C31_outcomes.

(** The limits that are received satisfy the assumption. *)
Theorem C31_shared : forall url_parse a, shared_rates (limits_of url_parse a).
Proof. exact limits_shared. Qed.
Print Assumptions C31_shared.

(** In no period are more requests admitted than by the total limiter, asked by all, *)
Theorem C31_total : forall L fresh step l, shared_rates l -> forall rs rps a b, l_total l = Some rps ->
  (admitted a b (combine rs (run L fresh step l (start L) rs)) <= admits L step rps (fresh rps) a b (map snd rs))%nat.
Proof. exact total_bound. Qed.
Print Assumptions C31_total.

(** and those of a bucket are those that its limiter admits. *)
Theorem C31_bucket : forall L fresh step l, shared_rates l -> forall rs k rps a b n ts,
  (exists m, k = B_override m rps) \/ (exists i, k = B_identity i rps) ->
  admitted_in l k a b (combine rs (run L fresh step l (start L) rs)) n ->
  asked l k (combine rs (run L fresh step l (start L) rs)) ts ->
  n = admits L step rps (fresh rps) a b ts.
Proof. exact bucket_bound. Qed.
Print Assumptions C31_bucket.

(** Clients do not use each other's budget. *)
Theorem C31_independent : forall L fresh step l, shared_rates l -> forall rs rs' i now b ts,
  l_total l = None -> bucket_of l i b -> sent l b rs ts -> sent l b rs' ts ->
  last (run L fresh step l (start L) (rs ++ [(i, now)])) Admitted_ =
  last (run L fresh step l (start L) (rs' ++ [(i, now)])) Admitted_.
Proof. exact independent. Qed.
Print Assumptions C31_independent.

(** When the limiter is the generic cell rate algorithm, in [w] nanoseconds at most [rps]
    and one more for each [1000000000 / rps] nanoseconds are admitted. *)
Theorem C31_gcra : forall rps a b ts, 0 < rps -> rps <= 1000000000 -> ordered ts ->
  let k := N.of_nat (admits N gcra_step rps (gcra_fresh rps) a b ts) in
  k <= rps \/ (k - rps) * (1000000000 / rps) < b - a.
Proof. exact gcra_window. Qed.
Print Assumptions C31_gcra.

(** That is more than [rps] in a second: here 3 of 2. *)
Theorem C31_per_second_refuted : exists rps ts, ordered ts /\
  (N.to_nat rps < admits N gcra_step rps (gcra_fresh rps) 0 1000000000 ts)%nat.
Proof.
  exists 2, [0; 0; 500000000]. split; [|vm_compute; auto].
  intros x y [|? [|? [|? [|? a]]]] [|? [|? [|? b]]] c E; cbn in E; try discriminate; injection E as <-; subst; try discriminate;
    repeat match goal with H : _ = _ |- _ => injection H as <- | H : _ = _ |- _ => injection H as <- <- | H : _ = _ |- _ => discriminate H end; vm_compute; discriminate.
Qed.
Print Assumptions C31_per_second_refuted.

(** A request that its own limit rejects does use the total's budget: without the two
    rejected requests of one client, the other would be admitted. *)
Theorem C31_rejected_uses_total_refuted : exists l i j,
  run N gcra_fresh gcra_step l (start N) [(i, 0); (i, 0); (i, 0); (j, 0)] =
    [Admitted_; Over_identity 1; Over_identity 1; Over_total 3] /\
  run N gcra_fresh gcra_step l (start N) [(i, 0); (j, 0)] = [Admitted_; Admitted_].
Proof. exists (Limits (Some 3) (Some 1) []), (Some (Dns (bs "a"))), (Some (Dns (bs "b"))). vm_compute. split; reflexivity. Qed.
Print Assumptions C31_rejected_uses_total_refuted.

(** a and b share an override of 2, c has one of its own and then a later one; others have
    1 each, and those without identity have 1 together. *)
Example C31_example :
  let id_ s := Some (Dns (bs s)) in
  let l := limits_of (fun _ => None) (ApiLimits (Some 0) (Some 1)
    [ApiOverride (Some 2) [bs "a"; bs "b"]; ApiOverride (Some 9) [bs "c"]; ApiOverride (Some 1) [bs "c"]; ApiOverride (Some 0) [bs "a"]]) in
  run N gcra_fresh gcra_step l (start N)
    [(id_ "a"%string, 0); (id_ "b"%string, 0); (id_ "a"%string, 0); (id_ "c"%string, 0); (id_ "c"%string, 0);
     (id_ "d"%string, 0); (id_ "d"%string, 0); (id_ "e"%string, 0); (None, 0); (None, 0); (id_ "a"%string, 500000000)] =
    [Admitted_; Admitted_; Over_override 2; Admitted_; Over_override 1;
     Admitted_; Over_identity 1; Admitted_; Admitted_; Over_identity 1; Admitted_].
Proof. vm_compute. reflexivity. Qed.
