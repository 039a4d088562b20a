(** C45 *)
From Coq Require Import List NArith ZArith QArith Sorted.
From Verif Require Import HistogramModel HistogramSpec HistogramProofs.
Import ListNotations.
Open Scope N_scope.

(** The bounds that are accepted are those in increasing order, above zero. *)
Theorem C45_new : forall bs, (exists h, new bs = Some h) <-> Sorted below (Le (Finite 0) :: bs).
Proof. exact new_iff. Qed.
Print Assumptions C45_new.
(** Every observation is counted once, in the bucket it belongs to; nothing panics. *)
Theorem C45_buckets : forall bs vs, Sorted below (Le (Finite 0) :: bs ++ [Inf]) -> Forall precise vs ->
  exists h, observed (bs ++ [Inf]) vs h /\ h_sum h = total vs mod 2 ^ 64 /\
    buckets h = map (fun i => count (fun v => Nat.eqb (bucket_of (bs ++ [Inf]) v) i) vs mod 2 ^ 64) (seq 0 (length (bs ++ [Inf]))).
Proof. exact observed_spec. Qed.
Print Assumptions C45_buckets.
(** What is reported for a bound is how many observations were at most that, and the count and
    the sum are those of all of them. *)
Theorem C45_report : forall bs vs h, Sorted below (Le (Finite 0) :: bs ++ [Inf]) -> Forall precise vs -> N.of_nat (length vs) <= 2 ^ 53 ->
  observed (bs ++ [Inf]) vs h ->
  fmt_metric (bs ++ [Inf]) (buckets h) (h_sum h) =
  map (fun b => Bucket_line b (count (at_most b) vs)) (bs ++ [Inf]) ++
    [Count_line (N.of_nat (length vs)); Sum_line (total vs mod 2 ^ 64 mod (2 ^ 53 + 1))].
Proof. exact report_spec. Qed.
Print Assumptions C45_report.
(** Of latencies, it is reported how many were at most one to 50 000 milliseconds, and how many there were. *)
Theorem C45_latencies : forall vs, Forall precise vs -> N.of_nat (length vs) <= 2 ^ 53 ->
  exists h, observed latency_bounds vs h /\
    map value_of (fmt_metric latency_bounds (buckets h) (h_sum h)) =
    map (fun ms => count (fun v => v <=? ms) vs)
      [1; 2; 3; 4; 5; 10; 20; 30; 40; 50; 100; 200; 300; 400; 500; 1000; 2000; 3000; 4000; 5000; 10000; 20000; 30000; 40000; 50000] ++
    [N.of_nat (length vs); N.of_nat (length vs); total vs mod 2 ^ 64 mod (2 ^ 53 + 1)].
Proof. exact latencies. Qed.
Print Assumptions C45_latencies.
(** While observations are being added, the reported series still lies between those before
    and after, does not decrease, and ends with the count. *)
Theorem C45_concurrent : forall bs vs ns cs s, Sorted below (Le (Finite 0) :: bs ++ [Inf]) -> Forall precise vs -> N.of_nat (length vs) <= 2 ^ 53 ->
  read_at (bs ++ [Inf]) vs ns cs ->
  (forall i b, nth_error (bs ++ [Inf]) i = Some b -> exists m,
    nth_error (fmt_metric (bs ++ [Inf]) cs s) i = Some (Bucket_line b m) /\
    count (at_most b) (firstn (nth 0 ns 0%nat) vs) <= m <= count (at_most b) (firstn (nth i ns 0%nat) vs)) /\
  (forall i j x y, (i <= j)%nat -> (j <= length (bs ++ [Inf]))%nat -> nth_error (fmt_metric (bs ++ [Inf]) cs s) i = Some x -> nth_error (fmt_metric (bs ++ [Inf]) cs s) j = Some y -> value_of x <= value_of y) /\
  exists x, nth_error (fmt_metric (bs ++ [Inf]) cs s) (length bs) = Some (Bucket_line Inf x) /\
            nth_error (fmt_metric (bs ++ [Inf]) cs s) (length (bs ++ [Inf])) = Some (Count_line x).
Proof. exact concurrent_report. Qed.
Print Assumptions C45_concurrent.
(** Latencies are whole milliseconds or microseconds, as far as 64 bits allow. *)
Theorem C45_ms : forall d, nanos d < 10 ^ 9 -> from_ms d = N.min (2 ^ 64 - 1) (nanoseconds d / 10 ^ 6).
Proof. exact ms_spec. Qed.
Print Assumptions C45_ms.
Theorem C45_us : forall d, nanos d < 10 ^ 9 -> from_us d = N.min (2 ^ 64 - 1) (nanoseconds d / 10 ^ 3).
Proof. exact us_spec. Qed.
Print Assumptions C45_us.
(** Larger observations wrap, and are counted in the wrong bucket. *)
Theorem C45_wrap_refuted : exists v h, v < 2 ^ 64 /\ observed latency_bounds [v] h /\ bucket_of latency_bounds v = 25%nat /\ nth_error (buckets h) 0 = Some 1.
Proof.
  exists (2 ^ 53 + 1). eexists. split; [reflexivity|]. split; [eexists; split; [reflexivity|vm_compute; reflexivity]|].
  split; vm_compute; reflexivity.
Qed.
Print Assumptions C45_wrap_refuted.

Example latency_bounds_sorted : Sorted below (Le (Finite 0) :: removelast latency_bounds ++ [Inf]).
Proof. apply new_iff. eexists. vm_compute. reflexivity. Qed.
Example C45_example : exists h, observed latency_bounds [0; 1; 7; 10; 60000; 60001] h /\
  map value_of (fmt_metric latency_bounds (buckets h) (h_sum h)) =
  [2; 2; 2; 2; 2; 4; 4; 4; 4; 4; 4; 4; 4; 4; 4; 4; 4; 4; 4; 4; 4; 4; 4; 4; 4; 6; 6; 120019].
Proof. eexists. split; [eexists; split; [reflexivity|vm_compute; reflexivity]|]. vm_compute. reflexivity. Qed.
(** The first bucket is read before, the others after, the second observation. *)
Example C45_concurrent_example : read_at [Le (Finite 1); Le (Finite 5); Inf] [1; 1; 4] [1; 3; 3]%nat [1; 1; 0].
Proof.
  split; [reflexivity|]. split; [reflexivity|]. split.
  - intros [|[|[|i]]] [|[|[|j]]] n m H E1 E2; cbn in E1, E2; try discriminate; try (injection E1 as <-); try (injection E2 as <-); repeat constructor; try (exfalso; inversion H; fail);
      try (destruct i; discriminate); try (destruct j; discriminate); exfalso; repeat match goal with H : (S _ <= _)%nat |- _ => inversion H; clear H; subst end.
  - intros [|[|[|i]]] n E; cbn in E; try (injection E as <-; eexists; split; [eexists; split; [reflexivity|vm_compute; reflexivity]|reflexivity]). destruct i; discriminate.
Qed.
