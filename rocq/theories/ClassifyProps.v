(** C50 *)
From Coq Require Import String List NArith Bool.
From Verif Require Import Bytes FilterModel TraceModel RetrySpec BreakerModel ClassifyModel ClassifySpec ClassifyProofs.
Import ListNotations.
Open Scope N_scope.

(** Which classifier a request gets. *)
Theorem C50_classifier : forall r hs, effective r hs (classify r hs).
Proof. exact classify_effective. Qed.
Print Assumptions C50_classifier.

(** A response whose body ends in any way has exactly one class, the right one. *)
Theorem C50_one_class : forall r st hs es tr, ends es tr ->
  exists c, snd (run (call (Some r)) (Responds st hs :: es)) = [c] /\
    match tr with Some t => class_of r st hs t c | None => c = Failed end.
Proof. exact one_class. Qed.
Print Assumptions C50_one_class.
(** The right one is only one. *)
Theorem C50_class_unique : forall r st hs tr c c',
  class_of r st hs tr c -> class_of r st hs tr c' -> c = c'.
Proof. exact class_of_fun. Qed.
Print Assumptions C50_class_unique.

Theorem C50_failed : forall r es, snd (run (call (Some r)) (Fails :: es)) = [Failed].
Proof. exact failed_class. Qed.
Print Assumptions C50_failed.
Theorem C50_at_most_one : forall r es, (length (snd (run (call r) es)) <= 1)%nat.
Proof. exact at_most_one. Qed.
Print Assumptions C50_at_most_one.
(** A request that is dropped before its response is never classified. *)
Theorem C50_dropped : forall r es, snd (run (call r) (Drop :: es)) = [].
Proof. exact dropped_class. Qed.
Print Assumptions C50_dropped.
(** A gRPC call that ends without a status is not a failure. *)
Theorem C50_missing_status_refuted : exists st hs c,
  snd (run (call (Some (R_grpc [15; 4; 13; 7; 14; 2]))) [Responds st hs; Data; End]) = [c] /\
  is_failure c = false /\ st = 200 /\ hm_get hs (bs "grpc-status") = None.
Proof. exists 200, [], (Grpc false 2). vm_compute. auto. Qed.
Print Assumptions C50_missing_status_refuted.

Example C50_demo :
  ends [Data; Data; Trailers [(bs "grpc-status", bs "14")]; End; Drop] (Some (Some [(bs "grpc-status", bs "14")])) /\
  class_of (R_grpc [14]) 200 [] (Some [(bs "grpc-status", bs "14")]) (Grpc true 14) /\
  class_of (R_http [(500, 599)]) 503 [] None (Http true 503) /\
  class_of (R_profile [RClass false (All [Status 500 599; Not (Status 503 503)])]) 500 [] None (Http false 500).
Proof.
  repeat match goal with |- _ /\ _ => split end.
  - exists 2%nat, [End; Drop], (Trailers [(bs "grpc-status", bs "14")]). split; reflexivity.
  - exact (class_correct (R_grpc [14]) 200 [] (Some [(bs "grpc-status", bs "14")])).
  - exact (class_correct (R_http [(500, 599)]) 503 [] None).
  - exact (class_correct (R_profile [RClass false (All [Status 500 599; Not (Status 503 503)])]) 500 [] None).
Qed.
