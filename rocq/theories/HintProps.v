(** C20 *)
From Coq Require Import String List NArith Bool.
From Verif Require Import Bytes FilterModel TraceModel RetrySpec HintModel HintSpec HintProofs.
Import ListNotations.
Open Scope N_scope.

(** [date] is what dates are read as; [now] and the cap [max] are any. *)
Theorem C20_retry_after : forall date now status hs max d,
  parse_retry_after date now status hs max = Some d <->
  (status = 429 \/ status = 503) /\
  exists v, hm_get hs (bs "retry-after") = Some v /\ printable v /\ delay_text date now max v d.
Proof. exact retry_after_iff. Qed.
Print Assumptions C20_retry_after.

Theorem C20_pushback : forall hs max d,
  parse_grpc_retry_pushback hs max = Some d <->
  exists v, hm_get hs (bs "grpc-retry-pushback-ms") = Some v /\ printable v /\ pushback_text max v d.
Proof. exact pushback_iff. Qed.
Print Assumptions C20_pushback.

Theorem C20_capped : forall date now max v d,
  delay_text date now max v d \/ pushback_text max v d -> d <= max.
Proof. intros date now max v d [H|H]; [exact (delay_text_cap date now max v d H)|exact (pushback_text_cap max v d H)]. Qed.
Print Assumptions C20_capped.

Definition no_date (_ : bytes) : option N := None.
Definition a_date (t : bytes) : option N :=
  if beq t (bs "Wed, 21 Oct 2026 07:28:00 GMT") then Some 1792567680000000000 else None.
Example C20_demo :
  delay_text no_date 5 (300 * 10 ^ 9) (bs " 120") (120 * 10 ^ 9) /\
  delay_text no_date 5 (300 * 10 ^ 9) (bs "18446744073709551615") (300 * 10 ^ 9) /\
  ~ (exists d, delay_text no_date 5 (300 * 10 ^ 9) (bs "18446744073709551616") d) /\
  delay_text a_date 1792567620000000000 (300 * 10 ^ 9) (bs "Wed, 21 Oct 2026 07:28:00 GMT") (60 * 10 ^ 9) /\
  delay_text a_date 1792567680000000001 (300 * 10 ^ 9) (bs "Wed, 21 Oct 2026 07:28:00 GMT") 0 /\
  pushback_text (300 * 10 ^ 9) (bs "1500	") (1500 * 10 ^ 6) /\
  pushback_text (300 * 10 ^ 9) (bs "-0") 0 /\
  ~ (exists d, pushback_text (300 * 10 ^ 9) (bs "-1") d) /\
  ~ (exists d, pushback_text (300 * 10 ^ 9) (bs "2147483648") d).
Proof.
  assert (P : forall max v d, printable v -> (pushback_text max v d <->
    parse_grpc_retry_pushback [(bs "grpc-retry-pushback-ms", v)] max = Some d)).
  { intros max v d Hp. rewrite C20_pushback. unfold hm_get. cbn [find fst]. rewrite BytesProofs.beq_refl. cbn [option_map snd].
    split; [intros H; now exists v|]. intros (v' & E & _ & H). injection E as <-. exact H. }
  repeat match goal with |- _ /\ _ => split end.
  1,2,4,5: apply value_iff; vm_compute; reflexivity.
  - intros [d H]. apply value_iff in H. vm_compute in H. discriminate.
  - apply P; [apply to_str_iff|]; vm_compute; reflexivity.
  - apply P; [apply to_str_iff|]; vm_compute; reflexivity.
  - intros [d H]. apply P in H; [vm_compute in H; discriminate|]. apply to_str_iff. vm_compute. reflexivity.
  - intros [d H]. apply P in H; [vm_compute in H; discriminate|]. apply to_str_iff. vm_compute. reflexivity.
Qed.
