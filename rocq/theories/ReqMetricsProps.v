(** C53: the counters of requests and responses *)
From Coq Require Import String List NArith Permutation.
From Verif Require Import ReqMetricsModel ReqMetricsSpec ReqMetricsProofs.
Import ListNotations.
Open Scope N_scope.

(** The total of requests is the number of requests that had no body or whose body was read. *)
Theorem C53_requests : forall classifier eos_classifier start fail eos eos_error t0 h s,
  run classifier eos_classifier start fail eos eos_error t0 h s ->
  total (counters _ _ s) = N.of_nat (number_sent classifier h) mod 2 ^ 64.
Proof. exact run_total. Qed.
Print Assumptions C53_requests.

(** For each status and class, the total of responses is the number of requests with that outcome. *)
Theorem C53_responses : forall classifier eos_classifier start fail eos eos_error t0 h s st class,
  run classifier eos_classifier start fail eos eos_error t0 h s ->
  responses (counters _ _ s) st class = N.of_nat (number_with classifier eos_classifier start fail eos eos_error h st class) mod 2 ^ 64.
Proof. exact run_responses. Qed.
Print Assumptions C53_responses.

(** For each status, the latencies recorded are the times the responses took. *)
Theorem C53_latencies : forall classifier eos_classifier start fail eos eos_error t0 h s st,
  run classifier eos_classifier start fail eos eos_error t0 h s ->
  Permutation (latencies (counters _ _ s) (Some st)) (waits classifier h st).
Proof. exact run_latencies. Qed.
Print Assumptions C53_latencies.

(** A request that failed, or whose response's body ended, failed or was dropped, has an outcome... *)
Theorem C53_settled : forall classifier eos_classifier start fail eos eos_error t0 h s,
  run classifier eos_classifier start fail eos eos_error t0 h s ->
  forall id i, In i h -> settles classifier id i = true -> exists v, outcome classifier eos_classifier start fail eos eos_error h id = Some v.
Proof. exact run_settled. Qed.
Print Assumptions C53_settled.

(** ...and it keeps the one it has, and its latency. *)
Theorem C53_outcome_kept : forall classifier eos_classifier start fail eos eos_error h h' id v,
  outcome classifier eos_classifier start fail eos eos_error h id = Some v ->
  outcome classifier eos_classifier start fail eos eos_error (h ++ h') id = Some v.
Proof. exact outcome_app. Qed.
Print Assumptions C53_outcome_kept.
Theorem C53_wait_kept : forall classifier h h' id v,
  waited classifier h id = Some v -> waited classifier (h ++ h') id = Some v.
Proof. exact waited_app. Qed.
Print Assumptions C53_wait_kept.

(** A call that is given up before its response has neither. *)
Theorem C53_cancelled : forall classifier eos_classifier start fail eos eos_error t0 h s id,
  run classifier eos_classifier start fail eos eos_error t0 h s -> In (Cancel _ id) h ->
  outcome classifier eos_classifier start fail eos eos_error h id = None /\ waited classifier h id = None.
Proof. exact run_cancelled_outcome. Qed.
Print Assumptions C53_cancelled.

(** Whatever changes the counters sets the time of their last update. *)
Theorem C53_updated : forall classifier eos_classifier start fail eos eos_error s i s',
  step classifier eos_classifier start fail eos eos_error s i = Some s' ->
  counters _ _ s' = counters _ _ s \/ time classifier i = Some (last_update (counters _ _ s')).
Proof. exact step_updated. Qed.
Print Assumptions C53_updated.

(** ** Examples *)
Section Examples.
  (** A classifier for the examples: numbers for its classes *)
  Let start (c : N) (hd : head) : N := status hd.
  Let fail (c : N) (e : N) : N := 7.
  Let eos (k : N) (t : option N) : N := match t with Some 0 => 0 | Some _ => 1 | None => if k <? 500 then 0 else 1 end.
  Let eos_error (k : N) (e : N) : N := 8.
  Notation run := (run N N start fail eos eos_error).
  Notation state := (state N N).
  Fixpoint go (s : state) (l : list (input N)) : option state :=
    match l with [] => Some s | i :: l => match step N N start fail eos eos_error s i with Some s => go s l | None => None end end.
  Lemma go_run : forall t0 l s pre s', run t0 pre s -> go s l = Some s' -> run t0 (pre ++ l) s'.
  Proof.
    induction l as [|i l IH]; intros s pre s' R E; cbn in E.
    - injection E as <-. rewrite app_nil_r. exact R.
    - destruct (step N N start fail eos eos_error s i) as [s1|] eqn:S1; [|discriminate].
      replace (pre ++ i :: l) with ((pre ++ [i]) ++ l) by (rewrite <- app_assoc; reflexivity).
      apply (IH s1); [|exact E]. econstructor; eassumption.
  Qed.

  (** Four requests: one succeeds, one fails in its trailers, one has no response, one is given up *)
  Definition demo : list (input N) :=
    [Call _ true 0 10; Call _ false 0 11; Poll_request _ 1%nat false 12; Poll_request _ 1%nat true 13; Respond _ 0%nat (inl (Head 200 0)) 14;
     Call _ true 0 15; Call _ true 0 15; Respond _ 2%nat (inr 3) 16; Poll_response _ 0%nat P_pending 16; Poll_response _ 0%nat P_data 17;
     Respond _ 1%nat (inl (Head 200 0)) 18; Poll_response _ 0%nat P_end 20; Drop_response _ 0%nat 21; Cancel _ 3%nat;
     Poll_response _ 1%nat (P_trailers 5) 30; Drop_response _ 1%nat 31].
  Example C53_demo : exists s, run 0 demo s /\ total (counters _ _ s) = 4 /\
    responses (counters _ _ s) (Some 200) 0 = 1 /\ responses (counters _ _ s) (Some 200) 1 = 1 /\ responses (counters _ _ s) None 7 = 1 /\
    latencies (counters _ _ s) (Some 200) = [7; 19] /\ last_update (counters _ _ s) = 30.
  Proof. eexists. split; [eapply (go_run 0 demo _ []); [exact (run_init _ _ _ _ _ _ 0)|vm_compute; reflexivity]|vm_compute; repeat split]. Qed.
  Example C53_demo_settled : In (Drop_response N 0%nat 21) demo /\ settles N 0 (Drop_response N 0%nat 21) = true /\ In (Cancel N 3%nat) demo.
  Proof. vm_compute. tauto. Qed.

  (** That the latency of every response is recorded is wrong: none is if the body fails before it gives anything. *)
  Theorem C53_latency_refuted : exists h s id, run 0 h s /\
    outcome N N start fail eos eos_error h id = Some (Some 200, 8) /\ responses (counters _ _ s) (Some 200) 8 = 1 /\ latencies (counters _ _ s) (Some 200) = [].
  Proof.
    exists [Call _ true 0 10; Respond _ 0%nat (inl (Head 200 0)) 12; Poll_response _ 0%nat (P_error 4) 20; Drop_response _ 0%nat 21].
    eexists. exists 0%nat. split; [eapply (go_run 0 [Call _ true 0 10; Respond _ 0%nat (inl (Head 200 0)) 12; Poll_response _ 0%nat (P_error 4) 20; Drop_response _ 0%nat 21] _ []);
      [exact (run_init _ _ _ _ _ _ 0)|vm_compute; reflexivity]|vm_compute; repeat split].
  Qed.
  Print Assumptions C53_latency_refuted.
  (** That the latency spans the response's body, as the metric's help says, is wrong: it ends when the body begins. *)
  Theorem C53_stream_latency_refuted : exists h s, run 0 h s /\
    In (Poll_response _ 0%nat P_end 90) h /\ find (settles N 0) h = Some (Poll_response _ 0%nat P_end 90) /\ latencies (counters _ _ s) (Some 200) = [5].
  Proof.
    exists [Call _ true 0 10; Respond _ 0%nat (inl (Head 200 0)) 12; Poll_response _ 0%nat P_data 15; Poll_response _ 0%nat P_end 90].
    eexists. split; [eapply (go_run 0 [Call _ true 0 10; Respond _ 0%nat (inl (Head 200 0)) 12; Poll_response _ 0%nat P_data 15; Poll_response _ 0%nat P_end 90] _ []);
      [exact (run_init _ _ _ _ _ _ 0)|vm_compute; reflexivity]|vm_compute; repeat split; tauto].
  Qed.
  Print Assumptions C53_stream_latency_refuted.
  (** That there are at least as many requests as responses is wrong: a response can come before the request's body is read. *)
  Theorem C53_more_responses_refuted : exists h s, run 0 h s /\ total (counters _ _ s) = 0 /\ responses (counters _ _ s) (Some 503) 1 = 1.
  Proof.
    exists [Call _ false 0 10; Respond _ 0%nat (inl (Head 503 0)) 12; Poll_response _ 0%nat P_end 15; Drop_response _ 0%nat 16].
    eexists. split; [eapply (go_run 0 [Call _ false 0 10; Respond _ 0%nat (inl (Head 503 0)) 12; Poll_response _ 0%nat P_end 15; Drop_response _ 0%nat 16] _ []);
      [exact (run_init _ _ _ _ _ _ 0)|vm_compute; reflexivity]|vm_compute; repeat split].
  Qed.
  Print Assumptions C53_more_responses_refuted.
End Examples.
