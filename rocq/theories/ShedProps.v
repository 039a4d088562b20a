(** C148: how many requests a proxy serves at a time, and the counters of those that fail *)
From Coq Require Import String List NArith Bool Lia.
From Verif Require PromModel PromSpec.
From Verif Require Import Bytes HintSpec FilterModel Http1Model RespondModel RespondSpec RespondProofs ForwardModel ShedModel ShedSpec ShedProofs.
Import ListNotations.
Open Scope N_scope.

(** No more than [max] requests are with the service beneath at any time, whatever the connections they come on, and what is
    left of [max] is free for others: a request that is answered, fails or is dropped makes room for one more. *)
Theorem C148_limit : forall d max es, once es ->
  size (serving max es) <= max /\ map fst (st_flying (run d max es)) = serving max es /\
  st_permits (run d max es) + size (serving max es) = max.
Proof. exact at_most. Qed.
Print Assumptions C148_limit.

(** The answers to requests are those that the result of each calls for. *)
Theorem C148_answers : forall d max es id a, once es ->
  (In (id, a) (st_answers (run d max es)) <-> exists c r, comes_to max es id c r /\ answer d c r a).
Proof. exact one_answer. Qed.
Print Assumptions C148_answers.

(** No request is answered twice; each that came is being served, has been answered or was dropped by its client. *)
Theorem C148_once : forall d max es, once es -> NoDup (map fst (st_answers (run d max es))).
Proof. exact once_answered. Qed.
Print Assumptions C148_once.
Theorem C148_settled : forall d max es id, once es -> In id (flat_map coming es) ->
  In id (serving max es) \/ (exists a, In (id, a) (st_answers (run d max es))) \/ In (Gone id) es.
Proof. exact settled. Qed.
Print Assumptions C148_settled.

(** A request that there is no room for is answered at once, with 503 or the code of gRPC for it, and its connection is closed. *)
Theorem C148_shed : forall d max es id c emit client q, once es ->
  comes_to max es id c No_room -> c_responder c = new_respond emit client q ->
  exists rsp a, In (id, Synthesized rsp client) (st_answers (run d max es)) /\
    a = Answer 503 14 true (match d with Inbound => c_text c | Outbound => [] end ++ bs "service unavailable"%string) None /\
    (grpc_request q -> grpc_answer emit a rsp) /\
    (~ grpc_request q -> exists mention, mentions q mention /\ http_answer emit mention (q_version q) a rsp).
Proof. exact shed_answer. Qed.
Print Assumptions C148_shed.

(** Each counter has as many requests as failed on that server with an error that counts so. *)
Theorem C148_counted : forall d max es b k, once es ->
  PromSpec.how_many (fun id => exists c r e, comes_to max es id c r /\ error_of r e /\ labels d c = b /\ counts_as d e (Some k))
    (counter (b, k) (run d max es)).
Proof. exact counters_many. Qed.
Print Assumptions C148_counted.

(** The limit is none on the requests whose responses go on: their bodies can be as many as one likes. *)
Theorem C148_bodies_refuted : forall d max n, 0 < max -> exists es, once es /\ n < size (st_bodies (run d max es)).
Proof.
  intros d max n M. exists (one_by_one (Caller [] [] (Responder Http_11 false false true false)) (Response 200 Http_11 []) (S (N.to_nat n))).
  split; [apply one_by_one_once|]. destruct (one_by_one_bodies d max (Caller [] [] (Responder Http_11 false false true false)) (Response 200 Http_11 []) (S (N.to_nat n)) M) as (_ & _ & B).
  unfold size. rewrite B. lia.
Qed.
Print Assumptions C148_bodies_refuted.

(** Requests that a route redirects as it is configured to, and those over a limit on their rate, are counted as unexpected
    errors of the inbound proxy. *)
Theorem C148_policy_refuted : forall max c status location t t', 0 < max -> valid_value location ->
  let es := [Arrive 1 c Ready; Finish 1 (inr [(Inbound_redirect status location, t)]);
             Arrive 2 c Ready; Finish 2 (inr [(Rate_limited, t')])] in
  once es /\ counter (c_labels c, E_unexpected) (run Inbound max es) = 2 /\
  exists moved limited closed closed', st_answers (run Inbound max es) = [(2, Synthesized limited closed'); (1, Synthesized moved closed)] /\
    (is_grpc (c_responder c) = false -> r_status moved = status /\ r_status limited = 429).
Proof.
  intros max c status location t t' M V es. assert (O : once es).
  { unfold once, es. cbn. constructor; [intros [E|[]]; discriminate|]. constructor; [easy|constructor]. }
  split; [exact O|].
  assert (R : exists r, respond inbound_server_rescue (c_responder c) (inr (wrap Inbound c [(Inbound_redirect status location, t)])) =
    Synthesized (if is_grpc (c_responder c) then grpc_response r (emit_headers (c_responder c))
             else http_response r (p_version (c_responder c)) (emit_headers (c_responder c)) (is_orig_proto_upgrade (c_responder c))) false /\ http_status r = status).
  { unfold respond. cbn [wrap inbound_server_rescue is_caused_by cause_ref]. unfold redirect. 
    assert (HV : header_value location = Some location).
    { unfold header_value. replace (forallb _ location) with true; [reflexivity|]. symmetry. apply forallb_forall. intros b I.
      apply (proj1 (Forall_forall _ _) V) in I. destruct I as [->|[L N]]; [reflexivity|].
      apply N.leb_le in L. apply N.eqb_neq in N. rewrite L, N. reflexivity. }
    rewrite HV. eexists. split; reflexivity. }
  destruct R as (r & R & S).
  assert (Z : max =? 0 = false) by (apply N.eqb_neq; lia).
  assert (Z' : max - 1 + 1 =? 0 = false) by (apply N.eqb_neq; lia).
  unfold run, es. cbn [fold_left step st_permits]. unfold poll_limit. rewrite Z.
  cbn [poll_shed st_flying find fst N.eqb Pos.eqb release filter negb fail st_permits st_bodies st_counters st_answers].
  rewrite Z'. cbn [poll_shed st_flying find fst N.eqb Pos.eqb release filter negb fail st_permits st_bodies st_counters st_answers].
  split.
  - unfold counter. cbn [st_counters monitor_error wrap inbound_kind].
    cbn [PromModel.inc]. unfold PromSpec.value.
    assert (K : key_eqb (c_labels c, E_unexpected) (c_labels c, E_unexpected) = true) by (apply key_eqb_iff; reflexivity).
    unfold fail. cbn [st_counters monitor_error wrap inbound_kind PromModel.inc]. rewrite K. cbn [find fst]. rewrite K. reflexivity.
  - unfold fail. cbn [st_answers st_permits st_flying st_bodies st_counters]. unfold server_rescue. rewrite R. do 4 eexists. split; [reflexivity|].
    intros G. rewrite G. split; [|reflexivity]. unfold http_response. cbn [r_status]. exact S.
Qed.
Print Assumptions C148_policy_refuted.

(** The timeouts that policies set are answered with 504, but counted as unexpected errors of the outbound proxy and not as
    timeouts. *)
Theorem C148_timeout_refuted : forall max c t, 0 < max ->
  let es := [Arrive 1 c Ready; Finish 1 (inr [(RespondModel.Stream_timeout, t)])] in
  once es /\ counter ([], E_unexpected) (run Outbound max es) = 1 /\ counter ([], E_response_timeout) (run Outbound max es) = 0 /\
  exists rsp, st_answers (run Outbound max es) = [(1, Synthesized rsp false)] /\ (is_grpc (c_responder c) = false -> r_status rsp = 504).
Proof.
  intros max c t M es. split; [unfold once, es; cbn; constructor; [easy|constructor]|].
  assert (Z : max =? 0 = false) by (apply N.eqb_neq; lia).
  unfold run, es. cbn [fold_left step st_permits]. unfold poll_limit. rewrite Z.
  cbn [poll_shed st_flying find fst N.eqb Pos.eqb release filter negb st_permits st_bodies st_counters st_answers].
  unfold fail. split; [reflexivity|]. split; [reflexivity|]. eexists. split; [reflexivity|]. intros G. rewrite G. reflexivity.
Qed.
Print Assumptions C148_timeout_refuted.

(** ** Cases *)
Definition ex_caller : caller := Caller (bs "srv"%string) (bs "client 1: server: 2: "%string) (new_respond true true (Request (bs "GET"%string) Http_11 (Uri None None (bs "/"%string) None) [] false false false)).
(** With room for one, a second request is turned away while the first is being served, and a third is taken after it. *)
Definition ex_history : list event :=
  [Arrive 1 ex_caller Ready; Arrive 2 ex_caller Ready; Finish 1 (inl (Response 200 Http_11 []));
   Arrive 3 ex_caller Ready; Arrive 4 ex_caller Pending; Finish 3 (inr [(RespondModel.Route_unauthorized, [])]);
   Arrive 5 ex_caller (Broken [(RespondModel.Io_error, [])]); Arrive 6 ex_caller Ready].
Example C148_case : once ex_history /\ serving 1 ex_history = [6] /\
  counter (bs "srv"%string, E_load_shed) (run Inbound 1 ex_history) = 2 /\
  counter (bs "srv"%string, E_io) (run Inbound 1 ex_history) = 1 /\
  counter (bs "srv"%string, E_unexpected) (run Inbound 1 ex_history) = 0 /\
  counter ([], E_unexpected) (run Outbound 1 ex_history) = 1 /\
  map fst (st_answers (run Inbound 1 ex_history)) = [5; 3; 4; 1; 2].
Proof.
  split; [|repeat split].
  unfold once. cbn. repeat constructor; cbn; intuition discriminate.
Qed.
Example C148_case_shed : comes_to 1 ex_history 2 ex_caller No_room /\ comes_to 1 ex_history 1 ex_caller (Gave (inl (Response 200 Http_11 []))) /\
  comes_to 1 ex_history 5 ex_caller (Broke [(RespondModel.Io_error, [])]).
Proof.
  split; [|split].
  - apply (ct_no_room 1 [Arrive 1 ex_caller Ready]). left. vm_compute. discriminate.
  - apply (ct_gave 1 [] 1 ex_caller [Arrive 2 ex_caller Ready]); [reflexivity|]. intros x [<-|[]] [[? ?]|?]; discriminate.
  - apply (ct_broke 1 [Arrive 1 ex_caller Ready; Arrive 2 ex_caller Ready; Finish 1 (inl (Response 200 Http_11 []));
      Arrive 3 ex_caller Ready; Arrive 4 ex_caller Pending; Finish 3 (inr [(RespondModel.Route_unauthorized, [])])]). reflexivity.
Qed.
(** Errors of any depth *)
Example C148_case_kinds : counts_as Inbound [(Other, []); (RespondModel.Fail_fast, []); (RespondModel.Io_error, [])] (Some E_fail_fast) /\
  counts_as Inbound [(Other, []); (RespondModel.Route_not_found, [])] None /\ counts_as Outbound [(Other, []); (Rate_limited, [])] (Some E_unexpected).
Proof. split; [|split]; apply kind_of_iff; reflexivity. Qed.
