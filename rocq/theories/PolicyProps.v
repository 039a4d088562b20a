(** C29, C30, C32 *)
From Coq Require Import String List NArith Bool.
From Verif Require Import Bytes RouteModel FilterModel AuthzModel AuthzSpec PolicyModel PolicySpec PolicyProofs.
Import ListNotations.

(** Whatever policies are published and however the connection goes on, it is started
    only if the policy in force authorizes it, and refused or terminated only if it does
    not. *)
Theorem C29_log : forall client t p0 es a e b, ip_wf client -> all_wf p0 es ->
  w_log (run client t p0 es) = a ++ e :: b -> entry_ok client t p0 a e.
Proof. exact log_ok. Qed.
Print Assumptions C29_log.

(** If the policy in force stops authorizing a connection that was started and is not
    over, the connection is terminated as soon as its task runs, unless it ends first. *)
Theorem C29_revoked : forall client t p0 es d1 d2, ip_wf client -> all_wf p0 es ->
  in_progress (w_log (run client t p0 es)) -> ~ allows (in_force p0 (w_log (run client t p0 es))) client t ->
  let l := w_log (run client t p0 (es ++ [Call; Step d1; Step d2])) in
  In Terminated l \/ ((d1 = true \/ d2 = true) /\ In Finished l).
Proof. exact revoked. Qed.
Print Assumptions C29_revoked.

(** What a request gets is the verdict of [PolicySpec], *)
Theorem C30_verdict : forall pq_valid draw p client t req u limit, routes_wf p -> ip_wf client ->
  verdict pq_valid draw p client t req u limit (call pq_valid draw p client t req u limit).
Proof. exact verdict_call. Qed.
Print Assumptions C30_verdict.

(** and there is only one. *)
Theorem C30_one : forall pq_valid draw p client t req u limit x y,
  verdict pq_valid draw p client t req u limit x -> verdict pq_valid draw p client t req u limit y -> x = y.
Proof. exact verdict_fun. Qed.
Print Assumptions C30_one.

(** A request reaches the application, with headers [hs], exactly when a route matches
    whose authorizations cover the client and whose filters let it pass with these
    headers, and the rate limit admits it. *)
Theorem C30_forwarded : forall pq_valid draw p client t req u limit hs, routes_wf p -> ip_wf client ->
  fst (call pq_valid draw p client t req u limit) = R_forward hs <->
  exists l, chosen pq_valid draw req u p l (inl hs) /\ authorized l client t /\ limit = true.
Proof. exact forwarded_iff. Qed.
Print Assumptions C30_forwarded.

(** When the policy does not change, a connection goes where its protocol says. *)
Theorem C32_steady_partial : forall p t d, goes p t d (accept p p p p t d).
Proof. exact accept_steady. Qed.
Print Assumptions C32_steady_partial.

(** Accepting a connection panics exactly when the policy was not opaque at first, not
    TLS after TLS detection, and then opaque or TLS. *)
Theorem C32_panics : forall p0 p1 p2 p3 t d, accept p0 p1 p2 p3 t d = To_panic <->
  ~ is_opaque p0 /\ ~ is_tls p1 /\ (is_opaque p2 \/ is_tls p2).
Proof. exact accept_panics. Qed.
Print Assumptions C32_panics.

(** This happens when one update makes a detecting server opaque during TLS detection. *)
Theorem C32_refuted : exists p0 p1 t d, accept p0 p1 p1 p1 t d = To_panic.
Proof. exists (Detect [] 10%N []), (Opaque []), No_tls, Not_http. reflexivity. Qed.
Print Assumptions C32_refuted.

Definition everyone : list authorization := [Authorization [Net (Net4 0 0) []] Unauthenticated].
Definition nobody : list authorization := [].
Example C29_example :
  let es := [Accept 0; Call; Step false; Publish (Opaque everyone); Step false; Step false; Publish (Opaque nobody); Step false; Step false] in
  all_wf (Tls everyone) es /\
  w_log (run (V4 5%N) No_tls (Tls everyone) es) =
    [Started; Published (Opaque everyone); Published (Opaque nobody); Terminated].
Proof.
  assert (W : forall a, In a everyone -> authz_wf a).
  { intros a [<-|[]] n [<-|[]]. split; [vm_compute; split; [reflexivity|discriminate]|intros e []]. }
  split; [|vm_compute; reflexivity]. split; [exact W|]. intros p H.
  cbn in H. repeat match goal with H : _ \/ _ |- _ => destruct H as [H|H] end; try discriminate; try tauto;
    injection H as <-; [exact W|intros a []].
Qed.

(** A route for GET, which everyone may use, and whose filter removes a header; POST finds
    no route, and clients elsewhere none of its authorizations. *)
Example C30_example :
  let rp := RoutePolicy everyone [F_headers (ModifyHeader [] [] [bs "x"])] in
  let p := Http1 [Route [] [Rule [MatchRequest None [] [] (Some (bs "GET"))] rp]] in
  let get := Request (bs "GET") None (bs "/") None [(bs "x", bs "1"); (bs "y", bs "2")] in
  let post := Request (bs "POST") None (bs "/") None [] in
  let u := FilterModel.Uri None None (bs "/") None in
  routes_wf p /\
  (forall pq draw, call pq draw p (V4 5%N) No_tls get u true = (R_forward [(bs "y", bs "2")], true)) /\
  (forall pq draw, call pq draw p (V4 5%N) No_tls get u false = (R_limited, true)) /\
  (forall pq draw, call pq draw p (V4 5%N) No_tls post u true = (R_not_found, false)) /\
  (forall pq draw, call pq draw p (V6 5%N) No_tls get u true = (R_unauthorized, false)).
Proof.
  cbv zeta. split; [|repeat split; intros; vm_compute; reflexivity].
  intros rt ru a [<-|[]] [<-|[]] [<-|[]] n [<-|[]]. split; [vm_compute; split; [reflexivity|discriminate]|intros e []].
Qed.
