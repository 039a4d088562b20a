(** C144: the counters of authorizations. *)
From Coq Require Import String List NArith Bool Lia.
From Verif Require Import Bytes RouteModel FilterModel AuthzModel PolicyModel CountModel CountSpec CountProofs.
Import ListNotations.

(** After any history, the value of each series is the number of times that a connection or a
    request was counted in it. *)
Theorem C144_counters : forall pq s es c k,
  increments c k (all_notes (run pq s es)) (value (w_counts (run pq s es)) c k).
Proof. exact counters. Qed.
Print Assumptions C144_counters.
(** That number is unique. *)
Theorem C144_increments : forall c k l n n', increments c k l n -> increments c k l n' -> n = n'.
Proof. exact increments_det. Qed.
Print Assumptions C144_increments.

(** Two keys are of one series just when their addresses, TLS and shown names are the same. *)
Theorem C144_series : forall a b, key_eq a b = true <-> same_key a b.
Proof. exact key_eq_iff. Qed.
Print Assumptions C144_series.

(** A connection is counted once, as allowed, under the names of the policy that allowed it and
    of the first authorization that applies, or as denied, when none applies; and once more if it
    is terminated, under the name of the policy that does not allow it any more. *)
Theorem C144_connections : forall pq s es t st,
  In t (w_tasks (run pq s es)) -> t_what t = W_conn st -> conn_history (t_client t) st (t_notes t).
Proof. exact connections. Qed.
Print Assumptions C144_connections.

(** A request is counted once, as not found, denied, or allowed, as its route and the first
    authorization say, and as its answer is; and once more if it is over the rate limit. *)
Theorem C144_requests : forall pq s es t q st,
  In t (w_tasks (run pq s es)) -> t_what t = W_ask q st -> ask_history (t_client t) q st (t_notes t).
Proof. exact requests. Qed.
Print Assumptions C144_requests.

(** All series together *)
Theorem C144_connection_totals : forall pq s es,
  (total (run pq s es) Tcp_allow + total (run pq s es) Tcp_deny)%N = number conn_decided (run pq s es).
Proof. exact conn_totals. Qed.
Print Assumptions C144_connection_totals.
Theorem C144_terminate_total : forall pq s es,
  total (run pq s es) Tcp_terminate = number conn_terminated (run pq s es).
Proof. exact terminate_total. Qed.
Print Assumptions C144_terminate_total.
Theorem C144_request_totals : forall pq s es,
  (total (run pq s es) Http_allow + total (run pq s es) Http_deny + total (run pq s es) Http_not_found)%N
  = number ask_decided (run pq s es).
Proof. exact ask_totals. Qed.
Print Assumptions C144_request_totals.
Theorem C144_limited_total : forall pq s es,
  total (run pq s es) Http_limited = number ask_limited (run pq s es).
Proof. exact limited_total. Qed.
Print Assumptions C144_limited_total.

(** No counter decreases. *)
Theorem C144_monotone : forall pq s es es' c k,
  (value (w_counts (run pq s es)) c k <= value (w_counts (run pq s (es ++ es'))) c k)%N.
Proof. exact monotone. Qed.
Print Assumptions C144_monotone.

(** The answers are those of the checks of C29 and C30, made by one of the policies published. *)
Theorem C144_answers : forall pq s es t q r,
  In t (w_tasks (run pq s es)) -> t_what t = W_ask q (Q_done r) ->
  exists p l limit, t_notes t = Checked p :: l /\
    r = fst (call pq (a_draw q) (erase (s_protocol p)) (c_ip (t_client t)) (c_tls (t_client t)) (a_request q) (a_uri q) limit).
Proof. exact same_answer. Qed.
Print Assumptions C144_answers.
Theorem C144_check : forall s c,
  (exists k, check s c = Some k) <->
  exists a, check_authorized (erase (s_protocol s)) (c_ip c) (c_tls c) = Some a.
Proof. exact same_check. Qed.
Print Assumptions C144_check.
Theorem C144_published : forall pq s es t n,
  In t (w_tasks (run pq s es)) -> In n (t_notes t) -> In (note_server n) (s :: published es).
Proof. exact in_force. Qed.
Print Assumptions C144_published.

(** While the policy does not change, everything is counted under its name. *)
Theorem C144_name_partial : forall pq s es t p c k,
  published es = [] -> In t (w_tasks (run pq s es)) -> In (Counted p c k) (t_notes t) ->
  p = s /\ labels_server (k_labels k) = s_meta s.
Proof. exact unchanged. Qed.
Print Assumptions C144_name_partial.

(** ** Examples *)
Definition named (n : string) : meta := M_resource (bs "policy.linkerd.io"%string) (bs "server"%string) (bs n).
Definition everyone : lauthz := LAuthz (named "all") (Authorization [Net (Net4 0 0) []] Unauthenticated).
Definition get (l : list lauthz) : lprotocol :=
  L_http1 [Route [] [Rule [MatchRequest None [] [] (Some (bs "GET"%string))] (LRoute (named "get") l [])]].
Definition closed : server := Server (named "closed") (get []) None.
Definition opened : server := Server (named "opened") (get [everyone]) (Some (named "limit")).
Definition tcp (n : string) (l : list lauthz) : server := Server (named n) (L_opaque l) None.
Definition someone : client := Client (V4 1) No_tls (Sock (V4 2) 80).
Definition a_get : ask :=
  Ask (RouteModel.Request (bs "GET"%string) None (bs "/"%string) None []) (FilterModel.Uri None None (bs "/"%string) None) (fun _ => false).
Definition a_post : ask :=
  Ask (RouteModel.Request (bs "POST"%string) None (bs "/"%string) None []) (FilterModel.Uri None None (bs "/"%string) None) (fun _ => false).
Definition pq0 : bytes -> bool := fun _ => true.
Definition go (i : nat) : event := Run i false None.

(** A request that is allowed, one that is denied, one without a route and one over the limit *)
Example C144_requests_example :
  let w := run pq0 opened
    [Arrive someone a_get; go 0; go 0; go 0; Arrive someone a_post; go 1; go 1;
     Arrive someone a_get; go 2; go 2; Run 2 false (Some E_total);
     Publish closed; Arrive someone a_get; go 3; go 3] in
  map (fun t => t_what t) (w_tasks w) =
    [W_ask a_get (Q_done (R_forward [])); W_ask a_post (Q_done R_not_found);
     W_ask a_get (Q_done R_limited); W_ask a_get (Q_done R_unauthorized)] /\
  value (w_counts w) Http_allow (labelled someone (L_route_authz (named "opened") 80 (named "get") (named "all"))) = 2%N /\
  value (w_counts w) Http_not_found (labelled someone (L_server (named "opened") 80)) = 1%N /\
  value (w_counts w) Http_limited
    (labelled someone (L_limit (named "opened") 80 (Some (named "limit")) (bs "total"%string))) = 1%N /\
  value (w_counts w) Http_deny (labelled someone (L_route (named "closed") 80 (named "get"))) = 1%N.
Proof. repeat split; vm_compute; reflexivity. Qed.
(** A connection that is allowed and then terminated, and one that is denied *)
Example C144_connections_example :
  let w := run pq0 (tcp "a" [everyone])
    [Connect someone; go 0; go 0; go 0; Publish (tcp "b" []); go 0; Connect someone; go 1; go 1] in
  map (fun t => t_what t) (w_tasks w) = [W_conn C_terminated; W_conn C_refused] /\
  value (w_counts w) Tcp_allow (labelled someone (L_server_authz (named "a") 80 (named "all"))) = 1%N /\
  value (w_counts w) Tcp_terminate (labelled someone (L_server (named "b") 80)) = 1%N /\
  value (w_counts w) Tcp_deny (labelled someone (L_server (named "b") 80)) = 1%N.
Proof. repeat split; vm_compute; reflexivity. Qed.
(** A default and a resource that look alike *)
Example C144_series_example :
  key_eq (labelled someone (L_server (M_default (bs "deny"%string)) 80))
         (labelled someone (L_server (M_resource [] (bs "default"%string) (bs "deny"%string)) 80)) = true /\
  key_eq (labelled someone (L_server (M_default (bs "deny"%string)) 80))
         (labelled someone (L_server (M_resource [] (bs "server"%string) (bs "deny"%string)) 80)) = false.
Proof. split; vm_compute; reflexivity. Qed.

(** It is not so that a denial is counted under the name of the policy that denied: if the policy
    changes between the check and the count, it is counted under the new policy's name, although the
    new policy allows the request. *)
Theorem C144_name_refuted :
  exists s s' es t k, In t (w_tasks (run pq0 s es)) /\
    t_notes t = [Checked s; Counted s' Http_deny k] /\
    labels_server (k_labels k) = s_meta s' /\ ~ same_meta (s_meta s) (s_meta s') /\
    (exists q m a l, t_what t = W_ask q (Q_done R_unauthorized) /\
       route_of q (s_protocol s') m l /\ first l (t_client t) a).
Proof.
  exists closed, opened, [Arrive someone a_get; go 0; Publish opened; go 0].
  eexists (Task someone (W_ask a_get (Q_done R_unauthorized)) [Checked closed; Counted opened Http_deny _]), _.
  split; [left; vm_compute; reflexivity|]. split; [reflexivity|]. split; [reflexivity|].
  split; [intro H; vm_compute in H; discriminate H|].
  exists a_get, (named "get"), everyone, [everyone]. split; [reflexivity|]. split.
  - eapply (ro_http a_get _ _ _ (LRoute (named "get") [everyone] [])); [left; reflexivity|vm_compute; reflexivity].
  - exists [], []. split; [reflexivity|]. split; [reflexivity|]. intros ? [].
Qed.
Print Assumptions C144_name_refuted.
(** Nor is it so for connections. *)
Theorem C144_connection_name_refuted :
  exists s s' es t k, In t (w_tasks (run pq0 s es)) /\
    t_notes t = [Checked s; Counted s' Tcp_deny k] /\ t_what t = W_conn C_refused /\
    labels_server (k_labels k) = s_meta s' /\ ~ same_meta (s_meta s) (s_meta s') /\
    exists a, first (of_connections s') (t_client t) a.
Proof.
  exists (tcp "a" []), (tcp "b" [everyone]), [Connect someone; go 0; Publish (tcp "b" [everyone]); go 0].
  eexists (Task someone (W_conn C_refused) [Checked (tcp "a" []); Counted (tcp "b" [everyone]) Tcp_deny _]), _.
  split; [left; vm_compute; reflexivity|]. split; [reflexivity|]. split; [reflexivity|]. split; [reflexivity|].
  split; [intro H; vm_compute in H; discriminate H|].
  exists everyone, [], []. split; [reflexivity|]. split; [reflexivity|]. intros ? [].
Qed.
Print Assumptions C144_connection_name_refuted.
