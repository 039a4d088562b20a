From Coq Require Import String List NArith ZArith QArith Bool Lia.
From Verif Require Import Bytes NameModel EndpointModel ClassifyModel RegexModel ProfileModel ProfileSpec ProfileProofs.
From Verif Require DistributeModel.
Import ListNotations.
Open Scope N_scope.

(** ** C74: the route of a request *)

(** Whatever profile the control plane sends, every request has a route, and it is the first route of the profile
    that applies to it, with what the profile says of it; a request to which none applies has a route without
    labels, classes, retries and timeout. *)
Theorem C74_taken : forall method_of re_ok re_match url auth proto port addr ps q,
  let p := convert_profile method_of re_ok url auth proto port in
  mk_params addr (p_routes p) (p_targets p) = Some ps ->
  exists r d, select re_match ps q = Some (r, d) /\
  ((exists o, first_that (applies method_of re_ok re_match q) (pp_routes proto) o /\ describes o (pp_budget proto) r) \/
   ((forall o, In o (pp_routes proto) -> ~ applies method_of re_ok re_match q o) /\ r = Route [] [] None None)).
Proof. exact route_taken. Qed.
Print Assumptions C74_taken.

(** A condition all of whose parts can be used is taken to mean what it says. *)
Theorem C74_plain : forall method_of re_ok re_match c q, sound method_of re_ok c ->
  usable method_of re_ok c /\ (holds method_of re_ok re_match c q <-> says method_of re_ok re_match c q).
Proof. exact plain_meaning. Qed.
Print Assumptions C74_plain.

(** Refuted: a route applies only to requests of which its condition says so.  Of a list of conditions those that
    cannot be used are left out, so that a route for all requests with a method that is not known and a path
    applies to those with any method. *)
Theorem C74_open_refuted : ~ forall method_of re_ok re_match q o, applies method_of re_ok re_match q o ->
  exists c, pr_condition o = Some c /\ says method_of re_ok re_match c q.
Proof.
  intro H. destruct (H (fun _ => None) (fun _ => true) (fun _ _ => true) (Request (bs "GET") (bs "/"))
    (PbRoute (Some (Q_all [Q_method (Some (Registered 99))])) [] [] false None)) as (c & E & S).
  - exists (Q_all [Q_method (Some (Registered 99))]). split; [reflexivity|]. split; [exact I|]. cbn. split; [|exact I].
    intros (m & n & _ & X). discriminate.
  - inversion E; subst. cbn in S. destruct S as [(m & _ & X) _]. discriminate.
Qed.
Print Assumptions C74_open_refuted.

(** The methods of the examples *)
Definition methods (m : pb_method) : option bytes :=
  match m with Registered 0 => Some (bs "GET"%string) | Registered 3 => Some (bs "POST"%string) | Unregistered m => Some m | _ => None end.
(** A profile: reads of books are retried, all other requests for books time out. *)
Definition books : pb_profile :=
  PbProfile (bs "books.ns.svc.cluster.local"%string) false
    [PbRoute (Some (Q_all [Q_method (Some (Registered 0)); Q_path (bs "/books/.*"%string)]))
       [PbClass (Some (S_status 500 599)) true] [(bs "route"%string, bs "read"%string)] true None;
     PbRoute None [] [] false None;
     PbRoute (Some (Q_path (bs "/books/.*"%string))) [] [(bs "route"%string, bs "write"%string)] false (Some (10%Z, 0%Z))]
    (Some (PbBudget (Fin (1 # 5)) 10 (Some (10%Z, 0%Z))))
    [PbDst (bs "a.ns.svc.cluster.local:80"%string) 1; PbDst (bs "10.0.0.1:80"%string) 5; PbDst (bs "b.ns.svc.cluster.local:80"%string) 3;
     PbDst (bs "c.ns.svc.cluster.local:80"%string) 0]
    None.
Example C74_case :
  let p := convert_profile methods re_ok (fun _ => None) (fun _ => None) books 80 in
  exists ps, mk_params (NameAddr (bs "books.ns.svc.cluster.local") 80) (p_routes p) (p_targets p) = Some ps /\
  option_map (fun x => r_labels (fst x)) (select re_match ps (Request (bs "GET") (bs "/books/1"))) = Some [(bs "route", bs "read")] /\
  option_map (fun x => r_timeout (fst x)) (select re_match ps (Request (bs "POST") (bs "/books/1"))) = Some (Some 10000000000) /\
  option_map fst (select re_match ps (Request (bs "GET") (bs "/x/books/1"))) = Some (Route [] [] None None).
Proof. eexists. split; [vm_compute; reflexivity|]. vm_compute. repeat split. Qed.
Example C74_sound_case : sound methods re_ok (Q_all [Q_method (Some (Registered 0)); Q_not (Q_path (bs "/books/.*"))]).
Proof.
  cbn. split; [do 2 eexists; split; reflexivity|]. split; [|exact I].
  exists (anchored (bs "/books/.*")). split; [apply pattern_iff; reflexivity|vm_compute; reflexivity].
Qed.

(** ** C75: the paths of a route *)

(** A path's expression without alternatives, except in groups, applies to the paths that it matches as a whole,
    whether or not it is written with a circumflex and a dollar sign. *)
Theorem C75_whole : forall method_of r core q, stripped r core ->
  parse core <> None -> no_bar core -> begins_plain core -> ends_plain core ->
  usable method_of re_ok (Q_path r) /\ (holds method_of re_ok re_match (Q_path r) q <-> whole core (q_path q)).
Proof. exact path_whole. Qed.
Print Assumptions C75_whole.

(** One with two alternatives applies to the paths that begin as the first one says or end as the second says. *)
Theorem C75_alternatives : forall method_of r a b q, stripped r (a ++ [124] ++ b) ->
  parse a <> None -> parse b <> None -> no_bar a -> no_bar b -> a <> [] -> b <> [] ->
  (forall s, a <> [94] ++ s) -> (forall s, b <> s ++ [36]) ->
  usable method_of re_ok (Q_path r) /\
  (holds method_of re_ok re_match (Q_path r) q <-> prefix a (q_path q) \/ suffix b (q_path q)).
Proof. exact path_alternatives. Qed.
Print Assumptions C75_alternatives.

(** The expression for a text, with everything escaped that is neither letter nor digit, applies to that text and
    nothing else, unless it ends with white space or a dollar sign. *)
Theorem C75_literal : forall method_of s q, (forall c t, s = t ++ [c] -> is_space c = false /\ c <> 36) ->
  usable method_of re_ok (Q_path (escape s)) /\ (holds method_of re_ok re_match (Q_path (escape s)) q <-> q_path q = s).
Proof. exact path_literal. Qed.
Print Assumptions C75_literal.
Example C75_literal_case : escape (bs "/a.b") = bs "\/a\.b" /\
  forall c t, bs "/a.b" = t ++ [c] -> is_space c = false /\ c <> 36.
Proof.
  split; [reflexivity|]. intros c t E. apply (f_equal (@rev _)) in E. rewrite rev_app_distr in E. cbn in E. inversion E; subst. split; [reflexivity|discriminate].
Qed.

(** Refuted, therefore, that an expression applies only to the paths it matches as a whole: with alternatives, *)
Theorem C75_alternatives_refuted : exists method_of r q, stripped r r /\ begins_plain r /\ ends_plain r /\
  holds method_of re_ok re_match (Q_path r) q /\ ~ whole r (q_path q).
Proof.
  exists methods, (bs "/public|/static"), (Request (bs "GET") (bs "/publicly/private")).
  split; [apply stripped_trim; reflexivity|]. split; [intros c s I E; discriminate|].
  split. { intros d (l & E). vm_compute in E. apply (f_equal (@rev _)) in E. rewrite rev_app_distr in E. cbn in E. inversion E. }
  split. { exists (anchored (bs "/public|/static")). split; [apply pattern_iff; reflexivity|vm_compute; reflexivity]. }
  intros (e & E & D). revert E D. vm_compute. intros E D. inversion E; subst. clear E.
  repeat match goal with D : den _ _ _ _ |- _ => inversion D; clear D; subst; cbn [app] in * end; try discriminate.
Qed.
Print Assumptions C75_alternatives_refuted.

(** with an escaped dollar sign at the end, *)
Theorem C75_escaped_refuted : exists method_of r q, stripped r r /\ no_bar r /\ begins_plain r /\
  holds method_of re_ok re_match (Q_path r) q /\ ~ whole r (q_path q).
Proof.
  exists methods, (bs "/a\$"), (Request (bs "GET") (bs "/a$/b")).
  split; [apply stripped_trim; reflexivity|].
  split. { vm_compute. intuition congruence. }
  split; [intros c s I E; discriminate|].
  split. { exists (anchored (bs "/a\$")). split; [apply pattern_iff; reflexivity|vm_compute; reflexivity]. }
  intros (e & E & D). revert E D. vm_compute. intros E D. inversion E; subst. clear E.
  repeat match goal with D : den _ _ _ _ |- _ => inversion D; clear D; subst; cbn [app] in * end; try discriminate.
Qed.
Print Assumptions C75_escaped_refuted.

(** and with a circumflex at the beginning that is optional. *)
Theorem C75_repeated_refuted : exists method_of r q, stripped r r /\ no_bar r /\ ends_plain r /\
  holds method_of re_ok re_match (Q_path r) q /\ ~ whole r (q_path q).
Proof.
  exists methods, (bs "^?/a"), (Request (bs "GET") (bs "/b/a")).
  split; [apply stripped_trim; reflexivity|].
  split. { vm_compute. intuition congruence. }
  split. { intros d (l & E). vm_compute in E. apply (f_equal (@rev _)) in E. rewrite rev_app_distr in E. cbn in E. inversion E. }
  split. { exists (anchored (bs "^?/a")). split; [apply pattern_iff; reflexivity|vm_compute; reflexivity]. }
  intros (e & E & D). revert E D. vm_compute. intros E D. inversion E; subst. clear E.
  repeat match goal with D : den _ _ _ _ |- _ => inversion D; clear D; subst; cbn [app] in * end; try discriminate.
Qed.
Print Assumptions C75_repeated_refuted.

Example C75_case : stripped (bs " /(a|b)/.*$ ") (bs "/(a|b)/.*$") /\ parse (bs "/(a|b)/.*$") <> None /\
  no_bar (bs "/(a|b)/.*$") /\ begins_plain (bs "/(a|b)/.*$") /\ ends_plain (bs "/(a|b)/.*$") /\ re_match (anchored (bs " /(a|b)/.*$ ")) (bs "/b/c") = true.
Proof.
  split; [apply stripped_trim; reflexivity|]. split; [vm_compute; discriminate|]. split; [vm_compute; intuition congruence|].
  split; [intros c s I E; discriminate|]. split; [|vm_compute; reflexivity].
  intros d (l & E). vm_compute in E. apply (f_equal (@rev _)) in E. rewrite rev_app_distr in E. cbn in E. inversion E.
Qed.
Example C75_alternatives_case : parse (bs "/public") <> None /\ no_bar (bs "/public") /\ (forall s, bs "/public" <> [94] ++ s) /\
  (forall s, bs "/public" <> s ++ [36]).
Proof.
  split; [vm_compute; discriminate|]. split; [vm_compute; intuition congruence|]. split; [intros s E; discriminate|].
  intros s E. apply (f_equal (@rev _)) in E. rewrite rev_app_distr in E. cbn in E. discriminate.
Qed.

(** ** C76: classes, retries and timeouts *)

(** A budget is used exactly if it makes sense, as it is. *)
Theorem C76_budget : forall o b, convert_retry_budget o = Some b <-> budget_of o b.
Proof. exact budget_iff. Qed.
Print Assumptions C76_budget.

(** A response is a failure or a success as the first class of its route says whose condition can be used and holds
    of its status; only retryable routes of a profile whose budget makes sense have retries. *)
Theorem C76_route : forall method_of re_ok o bud m r,
  convert_route method_of re_ok o (match bud with Some b => convert_retry_budget b | None => None end) = Some (m, r) ->
  describes o bud r.
Proof. exact route_describes. Qed.
Print Assumptions C76_route.

(** Refuted: a range of statuses is used only as it was sent.  Its bounds are reduced to sixteen bits. *)
Theorem C76_status_refuted : ~ forall o st, of_class st o ->
  forall min max, pc_condition o = Some (S_status min max) -> min <= st <= max.
Proof.
  intro H. specialize (H (PbClass (Some (S_status 65736 66035)) true) 200).
  assert (E : 65736 <= 200 <= 66035); [|lia].
  refine (H _ 65736 66035 eq_refl). exists (S_status 65736 66035). repeat split; vm_compute; congruence.
Qed.
Print Assumptions C76_status_refuted.

Example C76_budget_case : budget_of (PbBudget (Fin (1 # 5)) 10 (Some (10%Z, 0%Z))) (Budget 10000000000 10 (Fin (1 # 5))).
Proof. apply budget_iff. vm_compute. reflexivity. Qed.
Example C76_case : of_class 503 (PbClass (Some (S_all [S_unset; S_status 500 599; S_not (S_status 501 501)])) true) /\
  ~ of_class 501 (PbClass (Some (S_all [S_unset; S_status 500 599; S_not (S_status 501 501)])) true) /\
  ~ of_class 503 (PbClass (Some (S_all [S_unset])) true).
Proof.
  split; [|split].
  - eexists. split; [reflexivity|]. cbn [rsp_usable rsp_holds map some every fold_right]. repeat split; try tauto; try (right; left); try (vm_compute; split; congruence); intros; vm_compute in *; intuition congruence.
  - intros (c & E & U & H). inversion E; subst. cbn in H. destruct H as (_ & _ & H & _). apply H; vm_compute; intuition congruence.
  - intros (c & E & U & H). inversion E; subst. cbn in U. tauto.
Qed.

(** ** C77: where requests go *)

(** The destinations of a profile are its overrides that name a destination and have a weight. *)
Theorem C77_targets : forall method_of re_ok url auth proto port,
  kept target_of (pp_overrides proto) (p_targets (convert_profile method_of re_ok url auth proto port)).
Proof. exact targets_kept. Qed.
Print Assumptions C77_targets.

(** Every request goes to one of them by weight, or, if there is none, to the service itself; *)
Theorem C77_goes : forall re_match addr routes targets ps q r d, mk_params addr routes targets = Some ps ->
  select re_match ps q = Some (r, d) -> d = goes addr targets.
Proof. exact goes_there. Qed.
Print Assumptions C77_goes.

(** these are the balancers that are kept. *)
Theorem C77_backends : forall addr routes targets ps, mk_params addr routes targets = Some ps ->
  pa_backends ps = match targets with [] => [backend_for addr] | ts => map (fun t => backend_for (t_addr t)) ts end.
Proof. exact backends_are. Qed.
Print Assumptions C77_backends.

(** The proxy fails on a profile exactly if there is more than one and their weights together exceed 32 bits. *)
Theorem C77_fails : forall method_of re_ok url auth proto port addr,
  let p := convert_profile method_of re_ok url auth proto port in
  mk_params addr (p_routes p) (p_targets p) = None <->
  (2 <= List.length (p_targets p))%nat /\ 2 ^ 32 <= total (p_targets p).
Proof. exact panics_iff. Qed.
Print Assumptions C77_fails.
(** Refuted, therefore: it never fails. *)
Theorem C77_fails_refuted : ~ forall method_of re_ok url auth proto port addr,
  (forall o, In o (pp_overrides proto) -> pd_weight o < 2 ^ 32) ->
  let p := convert_profile method_of re_ok url auth proto port in
  mk_params addr (p_routes p) (p_targets p) <> None.
Proof.
  intro H. refine (H methods re_ok (fun _ => None) (fun _ => None)
    (PbProfile (bs "s.ns.svc.cluster.local") false [] None
      [PbDst (bs "a.ns.svc.cluster.local:80") 4294967295; PbDst (bs "b.ns.svc.cluster.local:80") 1] None) 80
    (NameAddr (bs "s.ns.svc.cluster.local") 80) _ _).
  - intros o [<-|[<-|[]]]; vm_compute; reflexivity.
  - vm_compute. reflexivity.
Qed.
Print Assumptions C77_fails_refuted.

(** A profile is used in place of the client policy exactly if it names the service and has routes or
    destinations that can be used. *)
Theorem C77_overrides : forall method_of re_ok url auth proto port n,
  should_override_policy (convert_profile method_of re_ok url auth proto port) = Some (NameAddr n port) <->
  name_from_str (pp_name proto) = Some n /\
  ((exists o c, In o (pp_routes proto) /\ pr_condition o = Some c /\ usable method_of re_ok c) \/
   (exists o t, In o (pp_overrides proto) /\ target_of o t)).
Proof. exact overrides_iff. Qed.
Print Assumptions C77_overrides.

Example C77_case :
  let p := convert_profile methods re_ok (fun _ => None) (fun _ => None) books 80 in
  p_targets p = [Target (NameAddr (bs "a.ns.svc.cluster.local") 80) 1; Target (NameAddr (bs "b.ns.svc.cluster.local") 80) 3] /\
  should_override_policy p = Some (NameAddr (bs "books.ns.svc.cluster.local") 80) /\
  exists ps, mk_params (NameAddr (bs "books.ns.svc.cluster.local") 80) (p_routes p) (p_targets p) = Some ps.
Proof. vm_compute. repeat split. eexists. reflexivity. Qed.
