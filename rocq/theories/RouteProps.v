(** Properties C01 - C05: route lookup. *)
From Coq Require Import List NArith String.
From Verif Require Import Bytes RouteModel RouteSpec RouteProofs RouteMatchProofs.
Import ListNotations.
Open Scope N_scope.
Open Scope string_scope.

(** ** C01 *)

(** Lookup returns a matching rule such that nothing listed before it ranks as
    high and nothing listed after it ranks higher. *)
Theorem C01_http_lookup_first_best :
  forall P (routes : list (route match_request P)) req k p,
    well_formed routes -> http_find routes req = Some (k, p) ->
    first_best http_accepts http_rank http_default_rank routes req p.
Proof. exact @http_find_first_best. Qed.
Print Assumptions C01_http_lookup_first_best.

Theorem C01_http_lookup_none :
  forall P (routes : list (route match_request P)) req,
    well_formed routes ->
    (http_find routes req = None <->
     no_rule_applies http_accepts http_rank http_default_rank routes req).
Proof. exact @http_find_none. Qed.
Print Assumptions C01_http_lookup_none.

Theorem C01_grpc_lookup_first_best :
  forall P (routes : list (route match_grpc P)) req k p,
    well_formed routes -> grpc_find routes req = Some (k, p) ->
    first_best grpc_accepts grpc_rank grpc_default_rank routes req p.
Proof. exact @grpc_find_first_best. Qed.
Print Assumptions C01_grpc_lookup_first_best.

Theorem C01_grpc_lookup_none :
  forall P (routes : list (route match_grpc P)) req,
    well_formed routes ->
    (grpc_find routes req = None <->
     no_rule_applies grpc_accepts grpc_rank grpc_default_rank routes req).
Proof. exact @grpc_find_none. Qed.
Print Assumptions C01_grpc_lookup_none.

(** A configuration meeting the hypotheses: two routes, a wildcard and an exact
    host, several rules; the exact host wins although listed second. *)
Definition demo_req : request :=
  Request (bs "GET") (Some (bs "WWW.Example.com.")) (bs "/foo/bar") None [(bs "x", bs "1")].
Definition demo_routes : list (route match_request N) :=
  [ Route [host_from_str (bs "*.example.com")]
      [ Rule [MatchRequest (Some (PPrefix (bs "/foo/"))) [MHExact (bs "x") (bs "1")] [] None] 1;
        Rule [] 2 ];
    Route [HExact (bs "www.example.com"); HExact (bs "other")]
      [ Rule [MatchRequest (Some (PPrefix (bs "/fo"))) [] [] None] 3;
        Rule [MatchRequest None [] [] (Some (bs "GET")); MatchRequest (Some (PPrefix (bs "/foo"))) [] [] None] 4;
        Rule [MatchRequest (Some (PPrefix (bs "/foo"))) [] [] None] 5 ] ].
Example C01_demo_wf : well_formed demo_routes.
Proof.
  intros rt m [<-|[<-|[]]] Hm; cbn in Hm.
  - destruct Hm as [<-|[]]. apply (host_from_str_wf (bs "*.example.com")).
  - destruct Hm as [<-|[<-|[]]]; exact I.
Qed.
Example C01_demo : exists k, http_find demo_routes demo_req = Some (k, 4).
Proof. eexists. vm_compute. reflexivity. Qed.
Example C01_demo_none :
  http_find demo_routes (Request (bs "GET") (Some (bs "example.com")) (bs "/") None []) = None.
Proof. reflexivity. Qed.

(** ** C02 *)
Theorem C02_exact_host :
  forall h host,
    (exists hm, summarize_match (HExact h) (Some host) = Some hm) <-> exact_host_accepts h host.
Proof. exact exact_host_iff. Qed.
Print Assumptions C02_exact_host.

Theorem C02_wildcard_host :
  forall name host,
    (exists hm, summarize_match (host_from_str (42 :: 46 :: name)) (Some host) = Some hm)
    <-> wildcard_host_accepts name host.
Proof. exact wildcard_text_iff. Qed.
Print Assumptions C02_wildcard_host.

Theorem C02_wildcard_rejects_bare_name :
  forall name host, same_ignoring_case host name -> ~ wildcard_host_accepts name host.
Proof. exact wildcard_rejects_bare_name. Qed.
Print Assumptions C02_wildcard_rejects_bare_name.

(** The rank recorded for an accepted host is the declarative one: exact above
    wildcard, longer above shorter. *)
Theorem C02_host_rank :
  forall m host hm, well_formed_host m -> summarize_match m (Some host) = Some hm ->
    host_rank m (host_key hm) /\
    forall m' hm', well_formed_host m' -> summarize_match m' (Some host) = Some hm' ->
      (host_cmp hm hm' = Lt <-> lex_lt (host_key hm) (host_key hm')).
Proof.
  exact (fun m host hm Hwf H => conj (proj2 (host_some m host hm Hwf H))
    (fun m' hm' _ _ => eq_ind_r (fun c => c = Lt <-> _)
       (lexcmp_lt (host_key hm) (host_key hm') (eq_trans (host_key_len hm) (eq_sym (host_key_len hm'))))
       (host_key_cmp hm hm'))).
Qed.
Print Assumptions C02_host_rank.

Example C02_examples :
  exact_host_accepts (bs "Example.com") (bs "eXample.COM.") /\
  wildcard_host_accepts (bs "example.com") (bs "a.b.Example.com.") /\
  ~ wildcard_host_accepts (bs "example.com") (bs "badexample.com") /\
  ~ exact_host_accepts (bs "example.com.") (bs "example.com").
Proof.
  repeat split.
  - apply C02_exact_host. eexists. vm_compute. reflexivity.
  - apply C02_wildcard_host. eexists. vm_compute. reflexivity.
  - intros H. apply C02_wildcard_host in H as [hm H]. vm_compute in H. discriminate.
  - intros H. apply C02_exact_host in H as [hm H]. vm_compute in H. discriminate.
Qed.

(** ** C03 *)
Theorem C03_prefix_segments :
  forall prefix path,
    (exists pm, match_length (PPrefix prefix) path = Some pm) <-> prefix_accepts prefix path.
Proof. exact prefix_match_iff. Qed.
Print Assumptions C03_prefix_segments.

Theorem C03_http_match :
  forall m req, (exists s, http_match m req = Some s) <-> http_accepts m req.
Proof. exact http_match_iff. Qed.
Print Assumptions C03_http_match.

Example C03_examples :
  prefix_accepts (bs "/foo/") (bs "/foo") /\ prefix_accepts (bs "/foo") (bs "/foo/bar") /\
  ~ prefix_accepts (bs "/foo") (bs "/foobar") /\ prefix_accepts (bs "/") (bs "*").
Proof.
  repeat split.
  - apply C03_prefix_segments. eexists. vm_compute. reflexivity.
  - apply C03_prefix_segments. eexists. vm_compute. reflexivity.
  - intros H. apply C03_prefix_segments in H as [pm H]. vm_compute in H. discriminate.
  - apply C03_prefix_segments. eexists. vm_compute. reflexivity.
Qed.

(** ** C04 *)

(** Of two rules that both apply, the one of higher rank (host, path length,
    header count, query count, method; compared in that order) is chosen,
    whichever is listed first. *)
Theorem C04_precedence_partial :
  forall P (rt1 rt2 : route match_request P) ru1 ru2 req r1 r2,
    well_formed [rt1; rt2] -> rt_rules rt1 = [ru1] -> rt_rules rt2 = [ru2] ->
    applies http_accepts http_rank http_default_rank rt1 ru1 req r1 ->
    applies http_accepts http_rank http_default_rank rt2 ru2 req r2 ->
    lex_lt r2 r1 ->
    (exists k, http_find [rt1; rt2] req = Some (k, ru_policy ru1)) /\
    (exists k, http_find [rt2; rt1] req = Some (k, ru_policy ru1)).
Proof. exact @http_two_routes. Qed.
Print Assumptions C04_precedence_partial.

Example C04_demo :
  let m1 := MatchRequest (Some (PPrefix (bs "/a/b"))) [] [] None in
  let m2 := MatchRequest (Some (PPrefix (bs "/a"))) [] [] (Some (bs "GET")) in
  let req := Request (bs "GET") None (bs "/a/b/c") None [] in
  applies http_accepts http_rank http_default_rank
    (Route [] [Rule [m1] 1]) (Rule [m1] 1) req [0; 0; 4; 0; 0; 0] /\
  applies http_accepts http_rank http_default_rank
    (Route [] [Rule [m2] 2]) (Rule [m2] 2) req [0; 0; 2; 0; 0; 1] /\
  lex_lt [0; 0; 2; 0; 0; 1] [0; 0; 4; 0; 0; 0].
Proof.
  cbv zeta.
  assert (Ha : forall m P (p : P) req s, http_match m req = Some s ->
     applies http_accepts http_rank http_default_rank
       (Route [] [Rule [m] p]) (Rule [m] p) req ([0; 0] ++ http_key s)).
  { intros m P p req s H. exists [0; 0], (http_key s). repeat split; [left; easy|].
    right. apply http_match_some in H as [H1 H2]. split.
    - exists m. cbn. auto.
    - intros m' r' [<-|[]] _ Hr. left. eapply http_rank_fun; eassumption. }
  repeat split.
  - refine (Ha _ _ _ _ (RequestMatch (PMPrefix 4) 0 0 false) _). vm_compute. reflexivity.
  - refine (Ha _ _ _ _ (RequestMatch (PMPrefix 2) 0 0 true) _). vm_compute. reflexivity.
  - do 2 constructor 2. constructor. reflexivity.
Qed.

(** Missing from C04: an exact path does not outrank a prefix match of the same
    length.  The prefix rule wins when listed first. *)
Theorem C04_exact_beats_prefix_refuted :
  exists (routes : list (route match_request N)) req k,
    routes = [Route [] [Rule [MatchRequest (Some (PPrefix (bs "/foo"))) [] [] None] 1;
                        Rule [MatchRequest (Some (PExact (bs "/foo"))) [] [] None] 2]] /\
    rq_path req = bs "/foo" /\ http_find routes req = Some (k, 1).
Proof.
  exact (ex_intro _ _ (ex_intro _ (Request (bs "GET") None (bs "/foo") None [])
    (ex_intro _ (None, RequestMatch (PMPrefix 4) 0 0 false)
      (conj eq_refl (conj eq_refl eq_refl))))).
Qed.
Print Assumptions C04_exact_beats_prefix_refuted.

(** ** C05 *)
Theorem C05_grpc_match :
  forall m req, (exists s, grpc_match_request m req = Some s) <-> grpc_accepts m req.
Proof. exact grpc_match_iff. Qed.
Print Assumptions C05_grpc_match.

Theorem C05_grpc_post_only :
  forall m req s, grpc_match_request m req = Some s -> rq_method req = bs "POST".
Proof. exact grpc_post_only. Qed.
Print Assumptions C05_grpc_post_only.

Theorem C05_grpc_rank :
  forall m req s, grpc_match_request m req = Some s -> grpc_rank m req (grpc_key s).
Proof. exact (fun m req s H => proj2 (grpc_match_some m req s H)). Qed.
Print Assumptions C05_grpc_rank.

(** Naming a service, then naming a method, then having more header conditions
    decides, whichever rule is listed first. *)
Theorem C05_grpc_specific_wins :
  forall P (m1 m2 : match_grpc) (p1 p2 : P) req,
    grpc_accepts m1 req -> grpc_accepts m2 req -> grpc_more_specific m1 m2 ->
    (exists k, grpc_find [Route [] [Rule [m1] p1; Rule [m2] p2]] req = Some (k, p1)) /\
    (exists k, grpc_find [Route [] [Rule [m2] p2; Rule [m1] p1]] req = Some (k, p1)).
Proof. exact @grpc_specific_wins. Qed.
Print Assumptions C05_grpc_specific_wins.

Example C05_specific_demo :
  let m1 := MatchGrpc (MatchRpc (Some (bs "S")) None) [] in
  let m2 := MatchGrpc (MatchRpc None (Some (bs "LongMethod"))) [] in
  let req := Request POST None (bs "/S/LongMethod") None [] in
  grpc_accepts m1 req /\ grpc_accepts m2 req /\ grpc_more_specific m1 m2.
Proof.
  cbv zeta. repeat split; try (apply grpc_match_iff; eexists; reflexivity).
  left. split; [|easy]. exists (bs "S"). easy.
Qed.

(** The path may carry parts after the method: they are ignored. *)
Theorem C05_grpc_exact_path_refuted :
  exists m req s, rpc_service (mg_rpc m) = Some (bs "pkg.Svc") /\
    rpc_method (mg_rpc m) = Some (bs "Get") /\
    rq_path req = bs "/pkg.Svc/Get/extra" /\ grpc_match_request m req = Some s.
Proof.
  exact (ex_intro _ (MatchGrpc (MatchRpc (Some (bs "pkg.Svc")) (Some (bs "Get"))) [])
    (ex_intro _ (Request POST None (bs "/pkg.Svc/Get/extra") None [])
      (ex_intro _ (GrpcMatch 7 3 0) (conj eq_refl (conj eq_refl (conj eq_refl eq_refl)))))).
Qed.
Print Assumptions C05_grpc_exact_path_refuted.

Example C05_demo :
  grpc_match_request (MatchGrpc (MatchRpc (Some (bs "pkg.Svc")) None) [])
    (Request POST None (bs "/pkg.Svc/Get") None []) = Some (GrpcMatch 7 0 0).
Proof. reflexivity. Qed.
