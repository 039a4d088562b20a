(** The properties of the admin server: C107, C108. *)
From Coq Require Import String List Arith NArith Bool Lia.
From Verif Require Import Bytes FilterModel AuthzModel AdminModel AdminSpec AdminProofs.
From Verif Require RouteModel PolicyModel FilterSpec FilterProofs ConnectSpec.
Import ListNotations.
Open Scope N_scope.

(** ** C107: who may change what *)

(** Who counts as local: clients on the loopback interface, also with an IPv4 address in IPv6. *)
Theorem C107_local : forall q,
  (forall c, q_client q = Some c -> address c) ->
  client_is_localhost q = true <-> exists c, q_client q = Some c /\ on_this_machine c.
Proof. exact localhost_iff. Qed.
Print Assumptions C107_local.

(** No request of another client changes anything. *)
Theorem C107_changes : forall shutdown streaming env lossy utf8 parse parse_stream s q,
  (forall c, q_client q = Some c -> address c) ->
  snd (call shutdown streaming env lossy utf8 parse parse_stream s q) <> s ->
  exists c, q_client q = Some c /\ on_this_machine c.
Proof. exact changes_locally. Qed.
Print Assumptions C107_changes.

(** Others that ask for the log level, for logs or for a shutdown are told that this is forbidden. *)
Theorem C107_forbidden : forall shutdown streaming env lossy utf8 parse parse_stream s q,
  (forall c, q_client q = Some c -> address c) ->
  (q_path q = bs "/proxy-log-level" \/ streaming = true /\ q_path q = bs "/logs.json" \/
   q_path q = bs "/shutdown" /\ q_method q = bs "POST") ->
  ~ (exists c, q_client q = Some c /\ on_this_machine c) ->
  r_status (fst (call shutdown streaming env lossy utf8 parse parse_stream s q)) = 403 /\
  snd (call shutdown streaming env lossy utf8 parse parse_stream s q) = s.
Proof. exact forbidden. Qed.
Print Assumptions C107_forbidden.

(** A request shuts the proxy down exactly if it is a POST to that path of a local client, and if that is enabled; *)
Theorem C107_shutdown : forall shutdown streaming env lossy utf8 parse parse_stream s q,
  (forall c, q_client q = Some c -> address c) ->
  s_shutdowns (snd (call shutdown streaming env lossy utf8 parse parse_stream s q)) = S (s_shutdowns s) <->
  shuts_down q /\ shutdown = true /\ s_receiver s = true.
Proof. exact shutdown_iff. Qed.
Print Assumptions C107_shutdown.

(** no other request does anything to it. *)
Theorem C107_shutdown_kept : forall shutdown streaming env lossy utf8 parse parse_stream s q,
  (forall c, q_client q = Some c -> address c) ->
  let s' := snd (call shutdown streaming env lossy utf8 parse parse_stream s q) in
  s_shutdowns s' = s_shutdowns s \/ s_shutdowns s' = S (s_shutdowns s).
Proof. exact shutdown_kept. Qed.
Print Assumptions C107_shutdown_kept.

(** Through any history, the log level is the last that a local client has set, and that could be read; *)
Theorem C107_level : forall shutdown streaming env lossy utf8 parse parse_stream es first s s',
  addressed es -> s_level s = Some first ->
  run shutdown streaming env lossy utf8 parse parse_stream s es = Some s' ->
  exists l, s_level s' = Some l /\ level_after utf8 parse first es l.
Proof. intros until es. exact (run_level shutdown streaming env lossy utf8 parse parse_stream es). Qed.
Print Assumptions C107_level.

(** one request sets it exactly as [sets_level] says. *)
Theorem C107_set : forall shutdown streaming env lossy utf8 parse parse_stream s q first l,
  (forall c, q_client q = Some c -> address c) -> s_level s = Some first ->
  s_level (snd (call shutdown streaming env lossy utf8 parse parse_stream s q)) = Some l <->
  sets_level utf8 parse q l \/ l = first /\ forall l', ~ sets_level utf8 parse q l'.
Proof. exact level_iff. Qed.
Print Assumptions C107_set.

(** A local client that asks for the level is told it, *)
Theorem C107_level_told : forall shutdown streaming env lossy utf8 parse parse_stream s q c level,
  q_client q = Some c -> address c -> on_this_machine c ->
  q_path q = bs "/proxy-log-level" -> q_method q = bs "GET" -> s_level s = Some level ->
  r_status (fst (call shutdown streaming env lossy utf8 parse parse_stream s q)) = 200 /\
  r_body (fst (call shutdown streaming env lossy utf8 parse parse_stream s q)) = Log_level level /\
  snd (call shutdown streaming env lossy utf8 parse parse_stream s q) = s.
Proof. exact level_told. Qed.
Print Assumptions C107_level_told.

(** and one that sets it is told whether that was done; *)
Theorem C107_level_answer : forall shutdown streaming env lossy utf8 parse parse_stream s q c first,
  q_client q = Some c -> address c -> on_this_machine c ->
  q_path q = bs "/proxy-log-level" -> q_method q = bs "PUT" -> s_level s = Some first ->
  r_status (fst (call shutdown streaming env lossy utf8 parse parse_stream s q)) = 204 <->
  exists level, sets_level utf8 parse q level.
Proof. exact level_answer. Qed.
Print Assumptions C107_level_answer.

(** the same for a shutdown. *)
Theorem C107_shutdown_answer : forall shutdown streaming env lossy utf8 parse parse_stream s q,
  shuts_down q -> (forall c, q_client q = Some c -> address c) ->
  r_status (fst (call shutdown streaming env lossy utf8 parse parse_stream s q)) =
  (if shutdown then if s_receiver s then 200 else 500 else 404).
Proof. exact shutdown_answer. Qed.
Print Assumptions C107_shutdown_answer.
(** The receiver is there until it is gone: from then on no history makes a shutdown succeed. *)
Theorem C107_receiver : forall shutdown streaming env lossy utf8 parse parse_stream es level s q, addressed es ->
  run shutdown streaming env lossy utf8 parse parse_stream (init level) es = Some s ->
  shuts_down q -> (forall c, q_client q = Some c -> address c) -> shutdown = true ->
  (In Receiver_gone es -> r_status (fst (call shutdown streaming env lossy utf8 parse parse_stream s q)) = 500) /\
  (~ In Receiver_gone es -> r_status (fst (call shutdown streaming env lossy utf8 parse parse_stream s q)) = 200).
Proof. exact receiver_told. Qed.
Print Assumptions C107_receiver.

(** Parsers for the examples: any filter is fine but the empty one. *)
Definition ex_parse (f : bytes) : option bytes := match f with [] => None | _ => Some f end.
Definition ex_env : list (bytes * bytes) := [(bs "A"%string, bs "1"%string); (bs "SECRET"%string, bs "x"%string)].
Definition ex_call := call true false ex_env (fun b => b) (fun _ => true) ex_parse ex_parse.
Definition local_put (frames : list bytes) : request :=
  Request (bs "PUT"%string) (bs "/proxy-log-level"%string) None [] (Some (V6 281472812449793)) frames false.

(** Yet the body of such a request is not read as a whole: of one that comes in two frames only the first counts. *)
Theorem C107_whole_body_refuted :
  ~ forall parse s q f l, q_path q = bs "/proxy-log-level" -> q_method q = bs "PUT" ->
      q_client q = Some (V4 2130706433) -> q_broken q = false -> List.concat (q_frames q) = f -> parse f = Some l ->
      s_level s <> None ->
      s_level (snd (call true false [] (fun b => b) (fun _ => true) parse parse s q)) = Some l.
Proof.
  intros H.
  specialize (H ex_parse (init (Some (bs "info")))
    (Request (bs "PUT") (bs "/proxy-log-level") None [] (Some (V4 2130706433)) [bs "warn,linkerd"; bs "=debug"] false)
    (bs "warn,linkerd=debug") (bs "warn,linkerd=debug") eq_refl eq_refl eq_refl eq_refl eq_refl eq_refl ltac:(discriminate)).
  vm_compute in H. discriminate.
Qed.
Print Assumptions C107_whole_body_refuted.

Example C107_case :
  on_this_machine (V6 281472812449793) /\ on_this_machine (V4 2130706433) /\ ~ on_this_machine (V4 167772161) /\
  sets_level (fun _ => true) ex_parse (local_put [[]; bs "debug"]) (bs "debug") /\
  run true false ex_env (fun b => b) (fun _ => true) ex_parse ex_parse (init (Some (bs "info")))
    [Called (local_put [[]; bs "debug"]); Called (local_put []);
     Called (Request (bs "PUT") (bs "/proxy-log-level") None [] (Some (V4 167772161)) [bs "trace"] false);
     Called (Request (bs "POST") (bs "/shutdown") None [] (Some (V6 1)) [] false); Latch_cloned; Latch_dropped; Latch_dropped] =
    Some (State 0 (Some (bs "debug")) 1 true).
Proof.
  split; [left; exists 2130706433; split; [right; reflexivity|lia]|].
  split; [left; exists 2130706433; split; [left; reflexivity|lia]|].
  split; [intros [(a & [E|E] & H)|E]; try discriminate; injection E as <-; lia|].
  split.
  - split; [reflexivity|]. split; [reflexivity|]. split.
    { eexists. split; [reflexivity|]. left. exists 2130706433. split; [right; reflexivity|lia]. }
    split; [reflexivity|]. exists (bs "debug"). split; [|split; reflexivity].
    right. exists [[]], []. split; [reflexivity|]. split; [intros e [<-|[]]; reflexivity|reflexivity].
  - vm_compute. reflexivity.
Qed.

(** ** C108: what it tells *)

(** The proxy tells that it is ready exactly if every latch has been dropped, however many were made; *)
Theorem C108_ready : forall shutdown streaming env lossy utf8 parse parse_stream es s level q,
  addressed es -> run shutdown streaming env lossy utf8 parse parse_stream (init level) es = Some s ->
  q_path q = bs "/ready" ->
  r_status (fst (call shutdown streaming env lossy utf8 parse parse_stream s q)) = 200 <->
  count dropped es = S (count cloned es).
Proof.
  exact (fun sh st en lo ut pa ps es s level q A R P =>
    iff_trans (ready_rsp_iff sh st en lo ut pa ps s q P) (run_ready sh st en lo ut pa ps es s level A R)).
Qed.
Print Assumptions C108_ready.

(** it then never tells otherwise. *)
Theorem C108_ready_forever : forall shutdown streaming env lossy utf8 parse parse_stream es s s',
  addressed es -> run shutdown streaming env lossy utf8 parse parse_stream s es = Some s' ->
  is_ready s = true -> is_ready s' = true.
Proof. intros until es. exact (ready_forever shutdown streaming env lossy utf8 parse parse_stream es). Qed.
Print Assumptions C108_ready_forever.

(** It always tells that it is alive. *)
Theorem C108_live : forall shutdown streaming env lossy utf8 parse parse_stream s q,
  q_path q = bs "/live" ->
  r_status (fst (call shutdown streaming env lossy utf8 parse parse_stream s q)) = 200 /\
  r_body (fst (call shutdown streaming env lossy utf8 parse parse_stream s q)) = Text (bs "live") /\
  snd (call shutdown streaming env lossy utf8 parse parse_stream s q) = s.
Proof. exact live_told. Qed.
Print Assumptions C108_live.

(** Logs are streamed, if that is built in, to local clients that take JSON, by the filter of the query or of the body. *)
Theorem C108_logs : forall shutdown streaming env lossy utf8 parse parse_stream s q c filter,
  q_client q = Some c -> address c -> on_this_machine c -> streaming = true -> q_path q = bs "/logs.json" ->
  r_body (fst (call shutdown streaming env lossy utf8 parse parse_stream s q)) = Log_stream filter <->
  takes_json utf8 q /\
  (q_method q = bs "GET" /\ (exists query, q_query q = Some query /\ parse_stream query = Some filter) \/
   q_method q = bs "QUERY" /\ q_broken q = false /\
   exists chunk, first_frame q chunk /\ utf8 chunk = true /\ parse_stream chunk = Some filter).
Proof. exact stream_iff. Qed.
Print Assumptions C108_logs.

(** Metrics are compressed exactly if an `accept-encoding` has gzip in it. *)
Theorem C108_metrics : forall shutdown streaming env lossy utf8 parse parse_stream s q,
  q_path q = bs "/metrics" ->
  let r := call shutdown streaming env lossy utf8 parse parse_stream s q in
  snd r = s /\ r_status (fst r) = 200 /\
  (r_body (fst r) = Metrics true /\ r_encoding (fst r) = Some (bs "gzip") /\ takes_gzip q \/
   r_body (fst r) = Metrics false /\ r_encoding (fst r) = None /\ ~ takes_gzip q).
Proof. exact metrics_answer. Qed.
Print Assumptions C108_metrics.

(** So they are also for a client that refuses gzip. *)
Theorem C108_gzip_refuted : exists q,
  q_path q = bs "/metrics" /\ q_headers q = [(bs "accept-encoding", bs "gzip;q=0")] /\
  r_encoding (fst (ex_call (init None) q)) = Some (bs "gzip").
Proof.
  exists (Request (bs "GET") (bs "/metrics") None [(bs "accept-encoding", bs "gzip;q=0")] None [] false).
  split; [reflexivity|]. split; [reflexivity|]. vm_compute. reflexivity.
Qed.
Print Assumptions C108_gzip_refuted.

(** The environment is told, to whoever asks, *)
Theorem C108_environment : forall shutdown streaming env lossy utf8 parse parse_stream s q,
  q_path q = bs "/env.json" -> q_method q = bs "GET" -> takes_json utf8 q -> q_query q = None ->
  fst (call shutdown streaming env lossy utf8 parse parse_stream s q) =
  Response 200 (Some (bs "application/json")) None []
    (Environment (map (fun kv => (lossy (fst kv), Some (lossy (snd kv)))) env)).
Proof. exact env_all. Qed.
Print Assumptions C108_environment.

(** or, of it, the variables that are asked for, *)
Theorem C108_variables : forall shutdown streaming env lossy utf8 parse parse_stream s q query names,
  q_path q = bs "/env.json" -> q_method q = bs "GET" -> takes_json utf8 q ->
  NoDup (map fst env) -> q_query q = Some query -> ~ In 61 query -> names <> [] -> query = join 38 names ->
  (forall n, In n names -> ~ In 38 n) ->
  exists vars, r_status (fst (call shutdown streaming env lossy utf8 parse parse_stream s q)) = 200 /\
    r_body (fst (call shutdown streaming env lossy utf8 parse parse_stream s q)) = Environment vars /\
    (forall k, In k names <-> exists v, In (k, v) vars) /\
    (forall k v, In (k, v) vars -> forall x, v = Some x <-> exists raw, In (k, raw) env /\ x = lossy raw).
Proof. exact env_asked. Qed.
Print Assumptions C108_variables.

(** exactly if it is asked for in this way. *)
Theorem C108_environment_iff : forall shutdown streaming env lossy utf8 parse parse_stream s q,
  q_path q = bs "/env.json" ->
  r_status (fst (call shutdown streaming env lossy utf8 parse parse_stream s q)) = 200 <->
  q_method q = bs "GET" /\ takes_json utf8 q /\ forall query, q_query q = Some query -> ~ In 61 query.
Proof. exact env_refused. Qed.
Print Assumptions C108_environment_iff.

(** Clients elsewhere can read it. *)
Theorem C108_private_refuted : exists q c,
  q_client q = Some c /\ address c /\ ~ on_this_machine c /\
  r_body (fst (ex_call (init None) q)) = Environment [(bs "A", Some (bs "1")); (bs "SECRET", Some (bs "x"))].
Proof.
  exists (Request (bs "GET") (bs "/env.json") None [] (Some (V4 167772161)) [] false), (V4 167772161).
  split; [reflexivity|]. split; [reflexivity|].
  split; [intros [(a & [E|E] & H)|E]; try discriminate; injection E as <-; lia|]. vm_compute. reflexivity.
Qed.
Print Assumptions C108_private_refuted.

(** Only the first `accept` is looked at: a client whose second one takes JSON gets none. *)
Theorem C108_accept_refuted : exists q,
  FilterSpec.values (bs "accept") (q_headers q) [bs "text/html"; bs "application/json"] /\
  r_status (fst (ex_call (init None) q)) = 406.
Proof.
  exists (Request (bs "GET") (bs "/env.json") None [(bs "accept", bs "text/html"); (bs "accept", bs "application/json")]
    (Some (V6 1)) [] false).
  split; [apply FilterProofs.values_get_all; reflexivity|]. vm_compute. reflexivity.
Qed.
Print Assumptions C108_accept_refuted.

(** All else is not found. *)
Theorem C108_unknown : forall shutdown streaming env lossy utf8 parse parse_stream s q,
  ~ known_path streaming (q_path q) ->
  fst (call shutdown streaming env lossy utf8 parse parse_stream s q) = Response 404 None None [] Nothing /\
  snd (call shutdown streaming env lossy utf8 parse parse_stream s q) = s.
Proof. exact unknown. Qed.
Print Assumptions C108_unknown.

(** A request gets to the server only if the policy of the admin port lets it pass, with the headers that its filters make, *)
Theorem C108_policy : forall shutdown streaming env lossy utf8 parse parse_stream pq_valid draw p t limit remote req u q s r,
  let a := admin_request shutdown streaming env lossy utf8 parse parse_stream pq_valid draw p t limit remote req u q s in
  fst a = inl r ->
  exists hs, fst (PolicyModel.call pq_valid draw p remote t req u limit) = PolicyModel.R_forward hs /\
    (r, snd a) = call shutdown streaming env lossy utf8 parse parse_stream s
      (Request (q_method q) (q_path q) (q_query q) hs (Some remote) (q_frames q) (q_broken q)).
Proof. exact answered. Qed.
Print Assumptions C108_policy.

(** so nothing changes but for a local client that the policy allows to do so. *)
Theorem C108_changes : forall shutdown streaming env lossy utf8 parse parse_stream pq_valid draw p t limit remote req u q s,
  address remote ->
  snd (admin_request shutdown streaming env lossy utf8 parse parse_stream pq_valid draw p t limit remote req u q s) <> s ->
  on_this_machine remote /\
  exists hs, fst (PolicyModel.call pq_valid draw p remote t req u limit) = PolicyModel.R_forward hs.
Proof. exact changed. Qed.
Print Assumptions C108_changes.

(** Connections are served as the version of HTTP that was detected; if that takes too long, as HTTP/2 for the mesh's
    clients and HTTP/1 for those without TLS; other connections are refused. *)
Theorem C108_http : forall t d v, admin_http t d = Some v <->
  d = Detected v \/
  d = Timed_out /\ (t = No_tls /\ v = PolicyModel.V_http1 \/ (exists c, t = Established c) /\ v = PolicyModel.V_h2).
Proof. exact http_iff. Qed.
Print Assumptions C108_http.

Example C108_case :
  let get p query hs := Request (bs "GET") p query hs (Some (V4 167772161)) [] false in
  ex_call (init None) (get (bs "/ready") None []) = (Response 503 None None [] (Text (bs "not ready")), init None) /\
  takes_json (fun _ => true) (get (bs "/env.json") (Some (bs "A&B")) [(bs "accept", bs "text/html, */*")]) /\
  bs "A&B" = join 38 [bs "A"; bs "B"] /\
  fst (ex_call (init None) (get (bs "/env.json") (Some (bs "A&B")) [(bs "accept", bs "text/html, */*")])) =
    Response 200 (Some (bs "application/json")) None [] (Environment [(bs "A", Some (bs "1")); (bs "B", None)]) /\
  takes_gzip (get (bs "/metrics") None [(bs "accept-encoding", bs "deflate, gzip")]) /\
  ~ known_path false (bs "/logs.json") /\
  exists s, run true false ex_env (fun b => b) (fun _ => true) ex_parse ex_parse (init None) [Latch_cloned; Latch_dropped; Latch_dropped] = Some s /\
    is_ready s = true.
Proof.
  split; [vm_compute; reflexivity|]. split.
  { apply accepts_iff. vm_compute. reflexivity. }
  split; [reflexivity|]. split; [vm_compute; reflexivity|]. split.
  { apply gzip_iff. vm_compute. reflexivity. }
  split; [intros [H|[H _]]; [vm_compute in H; repeat destruct H as [H|H]; discriminate + destruct H|discriminate]|].
  eexists. split; vm_compute; reflexivity.
Qed.

(** A policy that lets this machine's clients use `/shutdown` and everyone else nothing *)
Example C108_policy_case :
  let mine := [Authorization [Net (Net4 2130706432 8) []] Unauthenticated] in
  let p := PolicyModel.Http1 [RouteModel.Route [] [RouteModel.Rule [RouteModel.MatchRequest None [] [] None] (PolicyModel.RoutePolicy mine [])]] in
  let req := RouteModel.Request (bs "POST") None (bs "/shutdown") None [] in
  let u := FilterModel.Uri None None (bs "/shutdown") None in
  let q := Request (bs "POST") (bs "/shutdown") None [] None [] false in
  let ask remote := admin_request true false ex_env (fun b => b) (fun _ => true) ex_parse ex_parse (fun _ => true) (fun _ => true)
                      p No_tls true remote req u q (init None) in
  ask (V4 2130706433) = (inl (Response 200 (Some (bs "text/plain")) None [] (Text (bs "shutdown"))), State 1 None 1 true) /\
  ask (V4 167772161) = (inr PolicyModel.R_unauthorized, init None).
Proof. vm_compute. split; reflexivity. Qed.

Example C108_logs_case :
  let q := Request (bs "QUERY") (bs "/logs.json") None [(bs "accept", bs "application/*")] (Some (V6 1)) [[]; bs "debug"] false in
  fst (call false true [] (fun b => b) (fun _ => true) ex_parse ex_parse (init None) q) =
    Response 200 (Some (bs "application/json")) None [] (Log_stream (bs "debug")) /\
  first_frame q (bs "debug") /\
  fst (ex_call (init None) (Request (bs "PUT") (bs "/live") None [] None [] false)) =
    Response 200 (Some (bs "text/plain")) None [] (Text (bs "live")).
Proof.
  split; [vm_compute; reflexivity|]. split; [|vm_compute; reflexivity].
  right. exists [[]], []. split; [reflexivity|]. split; [intros e [<-|[]]; reflexivity|reflexivity].
Qed.
