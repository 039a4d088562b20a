(** C131 and C132: the access log. *)
From Coq Require Import String List NArith Arith Lia.
From Verif Require Import Bytes FilterModel TraceModel TraceSpec Http1Model LogModel LogSpec LogProofs.
Import ListNotations.
Open Scope N_scope.

(** Two requests at the same time: the second has its response first, the first is given up by its client; the third fails. *)
Definition get (uri : bytes) : asked := Asked (bs "GET"%string) uri Http_11 [(bs "host"%string, bs "web"%string); (bs "content-length"%string, bs "5"%string)].
Definition some_events : list event :=
  [Begins (Conn (bs "10.1.2.3:4567"%string) None) (bs "2024-01-02T03:04:05Z"%string) (get (bs "/a?b=c"%string)) 100;
   Begins (Conn (bs "[::1]:80"%string) (Some (bs "web.ns.serviceaccount.identity.linkerd"%string))) (bs "2024-01-02T03:04:06Z"%string) (get (bs "/"%string)) 200;
   Polled 0 (Poll 110 130 Pending); Polled 1 (Poll 210 215 Pending);
   Polled 1 (Poll 300 310 (Responded (Answered 204 [(bs "content-length"%string, bs "0"%string)])));
   Dropped 1; Dropped 0;
   Begins (Conn (bs "10.1.2.3:4568"%string) None) (bs "2024-01-02T03:04:07Z"%string) (get (bs "/b"%string)) 500;
   Polled 2 (Poll 510 520 Failed); Dropped 2].
Example C131_case : Forall sound some_events /\ access_log_format (Some (bs "Apache")) = Some Apache /\
  exists w, run (start (Some (bs "Apache"))) some_events = Some w /\
    w_written w = [Line (bs "[::1]:80 web.ns.serviceaccount.identity.linkerd - [2024-01-02T03:04:06Z] ""GET / HTTP/1.1"" 204");
                   Line (bs "10.1.2.3:4567 - - [2024-01-02T03:04:05Z] ""GET /a?b=c HTTP/1.1""");
                   Line (bs "10.1.2.3:4568 - - [2024-01-02T03:04:07Z] ""GET /b HTTP/1.1""")].
Proof.
  split; [|split; [reflexivity|eexists; split; vm_compute; reflexivity]].
  assert (W : forall s, existsb (fun c => (c =? 32) || (c =? 10))%bool s = false -> word s).
  { intros s E. split; intros I; (assert (T : existsb (fun c => (c =? 32) || (c =? 10))%bool s = true) by (apply existsb_exists; eauto); congruence). }
  unfold some_events. repeat apply Forall_cons; try apply Forall_nil; cbn [sound p_outcome s_status];
    try exact I; try lia; repeat split; try (apply W; reflexivity); try discriminate; try (intros n E; discriminate);
    try (injection H as <-; apply W; reflexivity); try (injection H as <-; discriminate).
Qed.

(* ---- C131 ---- *)

(** The log, read line by line, has an entry for every request whose future was dropped, in that order: the client, its
    identity if it has one, the time, the method, the URI, the version, and the status if there was a response.  No request
    has two. *)
Theorem C131_lines : forall env h w, access_log_format env = Some Apache -> Forall sound h -> run (start env) h = Some w ->
  read_log (printed w) = entries h /\ NoDup (drops h) /\ ~ In None (entries h).
Proof. exact log_lines. Qed.
Print Assumptions C131_lines.

(** Without the variable, or with a value other than these, in letters of any case, nothing is logged. *)
Theorem C131_off : forall env h w, (forall s, env = Some s -> lowers s <> bs "json" /\ lowers s <> bs "apache") ->
  run (start env) h = Some w -> w_written w = [].
Proof. exact log_off. Qed.
Print Assumptions C131_off.

(** But a line is not what readers of the common log format take it for: a path may have a quote in it (as `http::Uri` allows),
    and then the request is not what is between the first quote and the next. *)
Theorem C131_quote_refuted : ~ forall env h w c now q t, access_log_format env = Some Apache -> Forall sound h ->
  run (start env) h = Some w -> h = [Begins c now q t; Dropped 0] ->
  nth_error (split 34 (printed w)) 1 = Some (a_method q ++ [32] ++ a_uri q ++ [32] ++ version_text (a_version q)).
Proof.
  intros H. assert (F : Forall sound [Begins (Conn [49] None) [48] (Asked [71] [47; 34; 98] Http_11 []) 0; Dropped 0]).
  { repeat constructor; cbn; try (intros I; repeat destruct I as [I|I]; try discriminate I; exact I); discriminate. }
  specialize (H (Some (bs "apache"%string)) _ _ _ _ _ _ eq_refl F eq_refl eq_refl). vm_compute in H. discriminate.
Qed.
Print Assumptions C131_quote_refuted.

(* ---- C132 ---- *)

(** Which format it is: what the environment says, in upper or lower case. *)
Theorem C132_format : forall env,
  (access_log_format env = Some Json <-> exists s, env = Some s /\ lowers s = bs "json") /\
  (access_log_format env = Some Apache <-> exists s, env = Some s /\ lowers s = bs "apache").
Proof. exact format_iff. Qed.
Print Assumptions C132_format.

(** In the JSON format there is an object for every request whose future was dropped, in that order; each name is in it once,
    and it says what the client sent, and, if there was a response, what that was and how long it took. *)
Theorem C132_objects : forall env h w, access_log_format env = Some Json -> run (start env) h = Some w ->
  NoDup (drops h) /\
  Forall2 (fun i t => exists b o, nth_error (begins h) i = Some b /\ t = Object o /\ NoDup (map fst o) /\
    forall name v, In (name, v) o <-> says b (polls_of i h) name v) (drops h) (w_written w).
Proof. exact log_objects. Qed.
Print Assumptions C132_objects.
Example C132_case : access_log_format (Some (bs "JSON")) = Some Json /\
  exists w o, run (start (Some (bs "JSON"))) some_events = Some w /\ nth_error (w_written w) 0 = Some (Object o) /\
    In (bs "status", Num 204) o /\ In (bs "total_ns", Str (bs "110")) o /\ In (bs "processing_ns", Str (bs "15")) o /\
    In (bs "response_bytes", Str (bs "0")) o /\ In (bs "request_bytes", Str (bs "5")) o /\ In (bs "trace_id", Str []) o.
Proof. split; [reflexivity|]. do 2 eexists. split; [vm_compute; reflexivity|]. split; [reflexivity|]. vm_compute. tauto. Qed.

(** The time that is said to be spent on a request is no longer than the time that it took. *)
Theorem C132_processing : forall env h w k i b total processing o, access_log_format env = Some Json -> run (start env) h = Some w ->
  nth_error (drops h) k = Some i -> nth_error (w_written w) k = Some (Object o) -> nth_error (begins h) i = Some b -> in_order (b_start b) (polls_of i h) ->
  In (bs "total_ns", Str (to_dec total)) o -> In (bs "processing_ns", Str (to_dec processing)) o -> processing <= total.
Proof. exact processing_bound. Qed.
Print Assumptions C132_processing.

(** But an id of the trace is not always found where there is one: a first header that is not ASCII hides those after it. *)
Theorem C132_trace_id_refuted : ~ forall hs, (exists v, In (bs "x-request-id", v) hs /\ v <> [] /\ to_str v = Some v) -> trace_id hs <> [].
Proof.
  intros H. apply (H [(bs "x-b3-traceid"%string, [200]); (bs "x-request-id"%string, bs "abc"%string)]); [|reflexivity].
  exists (bs "abc"%string). split; [right; left; reflexivity|]. split; [discriminate|reflexivity].
Qed.
Print Assumptions C132_trace_id_refuted.
