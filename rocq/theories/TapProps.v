(** C111: a tap selects exactly the requests that its message describes.
    C112: it reports the first of them, completely and in order.
    C113: every tap sees every request, and only the permitted client can tap. *)
From Coq Require Import String List Arith NArith ZArith Bool.
From Verif Require MtlsProps.
From Verif Require Import Bytes AuthzModel AuthzSpec FilterModel TraceModel MtlsModel MtlsSpec MtlsProofs TapModel TapSpec
  TapProofs TapSessionProofs.
Import ListNotations.
Open Scope nat_scope.

Definition get_method (m : w_method) : option bytes :=
  match m with W_method_registered 0%Z => Some (bs "GET"%string) | W_method_unregistered s => Some s | _ => None end.
Definition ex_view : view :=
  View (Some (V4 167772161, 40000%N)) (Some (V4 167772674, 8080%N)) (Some [(bs "pod"%string, bs "web-1"%string)]) None
    (bs "GET"%string) (Some Http) (Some (bs "web:8080"%string)) (bs "/a/b"%string) (Some (bs "/a/b?q"%string)) true
    [(bs "accept"%string, bs "x"%string)].
Definition ex_wire : wire :=
  W_all [None; Some (W_any [Some (W_destination (Some (W_ports 8080 0))); Some (W_source (Some (W_ports 1 10)))]);
         Some (W_not (Some (W_http (Some (W_path (Some (Prefix (bs "/c"%string)))))))) ;
         Some (W_dst_label (bs "pod"%string) (bs "web-1"%string))].

(** ** C111 *)

(** Whatever a request to tap asks for that is accepted, a request is selected exactly if it is what was described: any
    nesting of all, any and not; ports within bounds, addresses within a network, labels, scheme, method, authority and
    path. *)
Theorem C111_selects :
  forall scheme_ok method_of w m v, wire_wf w -> view_wf v ->
    try_new scheme_ok method_of (Some w) = inl m -> (matches m v = true <-> means method_of w v).
Proof. exact selects_iff. Qed.
Print Assumptions C111_selects.
Example C111_selects_ex :
  wire_wf ex_wire /\ view_wf ex_view /\
  (exists m, try_new (fun _ => true) get_method (Some ex_wire) = inl m /\ matches m ex_view = true /\
     matches (Not m) ex_view = false).
Proof.
  split; [repeat split|]. split.
  - split; [|split; [|split; [|exact I]]].
    + intros a E. injection E as <-. reflexivity.
    + intros a E. injection E as <-. reflexivity.
    + cbn. constructor; [intros []|constructor].
  - eexists. split; [reflexivity|]. split; reflexivity.
Qed.

(** A request to tap is accepted exactly if each part of it is right: ports that fit, with the bounds in order; prefix
    lengths between 1 and those of the address; labels that are not empty; schemes and methods that exist. *)
Theorem C111_accepts :
  forall scheme_ok method_of w,
    (exists m, try_new scheme_ok method_of w = inl m) <-> exists w', w = Some w' /\ valid scheme_ok method_of w'.
Proof. exact accepts_match. Qed.
Print Assumptions C111_accepts.
Example C111_accepts_ex :
  (exists m, try_new (fun _ => true) get_method (Some (W_not (Some ex_wire))) = inl m) /\
  try_new (fun _ => true) get_method (Some (W_all [Some ex_wire; Some (W_source (Some (W_ports 5 3)))])) = inr InvalidPort.
Proof. split; [eexists|]; reflexivity. Qed.

(** And it must have a limit; headers are reported only if they were asked for. *)
Theorem C111_observe :
  forall scheme_ok method_of limit w x,
    (forall t, observe scheme_ok method_of limit w x = inl t <->
       limit <> 0 /\ exists m, try_new scheme_ok method_of w = inl m /\
         t = new_tap m (match x with Some (X_http true) => true | _ => false end) limit) /\
    (observe scheme_ok method_of limit w x = inr No_limit <-> limit = 0).
Proof. exact observe_ok. Qed.
Print Assumptions C111_observe.
Example C111_observe_ex :
  observe (fun _ => true) get_method 0 (Some ex_wire) None = inr No_limit /\
  exists t, observe (fun _ => true) get_method 5 (Some ex_wire) (Some (X_http true)) = inl t /\ t_extract t = true.
Proof. split; [reflexivity|]. eexists. split; reflexivity. Qed.

(** Finding: the empty parts of a sequence are not refused but left out, so a conjunction of parts that say nothing
    selects every request. *)
Theorem C111_empty_refuted :
  exists w, In None match w with W_all l => l | _ => [] end /\
    forall scheme_ok method_of, exists m, try_new scheme_ok method_of (Some w) = inl m /\ forall v, matches m v = true.
Proof. exists (W_all [None; None]). split; [now left|]. intros. eexists. split; reflexivity. Qed.
Print Assumptions C111_empty_refuted.

(** Finding: the networks of all addresses cannot be asked for. *)
Theorem C111_networks_refuted :
  ~ forall scheme_ok method_of i len, ip_wf i -> (len <= 32)%N ->
      exists m, try_new scheme_ok method_of (Some (W_source (Some (W_netmask (Some i) len)))) = inl m.
Proof.
  intros H. destruct (H (fun _ => true) get_method (V4 0) 0%N) as (m & E); [reflexivity|discriminate|]. discriminate E.
Qed.
Print Assumptions C111_networks_refuted.

(** Finding: schemes are compared without regard to case, except these two: a tap of the scheme "HTTP" is accepted but
    does not select requests whose scheme is http. *)
Theorem C111_scheme_case_refuted :
  ~ forall scheme_ok method_of s t m v, lowers s = lowers t -> v_scheme v = scheme_from_str scheme_ok t ->
      try_new scheme_ok method_of (Some (W_http (Some (W_scheme (Some (W_scheme_unregistered s)))))) = inl m ->
      matches m v = true.
Proof.
  intros H. specialize (H (fun _ => true) get_method (bs "HTTP") (bs "http") _ ex_view eq_refl eq_refl eq_refl).
  discriminate H.
Qed.
Print Assumptions C111_scheme_case_refuted.

(** ** C112 *)
Definition all_requests : match_ := All [].
Definition ok_response : response := Response 200 true [(GRPC_STATUS, bs "0"%string)] false.
Definition ex_ops : list op :=
  [Request ex_view; Request ex_view; Report 1; Report 0; Poll; Respond 0 ok_response; Request ex_view; Fail 1 (Some 8%N);
   Frame 0 (Data false); Poll; Frame 0 (Trailers [(GRPC_STATUS, bs "13"%string)]); Poll; Poll; Poll; Poll].

(** The events that a tap yields are of at most [limit] requests, which are the first ones that it selects: request [n]
    of a tap is the [n]-th request that matches, and what is said of it is what it was. *)
Theorem C112_first :
  forall m x limit ops e, In e (t_out (run (new_tap m x limit) ops)) ->
    event_id e < limit /\
    (is_init e -> exists v, nth_error (selected m ops) (event_id e) = Some v /\ e = asks x (event_id e) v).
Proof. exact first_ok. Qed.
Print Assumptions C112_first.

(** Of each, it yields the request first, then at most one response, then at most one end, in whatever order the
    requests are counted, reported, answered, polled, cancelled, and whether or not the client leaves. *)
Theorem C112_order :
  forall m x limit ops id, in_order (about id (t_out (run (new_tap m x limit) ops))).
Proof. exact order_ok. Qed.
Print Assumptions C112_order.
Example C112_order_ex :
  let t := run (new_tap all_requests false 2) ex_ops in
  List.length (about 0 (t_out t)) = 3 /\ List.length (about 1 (t_out t)) = 2 /\ t_ended t = true /\ List.length (t_out t) = 5.
Proof. vm_compute. auto. Qed.

(** If its client keeps up, so that there is always room in its channel, everything is reported: of the [n]-th request
    that it selects, what was requested, what was answered, and how it ended: with the gRPC status of the trailers, else
    of the response's headers, or with the code of the reset. *)
Theorem C112_complete :
  forall m x limit a v b d,
    let id := List.length (selected m a) in
    let ops := a ++ Request v :: b ++ Report id :: d in
    ~ In Leave ops -> roomy (new_tap m x limit) ops -> matches m v = true -> id < limit -> ~ In (Report id) b ->
    about id (t_out (run (new_tap m x limit) ops) ++ t_buffer (run (new_tap m x limit) ops)) =
      asks x id v :: answers x id d.
Proof. exact complete_ok. Qed.
Print Assumptions C112_complete.
(** For taps of up to 132 requests there is always room. *)
Theorem C112_room :
  forall m x limit ops, limit <= 132 -> roomy (new_tap m x limit) ops.
Proof.
  intros m x limit ops L. apply roomy_ok. rewrite cap. apply (Nat.le_trans _ (3 * 132 + 2)).
  - apply Nat.add_le_mono_r, Nat.mul_le_mono_l, L.
  - apply Nat.leb_le. reflexivity.
Qed.
Print Assumptions C112_room.
Example C112_complete_ex :
  ex_ops = [] ++ Request ex_view :: [Request ex_view; Report 1] ++ Report 0 :: skipn 4 ex_ops /\
  ~ In Leave ex_ops /\ 2 <= 132 /\
  answers false 0 (skipn 4 ex_ops) =
    [ResponseInit 0 200 None; ResponseEnd 0 (Some (Grpc_status 13)) None].
Proof.
  split; [reflexivity|]. split; [intros H; unfold ex_ops in H; repeat (destruct H as [H|H]; [discriminate H|]); exact H|]. split; [|reflexivity].
  apply Nat.leb_le. reflexivity.
Qed.

(** Without headers being asked for, none are shown, nor trailers. *)
Theorem C112_private :
  forall m x limit, x = false -> forall ops e, In e (t_out (run (new_tap m x limit) ops)) -> shown e = None.
Proof. exact shown_ok. Qed.
Print Assumptions C112_private.

(** A tap counts every request that it selects until it has its limit, as long as its client is there. *)
Theorem C112_counts :
  forall m x limit ops, ~ In Leave ops ->
    List.length (t_reqs (run (new_tap m x limit) ops)) = min limit (List.length (selected m ops)).
Proof. exact counts_ok. Qed.
Print Assumptions C112_counts.

(** It ends only when it has had its limit of requests, nothing more is to be said of any of them, and everything has
    been yielded; nothing comes after that. *)
Theorem C112_ended :
  forall m x limit ops, t_ended (run (new_tap m x limit) ops) = true ->
    limit <= List.length (selected m ops) /\ List.length (t_reqs (run (new_tap m x limit) ops)) = limit /\
    (forall p, In p (t_reqs (run (new_tap m x limit) ops)) -> p = Done) /\ t_buffer (run (new_tap m x limit) ops) = [].
Proof. exact ended_ok. Qed.
Print Assumptions C112_ended.
Theorem C112_stays_ended :
  forall m x limit ops more, t_ended (run (new_tap m x limit) ops) = true ->
    t_out (run (new_tap m x limit) (ops ++ more)) = t_out (run (new_tap m x limit) ops) /\
    t_ended (run (new_tap m x limit) (ops ++ more)) = true.
Proof. exact ended_stays. Qed.
Print Assumptions C112_stays_ended.
(** And then it does end, once its client has polled for what remains. *)
Theorem C112_ends :
  forall m x limit ops, ~ In Leave ops -> limit <= List.length (selected m ops) ->
    (forall p, In p (t_reqs (run (new_tap m x limit) ops)) -> p = Done) ->
    let n := S (List.length (t_buffer (run (new_tap m x limit) ops))) in
    t_ended (run (new_tap m x limit) (ops ++ repeat Poll n)) = true /\
    t_out (run (new_tap m x limit) (ops ++ repeat Poll n)) =
      t_out (run (new_tap m x limit) ops) ++ t_buffer (run (new_tap m x limit) ops).
Proof. exact drains_ok. Qed.
Print Assumptions C112_ends.
Example C112_ends_ex :
  let ops := firstn 12 ex_ops in
  2 <= List.length (selected all_requests ops) /\
  forallb (fun p => negb (is_live p)) (t_reqs (run (new_tap all_requests false 2) ops)) = true /\
  List.length (t_buffer (run (new_tap all_requests false 2) ops)) = 2.
Proof. vm_compute. auto. Qed.

(** Finding: a request whose client gives up before the response is reported without an end, although the tap ends. *)
Theorem C112_cancelled_refuted :
  ~ forall m x limit ops e, t_ended (run (new_tap m x limit) ops) = true ->
      In e (t_out (run (new_tap m x limit) ops)) -> is_init e ->
      exists e', In e' (t_out (run (new_tap m x limit) ops)) /\ is_end e' /\ event_id e' = event_id e.
Proof.
  intros H. specialize (H all_requests false 1 [Request ex_view; Report 0; Cancel 0; Poll; Poll] (asks false 0 ex_view)).
  destruct H as (e' & I & E & _); [reflexivity|now left|exact Logic.I|]. destruct I as [<-|[]]. exact E.
Qed.
Print Assumptions C112_cancelled_refuted.

(** Finding: a response whose body is given up is reported like one that was complete. *)
Theorem C112_aborted_refuted :
  ~ forall m x limit a id st, nth_error (t_reqs (run (new_tap m x limit) a)) id = Some (InBody st) ->
      t_buffer (run (new_tap m x limit) (a ++ [Frame id End_of_body])) <>
      t_buffer (run (new_tap m x limit) (a ++ [Drop_body id])).
Proof.
  intros H. exact (H all_requests false 1 [Request ex_view; Report 0; Respond 0 ok_response] 0 _ eq_refl eq_refl).
Qed.
Print Assumptions C112_aborted_refuted.

(** Finding: when the channel is full, a request is counted but not reported: a tap may end with fewer requests than its
    limit, although more came. *)
Definition flood : list op :=
  flat_map (fun i => [Request ex_view; Report i; Cancel i]) (seq 0 401) ++ repeat Poll 402.
Theorem C112_limit_refuted :
  ~ forall m x limit ops, t_ended (run (new_tap m x limit) ops) = true ->
      List.length (filter (fun e => match e with RequestInit _ _ _ _ _ _ => true | _ => false end)
        (t_out (run (new_tap m x limit) ops))) = limit.
Proof.
  intros H. specialize (H all_requests false 401 flood). assert (E : t_ended (run (new_tap all_requests false 401) flood) = true)
    by (vm_compute; reflexivity).
  specialize (H E). vm_compute in H. discriminate H.
Qed.
Print Assumptions C112_limit_refuted.

(** ** C113 *)

(** Whatever taps begin, end and are cleaned away, a request is offered to every tap that can still count one, and
    changes nothing of what the others report. *)
Theorem C113_offered :
  forall l v i t, nth_error (g_taps (grun l)) i = Some t ->
    exists t', nth_error (g_taps (grun (l ++ [Serve v]))) i = Some t' /\
      (can_tap_more t = true -> t' = step t (Request v)) /\
      (can_tap_more t = false -> t_reqs t' = t_reqs t /\ t_buffer t' = t_buffer t /\ t_out t' = t_out t).
Proof. exact offered_ok. Qed.
Print Assumptions C113_offered.
Example C113_offered_ex :
  let l := [Register (new_tap all_requests false 1); Serve ex_view; On 0 (Report 0); On 0 (Cancel 0); On 0 Poll; Clean;
            Register (new_tap (Not all_requests) false 1); Register (new_tap all_requests true 2)] in
  map can_tap_more (g_taps (grun l)) = [false; true; true] /\ g_seen (grun l) = [1; 2] /\
  map (fun t => List.length (t_reqs t)) (g_taps (grun (l ++ [Serve ex_view]))) = [1; 0; 1].
Proof. vm_compute. auto. Qed.

(** Finding: cleaning the registry does not change what services see: they look at taps that are over until the next
    one begins. *)
Theorem C113_clean_refuted :
  ~ forall l i t, In i (g_seen (grun (l ++ [Clean]))) -> nth_error (g_taps (grun (l ++ [Clean]))) i = Some t ->
      can_tap_more t = true.
Proof.
  intros H. specialize (H [Register (new_tap all_requests false 1); On 0 Leave] 0 _ (or_introl eq_refl) eq_refl). discriminate H.
Qed.
Print Assumptions C113_clean_refuted.

(** A client can tap exactly if it has proved, with a certificate that the trust anchors have signed, that it has the
    permitted identity; not without TLS, nor from the proxy's own host. *)
Theorem C113_permitted :
  forall L permitted name cfg sni scheme p now,
    tap_connection L permitted name cfg sni scheme p now = Some Authenticated <->
    sni = Some name /\ cfg <> None /\ scheme = true /\
    exists leaf, proved (x_trusted_client L) p now leaf /\ certifies_first L leaf permitted.
Proof. exact permitted_iff. Qed.
Print Assumptions C113_permitted.
Example C113_permitted_ex :
  tap_connection MtlsProps.ex_lib MtlsProps.foo (bs "a") (Some MtlsProps.foo_cred) (Some (bs "a")) true
    (as_peer MtlsProps.foo_cred None) 5 = Some Authenticated /\
  tap_connection MtlsProps.ex_lib MtlsProps.foo (bs "a") (Some MtlsProps.foo_cred) (Some (bs "a")) true
    (Peer [] false None) 5 = Some Unauthorized_client /\
  tap_connection MtlsProps.ex_lib MtlsProps.foo (bs "a") (Some MtlsProps.foo_cred) (Some (bs "b")) true
    (as_peer MtlsProps.foo_cred None) 5 = Some Unauthorized_client /\
  tap_connection MtlsProps.ex_lib MtlsProps.foo (bs "a") (Some MtlsProps.foo_cred) None true
    (as_peer MtlsProps.foo_cred None) 5 = Some (Unauthenticated NoClientHello).
Proof. vm_compute. auto. Qed.
