(** Properties C118 (the labels of HTTP streams in metrics) and C119 (that they are counted). *)
From Coq Require Import String List NArith Bool.
From Verif Require Import Bytes NameModel NameSpec FilterModel TraceModel PromModel PromSpec PromProofs PromCountProofs.
Import ListNotations.
Open Scope N_scope.

(** ** C118 *)

(** The label of an error is that of the cause that says most, and of those the outermost; without one it is unknown.
    Filters of the route that answer give a status instead. *)
Theorem C118_error : forall e v, verdict e v <-> new_or_status e = v.
Proof. exact verdict_iff. Qed.
Print Assumptions C118_error.
Example C118_error_case :
  new_or_status [C_other; C_h2 (H2_reset (Some 7)); C_deadline; C_h2 H2_io] = inl RequestTimeout /\
  new_or_status [C_h2 (H2_reset (Some 7)); C_h2 H2_io] = inl Refused /\
  new_or_status [C_other; C_http_failure 503; C_redirect 302] = inr 302.
Proof. repeat split. Qed.

(** The labels of a stream, from its response and its end, for each of the four kinds of streams *)
Theorem C118_labels : forall k rsp x l,
  labelled k rsp x l <->
  l = status_labels (end_response k (match rsp with Some (s, hs) => init_response k unseen s hs | None => unseen end) x).
Proof. exact labelled_iff. Qed.
Print Assumptions C118_labels.
Example C118_labels_case :
  labelled Out_http (Some (200, [])) Cancelled (Labels (Some 200) (Some Unknown)) /\
  labelled Out_http None (Broken [C_http_failure 418]) (Labels (Some 418) None) /\
  labelled Out_grpc (Some (200, [])) (Trailers_were [(bs "grpc-status", bs "13")]) (Labels (Some 13) None) /\
  labelled In_grpc (Some (200, [(bs "grpc-status", bs "5")])) Plain (Labels (Some 5) None).
Proof. repeat match goal with |- _ /\ labelled _ _ _ _ => split | |- labelled _ _ _ _ /\ _ => split end; apply C118_labels; reflexivity. Qed.

(** A code of gRPC is known by its decimal number; anything else is UNKNOWN. *)
Theorem C118_code : forall v n, code_from_bytes v = n <-> code_header n v \/ (n = 2 /\ forall m, ~ code_header m v).
Proof. exact code_ok. Qed.
Print Assumptions C118_code.
Example C118_code_case : code_header 16 (bs "16") /\ code_from_bytes (bs "17") = 2 /\ code_from_bytes (bs "016") = 2.
Proof. split; [right; split; [split; discriminate|reflexivity]|split; reflexivity]. Qed.

(** A code in the headers is lost if there are trailers without one. *)
Theorem C118_trailers_refuted : ~ forall k hs t l c,
  k = Out_grpc \/ k = In_grpc -> grpc_code hs (Some c) -> grpc_code t None ->
  labelled k (Some (200, hs)) (Trailers_were t) l -> l_status l = Some c.
Proof.
  intros H. specialize (H In_grpc [(bs "grpc-status", bs "5")] [] (Labels None None) 5 (or_intror eq_refl)).
  discriminate H; [|reflexivity|split; reflexivity]. eexists. split; [reflexivity|]. left. left. split; reflexivity.
Qed.
Print Assumptions C118_trailers_refuted.

(** The host of a request is shown exactly if the route exports it and it is a name, in lower case. *)
Theorem C118_hostname : forall export host n,
  hostname export host = Some n <-> export = true /\ exists h, host = Some h /\ dns_name h /\ n = lowers h.
Proof. exact hostname_iff. Qed.
Print Assumptions C118_hostname.
Example C118_hostname_case :
  hostname true (Some (bs "Web.ns")) = Some (bs "web.ns") /\ hostname true (Some (bs "10.0.0.1")) = None /\
  hostname false (Some (bs "web.ns")) = None.
Proof. repeat split; vm_compute; reflexivity. Qed.

(** Series with different labels are told apart by their text, for HTTP and inbound. *)
Theorem C118_text : forall decimal, (forall a b, decimal a = decimal b -> a = b) -> (forall a, decimal a <> []) ->
  forall k a b, k <> Out_grpc -> encode decimal k a = encode decimal k b -> a = b.
Proof. exact encode_inj. Qed.
Print Assumptions C118_text.
(** For outbound gRPC, *)
Theorem C118_text_grpc_partial : forall decimal,
  forall a b, (forall n, l_status a = Some n -> n <= 16) -> (forall n, l_status b = Some n -> n <= 16) ->
  (encode decimal Out_grpc a = encode decimal Out_grpc b <->
   l_error a = l_error b /\
   match l_status a with Some n => n | None => 2 end = match l_status b with Some n => n | None => 2 end).
Proof. exact encode_grpc. Qed.
Print Assumptions C118_text_grpc_partial.
(** one of streams without a code and one of streams with the code UNKNOWN are not: the metrics have two series with the
    same name and labels. *)
Theorem C118_text_grpc_refuted : forall decimal, exists a b x y,
  a <> b /\ labelled Out_grpc (Some (200, [])) x a /\ labelled Out_grpc (Some (200, [])) y b /\
  encode decimal Out_grpc a = encode decimal Out_grpc b /\ key_eqb ((0, None), Out_grpc, a) ((0, None), Out_grpc, b) = false.
Proof.
  intros decimal. exists (Labels None None), (Labels (Some 2) None), Plain, (Trailers_were [(bs "grpc-status", bs "2")]).
  split; [discriminate|]. split; [apply C118_labels; reflexivity|]. split; [apply C118_labels; reflexivity|].
  split; reflexivity.
Qed.
Print Assumptions C118_text_grpc_refuted.
Example C118_text_case : encode (fun n => [n]) Out_http (Labels (Some 200) (Some Unknown)) = ([200], bs "UNKNOWN") /\
  encode (fun n => [n]) Out_grpc (Labels (Some 14) None) = (bs "UNAVAILABLE", []).
Proof. split; reflexivity. Qed.

(** ** C119 *)

(** The layers of the proxy's stacks are of different kinds. *)
Lemma stacks : NoDup route_stack /\ NoDup backend_stack /\ NoDup inbound_stack.
Proof. repeat split; repeat constructor; cbn; intuition discriminate. Qed.

(** In any history, a counter of statuses says how many streams have ended with its labels: each once, as it ended
    first. *)
Theorem C119_statuses : forall stack export, NoDup stack -> In L_status stack -> forall es st key,
  run stack export init es = Some st ->
  how_many (fun id => counted export es id key) (value key_eqb key (m_statuses (t_metrics st))).
Proof. exact (fun stack export D L es st key H => statuses_ok stack export D es st key H L). Qed.
Print Assumptions C119_statuses.

(** The duration of each stream that has ended is observed once, from the call to the end; *)
Theorem C119_request_seconds : forall stack export, NoDup stack -> In L_request_duration stack -> forall es st,
  run stack export init es = Some st ->
  one_each (fun id => first (ends id) 0 es <> None) (took export es) (m_request_seconds (t_metrics st)).
Proof. exact (fun stack export D L es st H => requests_ok stack export D es st H L). Qed.
Print Assumptions C119_request_seconds.
(** and that of each response once, from when the request was flushed, or nothing if it was not. *)
Theorem C119_response_seconds : forall stack export, NoDup stack -> In L_response_duration stack -> forall es st,
  run stack export init es = Some st ->
  one_each (fun id => first (ends id) 0 es <> None) (answered_in export es) (m_response_seconds (t_metrics st)).
Proof. exact (fun stack export D L es st H => responses_ok stack export D es st H L). Qed.
Print Assumptions C119_response_seconds.

(** A counter of requests says how many were made with its labels. *)
Theorem C119_requests : forall stack export, NoDup stack -> forall es st key,
  run stack export init es = Some st ->
  how_many (fun id => labels_of export es id key) (value parent_eqb key (m_requests (t_metrics st))).
Proof. exact calls_counted. Qed.
Print Assumptions C119_requests.

(** The size of each frame of data is observed, of requests and of responses. *)
Theorem C119_frames : forall stack export, NoDup stack -> forall es st,
  run stack export init es = Some st ->
  Forall2 (fun x o => snd o = snd x /\ labels_of export es (fst x) (fst o)) (sizes true es) (m_request_frames (t_metrics st)) /\
  Forall2 (fun x o => snd o = snd x /\ labels_of export es (fst x) (fst o)) (sizes false es) (m_response_frames (t_metrics st)).
Proof. exact frames_ok. Qed.
Print Assumptions C119_frames.

(** A body with these layers says that it is at its end exactly if it is. *)
Theorem C119_end : forall stack export, NoDup stack -> forall es st id s b, stack <> [] ->
  run stack export init es = Some st -> nth_error (t_streams st) id = Some s ->
  reports_end s = Some b -> (b = true <-> first (ends id) 0 es <> None).
Proof. exact reports_ok. Qed.
Print Assumptions C119_end.

(** A case: the first stream's response ends with trailers, after its request; the second's is dropped; the third fails. *)
Definition demo : list event :=
  [Called 7 Out_grpc (Some (bs "web.ns"%string)); Passed 5; Called 8 Out_http None; Sent 0 (Data 10) true; Passed 2;
   Responded 0 200 [] false; Responded 1 503 [] false; Called 8 Out_http None; Polled 0 (Data 20) false; Passed 1;
   Polled 0 (Trailers [(bs "grpc-status"%string, bs "0"%string)]) true; Dropped 0; Polled 1 (Data 3) false; Dropped 1;
   Refused_with 2 [C_other; C_deadline]].
Example C119_case : exists st, run inbound_stack true init demo = Some st /\
  m_statuses (t_metrics st) =
    [((((7, Some (bs "web.ns")), Out_grpc), Labels (Some 0) None), 1);
     ((((8, None), Out_http), Labels (Some 503) (Some Unknown)), 1);
     ((((8, None), Out_http), Labels None (Some RequestTimeout)), 1)] /\
  map snd (m_request_seconds (t_metrics st)) = [8; 3; 1] /\ map snd (m_response_seconds (t_metrics st)) = [3; 0; 0] /\
  map snd (m_requests (t_metrics st)) = [1; 2] /\ map snd (m_response_frames (t_metrics st)) = [20; 3].
Proof. eexists. split; [vm_compute; reflexivity|]. repeat split; vm_compute; reflexivity. Qed.

(** A request that its client abandons before there is a response is counted, but not its outcome. *)
Theorem C119_abandoned_refuted : ~ forall stack export es st, NoDup stack -> In L_status stack ->
  run stack export init es = Some st ->
  (forall s, In s (t_streams st) -> s_response s = Gone) ->
  fold_right N.add 0 (map snd (m_requests (t_metrics st))) = fold_right N.add 0 (map snd (m_statuses (t_metrics st))).
Proof.
  intros H. specialize (H inbound_stack false [Called 1 In_http None; Abandoned 0] _ (proj2 (proj2 stacks)) (or_introl eq_refl) eq_refl).
  discriminate H. intros s [<-|[]]. reflexivity.
Qed.
Print Assumptions C119_abandoned_refuted.
