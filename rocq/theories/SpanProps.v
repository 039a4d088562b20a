(** C142: what a span says of a request, and when there is one. *)
From Coq Require Import String List NArith.
From Verif Require Import Bytes FilterModel FilterSpec TraceModel TraceSpec ExportModel SpanModel SpanSpec SpanProofs.
Import ListNotations.
Open Scope N_scope.

(** The labels of a request are those the specification has, and each is there once. *)
Theorem C142_labels :
  forall parse_uri lossy q n v, (forall w u, parse_uri w = Some u -> well_formed u) -> proper q ->
    (In (n, v) (request_labels parse_uri lossy q) <-> says parse_uri lossy q n v).
Proof. exact labels_iff. Qed.
Print Assumptions C142_labels.

Theorem C142_distinct :
  forall parse_uri lossy q, NoDup (map fst (request_labels parse_uri lossy q)).
Proof. exact labels_nodup. Qed.
Print Assumptions C142_distinct.

(** The credentials of a URL do not show: requests that differ in nothing else have the same labels. *)
Theorem C142_credentials :
  forall parse_uri lossy m u u' hs, uris_alike u u' ->
    request_labels parse_uri lossy (Request m u hs) = request_labels parse_uri lossy (Request m u' hs).
Proof. exact redacts. Qed.
Print Assumptions C142_credentials.

(** Nor do those of a host header. *)
Theorem C142_host_credentials :
  forall parse_uri lossy m u hs hs', hosts_alike parse_uri hs hs' ->
    (forall name label v, In (name, label) copied -> (first_value name hs v <-> first_value name hs' v)) ->
    request_labels parse_uri lossy (Request m u hs) = request_labels parse_uri lossy (Request m u hs').
Proof. exact redacts_host. Qed.
Print Assumptions C142_host_credentials.

(** No header shows but the six named here: not [authorization], not [cookie]. *)
Theorem C142_other_headers :
  forall parse_uri lossy m u hs hs',
    (forall name v, In name [bs "x-forwarded-host"; bs "host"; bs "user-agent"; bs "content-length";
                             bs "content-type"; bs "l5d-orig-proto"] ->
       (first_value name hs v <-> first_value name hs' v)) ->
    request_labels parse_uri lossy (Request m u hs) = request_labels parse_uri lossy (Request m u hs').
Proof. exact ignores. Qed.
Print Assumptions C142_other_headers.

(** In any history, the spans on the channel and those the exporter took are each the record of a
    request that was answered, and no two are of one request. *)
Theorem C142_spans :
  forall parse_uri lossy enabled k shared, (forall w u, parse_uri w = Some u -> well_formed u) ->
  forall es, proper_history es ->
    let st := run parse_uri lossy enabled k shared es in
    exists ids, NoDup ids /\
      Forall2 (span_of parse_uri lossy enabled k shared es) ids (st_taken st ++ st_channel st).
Proof. exact once. Qed.
Print Assumptions C142_spans.

(** A sampled request that is answered while there is room is recorded. *)
Theorem C142_sent :
  forall parse_uri lossy enabled k shared, (forall w u, parse_uri w = Some u -> well_formed u) ->
  forall es i q id t status t', proper_history es -> in_flight es i q id t -> sampled enabled q ->
    ~ In Closes es ->
    (List.length (st_channel (run parse_uri lossy enabled k shared es)) < 100)%nat ->
    exists s, st_channel (run parse_uri lossy enabled k shared (es ++ [Answered i status t'])) =
              st_channel (run parse_uri lossy enabled k shared es) ++ [s] /\
      records parse_uri lossy enabled k shared q id t status t' s.
Proof. exact sent. Qed.
Print Assumptions C142_sent.

(** Otherwise nothing is sent and nothing is lost of what was. *)
Theorem C142_not_sent :
  forall parse_uri lossy enabled k shared es i q id t status t', in_flight es i q id t ->
    ~ sampled enabled q \/ In Closes es \/
      (100 <= List.length (st_channel (run parse_uri lossy enabled k shared es)))%nat ->
    st_channel (run parse_uri lossy enabled k shared (es ++ [Answered i status t'])) =
      st_channel (run parse_uri lossy enabled k shared es) /\
    st_taken (run parse_uri lossy enabled k shared (es ++ [Answered i status t'])) =
      st_taken (run parse_uri lossy enabled k shared es).
Proof. exact lost. Qed.
Print Assumptions C142_not_sent.

Theorem C142_bounded :
  forall parse_uri lossy enabled k shared es,
    (List.length (st_channel (run parse_uri lossy enabled k shared es)) <= 100)%nat.
Proof. exact bounded. Qed.
Print Assumptions C142_bounded.

(** A secret in the query does show, in two labels. *)
Theorem C142_query_refuted :
  exists u secret, u_query u = Some secret /\ forall parse_uri lossy m hs,
    In (bs "url.query", secret) (request_labels parse_uri lossy (Request m u hs)) /\
    exists v, In (bs "url.full", v ++ secret) (request_labels parse_uri lossy (Request m u hs)).
Proof.
  exists (Uri (Some (bs "http")) (Some (bs "web")) (bs "/") (Some (bs "token=s3cr3t"))), (bs "token=s3cr3t").
  split; [reflexivity|]. intros parse_uri lossy m hs. rewrite labels_eq. split.
  - rewrite In_opts. do 3 right. now left.
  - exists (bs "http://web/?"). rewrite In_opts. do 4 right. left. vm_compute. reflexivity.
Qed.
Print Assumptions C142_query_refuted.

(** A request that names its server in the URI only, as HTTP/2 has it, has no address label. *)
Theorem C142_address_refuted :
  exists u a, u_authority u = Some a /\ authority_text a /\ forall parse_uri lossy m v,
    ~ In (bs "server.address", v) (request_labels parse_uri lossy (Request m u [])).
Proof.
  exists (Uri (Some (bs "http")) (Some (bs "web")) (bs "/") None), (bs "web"). split; [reflexivity|].
  split.
  - exists None, (bs "web"), None. split; [|now split]. right. vm_compute. intuition discriminate.
  - intros parse_uri lossy m v. rewrite labels_eq, In_opts. vm_compute. intuition discriminate.
Qed.
Print Assumptions C142_address_refuted.

(** ** A case *)
Definition auth (v : bytes) : option uri :=
  if beq v (bs "bob:pw@web.ns:8080") then Some (Uri None (Some v) [] None) else None.
Definition get : request :=
  Request (bs "GET") (Uri (Some (bs "http")) (Some (bs "me:80@[::1]:8080")) (bs "/x") (Some (bs "a=1")))
    [ (bs "traceparent", bs "00-4bf92f3577b34da6a3ce929d0e0e4736-00f067aa0ba902b7-01");
      (bs "host", bs "bob:pw@web.ns:8080"); (bs "authorization", bs "Bearer t"); (bs "user-agent", bs "curl") ].
Example C142_ex_get :
  request_labels auth (fun v => v) get =
  [ (bs "http.request.method", bs "GET"); (bs "url.scheme", bs "http"); (bs "url.path", bs "/x");
    (bs "url.query", bs "a=1"); (bs "url.full", bs "http://REDACTED:REDACTED@[::1]:8080/x?a=1");
    (bs "network.transport", bs "tcp"); (bs "server.address", bs "web.ns"); (bs "server.port", bs "8080");
    (bs "user_agent.original", bs "curl") ].
Proof. vm_compute. reflexivity. Qed.
Example C142_ex_well_formed : proper get /\ forall w u, auth w = Some u -> well_formed u.
Proof.
  split.
  - intros a E. injection E as <-. exists (Some (bs "me:80")), (bs "[::1]"), (Some (bs "8080")).
    split; [|split; [|reflexivity]].
    + left. exists (bs "::1"). split; [reflexivity|]. vm_compute. intuition discriminate.
    + intros t E. injection E as <-. vm_compute. intuition discriminate.
  - unfold auth. intros w u. destruct (beq w (bs "bob:pw@web.ns:8080")) eqn:B; [|discriminate].
    intros E. injection E as <-. intros a E. cbn in E. injection E as <-.
    apply BytesProofs.beq_eq in B. subst w. exists (Some (bs "bob:pw")), (bs "web.ns"), (Some (bs "8080")).
    split; [|split; [|reflexivity]].
    + right. vm_compute. intuition discriminate.
    + intros t E. injection E as <-. vm_compute. intuition discriminate.
Qed.
(** Credentials of one part and of two. *)
Example C142_ex_alike :
  uris_alike (q_uri get) (Uri (Some (bs "http")) (Some (bs "you:@[::1]:8080")) (bs "/x") (Some (bs "a=1"))) /\
  ~ two_parts (bs "token") /\ two_parts (bs "me:80").
Proof.
  split; [|split].
  - split; [reflexivity|]. split; [reflexivity|]. split; [reflexivity|]. right.
    exists (bs "me:80@[::1]:8080"), (bs "you:@[::1]:8080"). split; [reflexivity|]. split; [reflexivity|].
    assert (H : host_text (bs "[::1]")).
    { left. exists (bs "::1"). split; [reflexivity|]. vm_compute. intuition discriminate. }
    assert (P : forall t, Some (bs "8080") = Some t -> ~ In 58 t /\ ~ In 64 t).
    { intros t E. injection E as <-. vm_compute. intuition discriminate. }
    exists (bs "me:80"), (bs "you:"), (bs "[::1]"), (Some (bs "8080")).
    split; [now split|]. split; [now split|].
    split; intros _; [exists (bs "you"), []|exists (bs "me"), (bs "80")]; (split; [reflexivity|]);
      vm_compute; intuition discriminate.
  - intros (x & y & E & _). assert (F : In 58 (bs "token")) by (rewrite E; apply in_elt).
    revert F. vm_compute. intuition discriminate.
  - exists (bs "me"), (bs "80"). split; [reflexivity|]. vm_compute. intuition discriminate.
Qed.
(** Two sampled requests: the first fails, the second is answered. *)
Definition ident : bytes := [1; 2; 3; 4; 5; 6; 7; 8].
Definition story : list event := [Arrives get ident 10; Arrives get ident 20; Fails 0].
Example C142_ex_story :
  in_flight story 1 get ident 20 /\ sampled true get /\
  map (fun s => (r_start s, r_end s, r_name s, List.length (r_labels s)))
    (st_channel (run auth (fun v => v) true Server [] (story ++ [Answered 1 200 30]))) =
  [(20, 30, bs "/x", 10%nat)].
Proof.
  split; [|split].
  - exists [Arrives get ident 10], [Fails 0]. split; [reflexivity|]. split; [reflexivity|].
    split; [|intros s n]; intros [E|[]]; discriminate.
  - split; [reflexivity|]. eexists. split; vm_compute; reflexivity.
  - vm_compute. reflexivity.
Qed.
(** A request that fails has no span: not every sampled request has one. *)
Theorem C142_failed_refuted :
  ~ (forall es i q id t, in_flight es i q id t -> sampled true q ->
       let st := run auth (fun v => v) true Server [] (es ++ [Fails i]) in
       exists s t' status, In s (st_taken st ++ st_channel st) /\
         records auth (fun v => v) true Server [] q id t status t' s).
Proof.
  intros F. destruct (F [Arrives get ident 10] 0%nat get ident 10) as (s & t' & status & H & _).
  - exists [], []. split; [reflexivity|]. split; [reflexivity|]. now split.
  - split; [reflexivity|]. eexists. split; vm_compute; reflexivity.
  - vm_compute in H. destruct H.
Qed.
Print Assumptions C142_failed_refuted.
