(** C60, C61 and C62 *)
From Coq Require Import String List NArith Bool.
From Verif Require Import Bytes RetrySpec HintSpec FilterModel TraceModel Http1Model Http1Spec Http1Proofs.
Import ListNotations.
Open Scope N_scope.

(** ** C60 *)

(** A request of HTTP/1 that one proxy sends to another over HTTP/2 is, once there, what it was:
    its method, version, URI and form, and its headers but two. *)
Theorem C60_round_trip : forall r, http1 (q_version r) -> q_upgrade r = false ->
  exists sent, orig_proto_upgrade r = Over_h2 sent (q_version r) /\ q_version sent = Http_2 /\
    exists r', downgrade (over_wire sent) = (r', true) /\
      q_method r' = q_method r /\ q_version r' = q_version r /\ q_uri r' = q_uri r /\
      q_headers r' = without [bs "l5d-orig-proto"; bs "transfer-encoding"] (q_headers r) /\
      q_absolute r' = q_absolute r /\ q_was_upgrade r' = true /\ q_upgrade r' = false.
Proof. exact over_h2. Qed.
Print Assumptions C60_round_trip.

(** So is its response. *)
Theorem C60_response : forall v rsp, http1 v -> http1 (r_version rsp) ->
  let rsp' := orig_proto_upgrade_response v (downgrade_response true rsp) in
  r_version (downgrade_response true rsp) = Http_2 /\
  r_status rsp' = r_status rsp /\ r_version rsp' = r_version rsp /\
  r_headers rsp' = without [bs "l5d-orig-proto"; bs "transfer-encoding"] (r_headers rsp).
Proof. exact over_h2_response. Qed.
Print Assumptions C60_response.

(** From the client of the one proxy to the server behind the other *)
Theorem C60_end_to_end : forall parse d d' r r1 r2,
  fresh r -> uri_ok (q_uri r) -> http1 (q_version r) -> ~ asks_upgrade r ->
  upgrade_call r = Passed r1 ->
  normalize_uri parse d (mark_absolute_form r1) = Normalized r2 ->
  exists sent, orig_proto_upgrade r2 = Over_h2 sent (q_version r) /\
  exists r3, downgrade (mark_absolute_form (over_wire sent)) = (r3, true) /\
    normalize_uri parse d' r3 = Normalized r3 /\
    q_method r3 = q_method r /\ q_version r3 = q_version r /\ q_uri r3 = q_uri r2 /\
    u_path (q_uri r3) = u_path (q_uri r) /\ u_query (q_uri r3) = u_query (q_uri r) /\ u_auth (q_uri r3) <> None /\
    (u_auth (q_uri r) <> None -> q_uri r3 = q_uri r) /\
    (q_absolute r3 = true <-> u_scheme (q_uri r) <> None) /\
    exists f, q_headers r3 = filter f (q_headers r) /\
      forall h, f h = true <-> ~ hop_by_hop (q_headers r) (fst h) /\ fst h <> bs "l5d-orig-proto" /\ fst h <> bs "transfer-encoding".
Proof. exact both_proxies. Qed.
Print Assumptions C60_end_to_end.

(** A request is sent by a client that is configured for its form, and the client is kept for the
    next request unless the request is of HTTP/1.0 or says no host. *)
Theorem C60_form : forall s r,
  c_absolute (snd (h1_call s r)) = q_absolute r /\
  (c_pooled (snd (h1_call s r)) = true <-> q_version r <> Http_10 /\ exists v, first_of (bs "host") (q_headers r) v /\ v <> []) /\
  (c_pooled (snd (h1_call s r)) = true -> (if q_absolute r then absolute_form else origin_form) (fst (h1_call s r)) = true).
Proof. exact h1_call_spec. Qed.
Print Assumptions C60_form.

(** Any client of HTTP/2 can have its request become one of HTTP/1, whose header is then lost. *)
Theorem C60_claimed_refuted : ~ forall r, fresh r -> q_version r = Http_2 -> q_version (fst (downgrade r)) = Http_2.
Proof.
  intros H.
  specialize (H (Request (bs "GET") Http_2 (Uri (Some HTTP) (Some (Authority (bs "a") None)) (bs "/") None) [(bs "l5d-orig-proto", bs "HTTP/1.0")] false false false)
    (conj eq_refl (conj eq_refl eq_refl)) eq_refl).
  vm_compute in H. discriminate H.
Qed.
Print Assumptions C60_claimed_refuted.

(** A request that is retried is not sent in its form. *)
Theorem C60_retried_refuted :
  ~ forall s r, c_absolute (snd (h1_call s (retry_copy r))) = c_absolute (snd (h1_call s r)).
Proof.
  intros H. specialize (H h1_new (Request (bs "GET") Http_11 (Uri (Some HTTP) (Some (Authority (bs "a") None)) (bs "/") None) [(bs "host", bs "a")] true false false)).
  vm_compute in H. discriminate H.
Qed.
Print Assumptions C60_retried_refuted.

(** A request in absolute form, with headers of the connection *)
Definition a_request : request :=
  Request (bs "GET") Http_11 (Uri (Some HTTP) (Some (Authority (bs "web") (Some 80))) (bs "/x") (Some (bs "q=1")))
    [(bs "host", bs "web:80"); (bs "connection", bs "close, X-Hop"); (bs "x-hop", bs "1"); (bs "transfer-encoding", bs "chunked"); (bs "x-app", bs "2")]
    false false false.
Example C60_case : fresh a_request /\ uri_ok (q_uri a_request) /\ http1 (q_version a_request) /\ ~ asks_upgrade a_request.
Proof.
  split; [repeat split|]. split; [left; split; discriminate|]. split; [right; reflexivity|].
  intros H. apply wants_iff in H. vm_compute in H. discriminate H.
Qed.
Example C60_case_sent :
  match upgrade_call a_request with
  | Passed r1 =>
      match normalize_uri (fun _ => None) None (mark_absolute_form r1) with
      | Normalized r2 =>
          match orig_proto_upgrade r2 with
          | Over_h2 sent _ => Some (q_headers sent, fst (downgrade (over_wire sent)))
          | _ => None
          end
      | _ => None
      end
  | _ => None
  end
  = Some ([(bs "host", bs "web:80"); (bs "x-app", bs "2"); (bs "l5d-orig-proto", bs "HTTP/1.1; absolute-form")],
          Request (bs "GET") Http_11 (q_uri a_request) [(bs "host", bs "web:80"); (bs "x-app", bs "2")] true false true).
Proof. vm_compute. reflexivity. Qed.

(** ** C61 *)

(** Headers of the connection do not go on, and all others do, in their order. *)
Theorem C61_stripped : forall hs,
  exists f, strip_connection_headers hs = filter f hs /\ forall h, f h = true <-> ~ hop_by_hop hs (fst h).
Proof. exact stripped. Qed.
Print Assumptions C61_stripped.

(** What the proxy's server does with a request: ill-formed ones are answered, those that ask for
    another protocol go on as they are, and others go on without the headers of the connection. *)
Theorem C61_request : forall r, uri_ok (q_uri r) -> q_upgrade r = false ->
  ((exists rsp, upgrade_call r = Answered rsp) <-> ill_formed r) /\
  (forall rsp, upgrade_call r = Answered rsp -> r_status rsp = 400) /\
  (forall r', upgrade_call r = Passed r' ->
     q_method r' = q_method r /\ q_version r' = q_version r /\ q_uri r' = q_uri r /\
     q_absolute r' = q_absolute r /\ q_was_upgrade r' = q_was_upgrade r /\
     (q_upgrade r' = true <-> asks_upgrade r) /\
     (asks_upgrade r -> q_headers r' = q_headers r) /\
     (~ asks_upgrade r -> exists f, q_headers r' = filter f (q_headers r) /\ forall h, f h = true <-> ~ hop_by_hop (q_headers r) (fst h))).
Proof. exact upgrade_call_spec. Qed.
Print Assumptions C61_request.

(** What the proxy's client does with a response: the tunnel's other end is given exactly when the
    request asked and the response switches. *)
Theorem C61_response : forall c u rsp, let rsp' := fst (h1_response c u rsp) in
  r_status rsp' = r_status rsp /\ r_version rsp' = r_version rsp /\
  (snd (h1_response c u rsp) = true <-> u = true /\ switches c rsp) /\
  exists hs, tunnel_headers c rsp hs /\
  (switches c rsp -> r_headers rsp' = hs) /\
  (~ switches c rsp -> exists f, r_headers rsp' = filter f hs /\ forall h, f h = true <-> ~ hop_by_hop hs (fst h)).
Proof. exact h1_response_spec. Qed.
Print Assumptions C61_response.

(** Whatever the order of things, a request makes at most one tunnel, and it makes it exactly when
    its body has ended and the client has given its end before it let go of the request. *)
Theorem C61_tunnel : forall os,
  (tunnels (half_run os) <= 1)%nat /\
  (tunnels (half_run os) = 1%nat <->
   In Body_dropped os /\ exists pre post, os = pre ++ Client_insert :: post /\ ~ In Client_drop pre).
Proof. exact tunnel_once. Qed.
Print Assumptions C61_tunnel.
(** The body of the request succeeds once in becoming one half, and the client, or its being dropped, once in becoming
    the other; a clone of the extension never does. *)
Theorem C61_once : forall os o, snd (half_step (half_run os) o) = true <->
  o = Body_dropped /\ ~ In Body_dropped os \/
  (o = Client_insert \/ o = Client_drop) /\ ~ In Client_insert os /\ ~ In Client_drop os.
Proof. exact only_first. Qed.
Print Assumptions C61_once.

(** Headers that a second `connection` header lists go on. *)
Theorem C61_second_refuted : ~ forall hs v o,
  In (bs "connection", v) hs -> v = o -> ~ In o (map fst (strip_connection_headers hs)).
Proof.
  intros H. apply (H [(bs "connection", bs "close"); (bs "connection", bs "x-secret"); (bs "x-secret", bs "1")] (bs "x-secret") (bs "x-secret")).
  - right. left. reflexivity.
  - reflexivity.
  - vm_compute. left. reflexivity.
Qed.
Print Assumptions C61_second_refuted.
(** A CONNECT whose response is a success is not always a tunnel: an `upgrade` header of h2c loses
    it. *)
Theorem C61_connect_refuted : ~ forall r r' s, q_method r = bs "CONNECT" -> upgrade_call r = Passed r' ->
  switches true (Response s Http_11 []) -> snd (h1_response true (q_upgrade r') (Response s Http_11 [])) = true.
Proof.
  intros H. assert (snd (h1_response true false (Response 200 Http_11 [])) = true) as F; [|vm_compute in F; discriminate F].
  apply (H (Request (bs "CONNECT") Http_11 (Uri None (Some (Authority (bs "a") (Some 443))) [] None) [(bs "upgrade", bs "h2c")] false false false)
    (Request (bs "CONNECT") Http_11 (Uri None (Some (Authority (bs "a") (Some 443))) [] None) [] false false false) 200).
  - reflexivity.
  - vm_compute. reflexivity.
  - apply is_upgrade_iff. vm_compute. reflexivity.
Qed.
Print Assumptions C61_connect_refuted.
(** HTTP/2 is not always declined: names of protocols are compared with regard to case. *)
Theorem C61_h2c_refuted : ~ forall r v, first_of (bs "upgrade") (q_headers r) v -> eq_ignore_case v (bs "h2c") = true -> ~ asks_upgrade r.
Proof.
  intros H. apply (H (Request (bs "GET") Http_11 (Uri None None (bs "/") None) [(bs "upgrade", bs "H2C")] false false false) (bs "H2C")).
  - exists [], []. split; [reflexivity|intros []].
  - vm_compute. reflexivity.
  - apply wants_iff. vm_compute. reflexivity.
Qed.
Print Assumptions C61_h2c_refuted.
(** A request that is retried loses its tunnel. *)
Theorem C61_retried_refuted : ~ forall r rsp c,
  snd (h1_response c (q_upgrade (retry_copy r)) rsp) = snd (h1_response c (q_upgrade r) rsp).
Proof.
  intros H. specialize (H (Request (bs "GET") Http_11 (Uri None None (bs "/") None) [] false true false) (Response 101 Http_11 []) false).
  vm_compute in H. discriminate H.
Qed.
Print Assumptions C61_retried_refuted.

Definition a_websocket : request :=
  Request (bs "GET") Http_11 (Uri None None (bs "/chat") None) [(bs "host", bs "web"); (bs "connection", bs "upgrade"); (bs "upgrade", bs "websocket")] false false false.
Example C61_case : upgrade_call a_websocket = Passed (with_upgrade a_websocket true).
Proof. vm_compute. reflexivity. Qed.
Example C61_case_tunnel : tunnels (half_run [Client_insert; Clone_insert; Body_dropped; Client_drop]) = 1%nat /\ tunnels (half_run [Body_dropped; Client_drop; Client_insert]) = 0%nat.
Proof. split; vm_compute; reflexivity. Qed.
Example C61_case_hop : hop_by_hop (q_headers a_request) (bs "x-hop") /\ ~ hop_by_hop (q_headers a_request) (bs "x-app").
Proof.
  destruct (stripped (q_headers a_request)) as (f & E & I1). split.
  - right. exists (bs "close, X-Hop"), [bs "close"; bs " X-Hop"], (bs " X-Hop"), (bs "X-Hop").
    split; [exists [(bs "host", bs "web:80")], [(bs "x-hop", bs "1"); (bs "transfer-encoding", bs "chunked"); (bs "x-app", bs "2")]; split; [reflexivity|intros [H|[]]; discriminate H]|].
    split; [apply (to_str_printable _ (bs "close, X-Hop")); vm_compute; reflexivity|].
    split; [exact (RetryParseProofs.items_split (bs "close, X-Hop"))|]. split; [right; left; reflexivity|]. split; [apply HintProofs.trim_iff; vm_compute; reflexivity|vm_compute; reflexivity].
  - apply (I1 (bs "x-app", bs "2")). assert (In (bs "x-app", bs "2") (strip_connection_headers (q_headers a_request))) as J by (vm_compute; tauto).
    rewrite E in J. apply filter_In in J. apply J.
Qed.

(** ** C62 *)

(** Setting the authority of a URI never fails. *)
Theorem C62_set : forall u a, uri_ok u ->
  exists u', set_authority u a = Some u' /\ uri_ok u' /\ reauthorized u a u'.
Proof. exact set_authority_spec. Qed.
Print Assumptions C62_set.

(** The authority of an endpoint replaces that of the request and takes the headers that say
    another away; without it the request is as it was. *)
Theorem C62_override : forall over r, uri_ok (q_uri r) ->
  match over with
  | None => endpoint_override over r = Some r
  | Some a => exists u,
      endpoint_override over r = Some (with_uri (with_headers r (without [bs "host"; bs "l5d-dst-canonical"] (q_headers r))) u) /\
      uri_ok u /\ reauthorized (q_uri r) a u
  end.
Proof. exact (override_spec [bs "host"; bs "l5d-dst-canonical"]). Qed.
Print Assumptions C62_override.

(** A request is left alone that is not of HTTP/1, came in absolute form or has an authority. *)
Theorem C62_kept : forall parse default r,
  ~ http1 (q_version r) \/ q_absolute r = true \/ u_auth (q_uri r) <> None ->
  normalize_uri parse default r = Normalized r.
Proof. exact normalize_keeps. Qed.
Print Assumptions C62_kept.
(** Any other is given the authority of its `host` header, or else the default; it is refused
    exactly when there is neither. *)
Theorem C62_normalized : forall parse default r,
  http1 (q_version r) -> q_absolute r = false -> path_uri (q_uri r) ->
  (forall a, (host_authority parse (q_headers r) a \/ (~ (exists b, host_authority parse (q_headers r) b) /\ default = Some a)) ->
     exists u, normalize_uri parse default r = Normalized (with_uri r u) /\ reauthorized (q_uri r) a u /\ uri_ok u) /\
  (normalize_uri parse default r = No_authority <->
     ~ (exists b, host_authority parse (q_headers r) b) /\ default = None).
Proof. exact normalize_sets. Qed.
Print Assumptions C62_normalized.
(** So every request of HTTP/1 that is served has an authority, and its form is remembered. *)
Theorem C62_served : forall parse default r, fresh r -> uri_ok (q_uri r) -> http1 (q_version r) ->
  normalize_uri parse default (mark_absolute_form r) = No_authority \/
  exists r', normalize_uri parse default (mark_absolute_form r) = Normalized r' /\
    u_auth (q_uri r') <> None /\ uri_ok (q_uri r') /\
    q_method r' = q_method r /\ q_version r' = q_version r /\ q_headers r' = q_headers r /\ q_upgrade r' = q_upgrade r /\
    u_path (q_uri r') = u_path (q_uri r) /\ u_query (q_uri r') = u_query (q_uri r) /\
    (u_auth (q_uri r) <> None -> q_uri r' = q_uri r) /\
    (q_absolute r' = true <-> u_scheme (q_uri r) <> None).
Proof. exact served. Qed.
Print Assumptions C62_served.
(** An authority's override forgets that a request was to be https. *)
Theorem C62_scheme_refuted : ~ forall u a u', uri_ok u -> u_scheme u <> None -> set_authority u a = Some u' -> u_scheme u' = u_scheme u.
Proof.
  intros H. assert (Some HTTP = Some HTTPS) as F; [|vm_compute in F; discriminate F].
  apply (H (Uri (Some HTTPS) (Some (Authority (bs "a") None)) (bs "/") None) (Authority (bs "b") None) (Uri (Some HTTP) (Some (Authority (bs "b") None)) (bs "/") None)).
  - left. split; discriminate.
  - discriminate.
  - reflexivity.
Qed.
Print Assumptions C62_scheme_refuted.
(** A peer that claims absolute form over HTTP/2 without an authority has a request of HTTP/1
    served that has none. *)
Theorem C62_claimed_refuted : ~ forall parse default r r',
  fresh r -> uri_ok (q_uri r) -> q_version r = Http_2 ->
  normalize_uri parse default (fst (downgrade (mark_absolute_form r))) = Normalized r' ->
  http1 (q_version r') -> u_auth (q_uri r') <> None.
Proof.
  intros H.
  apply (H (fun _ => None) (Some (Authority (bs "d") None))
    (Request (bs "GET") Http_2 (Uri None None (bs "/") None) [(bs "l5d-orig-proto", bs "HTTP/1.1; absolute-form")] false false false)
    (Request (bs "GET") Http_11 (Uri None None (bs "/") None) [] true false true)).
  - repeat split.
  - right. right. split; reflexivity.
  - reflexivity.
  - vm_compute. reflexivity.
  - right. reflexivity.
  - reflexivity.
Qed.
Print Assumptions C62_claimed_refuted.

Example C62_case :
  path_uri (q_uri a_websocket) /\
  normalize_uri (fun s => Some (Authority s None)) None a_websocket = Normalized (with_uri a_websocket (Uri (Some HTTP) (Some (Authority (bs "web") None)) (bs "/chat") None)) /\
  host_authority (fun s => Some (Authority s None)) (q_headers a_websocket) (Authority (bs "web") None) /\
  normalize_uri (fun s => None) None a_websocket = No_authority.
Proof.
  split; [split; reflexivity|]. split; [vm_compute; reflexivity|]. split; [apply from_header_iff; vm_compute; reflexivity|vm_compute; reflexivity].
Qed.
