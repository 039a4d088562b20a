(** C28, C51 *)
From Coq Require Import String List NArith Bool.
From Verif Require Import Bytes NameModel AuthzModel AuthzSpec AuthzProofs.
Import ListNotations.
Open Scope N_scope.

(** A client is let in exactly when some authorization covers its address and its
    authentication requirement is met, *)
Theorem C28_authorized : forall l client t, (forall a, In a l -> authz_wf a) -> ip_wf client ->
  (exists a, find_authz l client t = Some a) <-> authorized l client t.
Proof. exact find_authz_iff. Qed.
Print Assumptions C28_authorized.

(** and it is the first such authorization that is reported. *)
Theorem C28_first : forall l client t a, (forall a, In a l -> authz_wf a) -> ip_wf client ->
  find_authz l client t = Some a <->
  exists before after, l = before ++ a :: after /\ ~ authorized before client t /\ authorized [a] client t.
Proof. exact find_authz_first. Qed.
Print Assumptions C28_first.

(** A list of networks, as used in other parts of the proxy, matches the addresses of
    each of them. *)
Theorem C28_ip_match : forall nets i, (forall n, In n nets -> net_wf n) -> ip_wf i ->
  ip_match nets i = true <-> exists n, In n nets /\ in_net n i.
Proof. exact ip_match_iff. Qed.
Print Assumptions C28_ip_match.

(** A suffix of several labels matches the names that end with them, after a dot; with no
    labels, every name. *)
Theorem C28_suffix : forall parts name, suffix_contains (suffix_of_parts parts) name = true <->
  exists before, name = before ++ concat (map (cons 46) parts).
Proof. exact suffix_parts. Qed.
Print Assumptions C28_suffix.

(** IPv4 clients of a dual-stack listener, and no others, are looked up as IPv4. *)
Theorem C28_mapped : forall n v, ipv4_mapped (V6 n) = V4 v <-> v < 2 ^ 32 /\ n = mapped v.
Proof. exact ipv4_mapped_v6. Qed.
Print Assumptions C28_mapped.

(** The claim that listing an identity lets its holder in is wrong when it is listed with
    a capital letter: the client's name is in lower case. *)
Theorem C28_listed_refuted : exists listed i, id_from_str (fun _ => None) listed = Some i /\
  find_authz [Authorization [Net (Net4 0 0) []] (Tls_authenticated [listed] [])] (V4 1) (Established (Some i)) = None.
Proof. exists (bs "Web.example"), (Dns (bs "web.example")). vm_compute. split; reflexivity. Qed.
Print Assumptions C28_listed_refuted.

(** With a discovered policy 127.0.0.1 and ::1 are authorized whatever else it says, *)
Theorem C51_localhost : forall l authzs t, server_authorizations l = Some authzs ->
  authorized authzs (V4 (127 * 2 ^ 24 + 1)) t /\ authorized authzs (V6 1) t.
Proof. exact localhost_authorized. Qed.
Print Assumptions C51_localhost.

(** and any other client exactly by the authorizations that were received. *)
Theorem C51_exactly : forall l authzs client t, server_authorizations l = Some authzs -> ip_wf client ->
  (authorized authzs client t <->
   client = V4 (127 * 2 ^ 24 + 1) \/ client = V6 1 \/ exists a, In a l /\ allows a client t).
Proof. exact localhost_exactly. Qed.
Print Assumptions C51_exactly.

(** 10.0.0.0/8 without 10.1.0.0/16, for web.ns and the names under .mesh *)
Example C28_example :
  let a := Authorization [Net (Net4 (10 * 2 ^ 24) 8) [Net4 (10 * 2 ^ 24 + 2 ^ 16) 16]]
    (Tls_authenticated [bs "web.ns"] [suffix_of_parts [bs "mesh"]]) in
  authz_wf a /\
  (forall i, In i [Dns (bs "web.ns"); Dns (bs "a.mesh"); Uri (bs "web.ns")] ->
     find_authz [a] (V4 (10 * 2 ^ 24 + 2 ^ 17)) (Established (Some i)) = Some a) /\
  (forall t, In t [Established None; Passthru; No_tls; Established (Some (Uri (bs "a.mesh"))); Established (Some (Dns (bs "amesh")))] ->
     find_authz [a] (V4 (10 * 2 ^ 24 + 2 ^ 17)) t = None) /\
  find_authz [a] (V4 (10 * 2 ^ 24 + 2 ^ 16 + 5)) (Established (Some (Dns (bs "web.ns")))) = None /\
  find_authz [a] (V4 (11 * 2 ^ 24)) (Established (Some (Dns (bs "web.ns")))) = None.
Proof.
  cbv zeta. split.
  { intros n [<-|[]]. split; [vm_compute; split; [reflexivity|discriminate]|].
    intros e [<-|[]]. vm_compute. split; [reflexivity|discriminate]. }
  repeat split; cbn [In]; intros; repeat match goal with H : _ \/ _ |- _ => destruct H as [<-|H] | H : False |- _ => destruct H end;
    vm_compute; reflexivity.
Qed.
Example C51_example : exists authzs,
  server_authorizations [ApiAuthz [ApiNet (Some (Net4 (10 * 2 ^ 24) 8)) []] (Some P_unauthenticated)] = Some authzs /\
  find_authz authzs (V4 (10 * 2 ^ 24 + 7)) No_tls <> None /\ find_authz authzs (V4 (127 * 2 ^ 24 + 2)) No_tls = None /\
  find_authz authzs (V6 1) No_tls = Some localhost.
Proof. eexists. split; [reflexivity|]. vm_compute. repeat split; discriminate. Qed.
