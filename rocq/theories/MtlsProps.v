(** The properties of mutual TLS: C100, C101, C102, C103. *)
From Coq Require Import String List Arith NArith ZArith Bool Lia.
From Verif Require Import Bytes NameModel NameSpec EndpointModel MtlsModel MtlsSpec MtlsProofs.
Import ListNotations.
Open Scope N_scope.

(** A library for the examples: certificate [1] is that of foo.ns; [2] that of an old name and foo.ns; [3] that of a
    workload of SPIRE; [4] that of others, with a name that cannot be read; [5] is not signed. *)
Definition ex_names (c : der) : option (option (list general_name)) :=
  match c with
  | [1] => Some (Some [San_dns (bs "Foo.ns"%string)])
  | [2] => Some (Some [San_dns (bs "old.ns"%string); San_dns (bs "foo.ns"%string)])
  | [3] => Some (Some [San_uri (bs "spiffe://t/w"%string)])
  | [4] => Some (Some [San_dns (bs "*.ns"%string); San_other; San_dns (bs "bar.ns"%string)])
  | [5] => Some (Some [San_dns (bs "foo.ns"%string)])
  | _ => None
  end.
Definition ex_trusted (c : der) (i : list der) (now : Z) : bool := negb (beq c [5]).
Definition ex_lib : lib :=
  Lib (fun _ => true) ex_names (fun _ => 4000000000%Z) (fun u => Some u) ex_trusted ex_trusted (fun c => negb (beq (cr_key c) [])).
Definition foo : id := Dns (bs "foo.ns"%string).
Definition bar : id := Dns (bs "bar.ns"%string).
Definition foo_cred : credential := Credential [1] [[9]] [7].
Definition foo_tls : client_tls := ClientTls foo (bs "foo.ns"%string) None.

(** C100. A proxy that is told a server's identity connects to it exactly if the server proves, with a certificate that
    the trust anchors have signed, that it has that identity; else the connection fails. *)
Theorem C100_client :
  forall L t p now c,
    client_connect L (Some t) p now = Some c <->
    c = Encrypted (p_alpn p) /\ exists leaf, proved (x_trusted_server L) p now leaf /\ certifies L leaf (t_id t).
Proof. exact client_iff. Qed.
Print Assumptions C100_client.

(** It never connects in plaintext, unless no identity was given. *)
Theorem C100_plaintext :
  forall L tls p now, client_connect L tls p now = Some Plaintext <-> tls = None.
Proof. exact plaintext_iff. Qed.
Print Assumptions C100_plaintext.

(** A server takes a client for an identity exactly if the client has asked for the server's own name and has proved,
    with a certificate that the trust anchors have signed, that it has the identity; that is the first name of the
    certificate that can be read. *)
Theorem C100_server :
  forall L name cfg sni scheme p now i,
    (exists t, server_accept L name cfg sni scheme p now = Some t /\ authenticated_as t = Some i) <->
    sni = Some name /\ cfg <> None /\ scheme = true /\
    exists leaf, proved (x_trusted_client L) p now leaf /\ certifies_first L leaf i.
Proof. exact server_iff. Qed.
Print Assumptions C100_server.

(** A handshake with the server's name fails exactly if the server has no certificate, if the client does not support the
    signature scheme, or if the client has sent a certificate that is not trusted or that is not its own. *)
Theorem C100_refuses :
  forall L name cfg scheme p now,
    server_accept L name cfg (Some name) scheme p now = None <->
    cfg = None \/ scheme = false \/ (p_chain p <> [] /\ ~ exists leaf, proved (x_trusted_client L) p now leaf).
Proof. exact server_refuses. Qed.
Print Assumptions C100_refuses.

(** TLS is terminated for the server's own name only; other connections go on as they are. *)
Theorem C100_routes :
  forall L name cfg sni scheme p now,
    (server_accept L name cfg sni scheme p now = Some None <-> sni = None) /\
    (forall n, server_accept L name cfg sni scheme p now = Some (Some (Passthru n)) <-> sni = Some n /\ n <> name) /\
    (forall i alpn, server_accept L name cfg sni scheme p now = Some (Some (Established i alpn)) ->
       sni = Some name /\ alpn = p_alpn p).
Proof. exact server_routes. Qed.
Print Assumptions C100_routes.

(** Two proxies with certificates know each other. *)
Theorem C100_peers :
  forall L client_cred server_cred client_id server_id name alpn alpn' tls now,
    t_id tls = server_id ->
    x_trusted_server L (cr_leaf server_cred) (cr_intermediates server_cred) now = true ->
    certifies L (cr_leaf server_cred) server_id ->
    x_trusted_client L (cr_leaf client_cred) (cr_intermediates client_cred) now = true ->
    certifies_first L (cr_leaf client_cred) client_id ->
    client_connect L (Some tls) (as_peer server_cred alpn) now = Some (Encrypted alpn) /\
    server_accept L name (Some server_cred) (Some name) true (as_peer client_cred alpn') now =
      Some (Some (Established (Some client_id) alpn')).
Proof. exact peers_ok. Qed.
Print Assumptions C100_peers.

(** Refuted: that a proxy is known to its peers by the identity that its own certificate was checked for.  The check takes
    any of the certificate's names, the peers only the first. *)
Theorem C100_own_identity_refuted :
  ~ forall L local c now name server_cred alpn,
      good L local c now -> x_trusted_client L (cr_leaf c) (cr_intermediates c) now = true ->
      server_accept L name (Some server_cred) (Some name) true (as_peer c alpn) now =
        Some (Some (Established (Some local) alpn)).
Proof.
  intros H. specialize (H ex_lib foo (Credential [2] [] [7]) 0%Z (bs "a") foo_cred None).
  assert (G : good ex_lib foo (Credential [2] [] [7]) 0%Z) by (apply accepts_iff; reflexivity).
  specialize (H G eq_refl). vm_compute in H. discriminate.
Qed.
Print Assumptions C100_own_identity_refuted.

Example C100_client_ex :
  client_connect ex_lib (Some foo_tls) (as_peer foo_cred (Some [1])) 5 = Some (Encrypted (Some [1])) /\
  client_connect ex_lib (Some foo_tls) (as_peer (Credential [2] [] [7]) None) 5 = Some (Encrypted None) /\
  client_connect ex_lib (Some foo_tls) (as_peer (Credential [4] [] [7]) None) 5 = None /\
  client_connect ex_lib (Some foo_tls) (as_peer (Credential [5] [] [7]) None) 5 = None /\
  client_connect ex_lib (Some foo_tls) (Peer [[1]] false None) 5 = None /\
  client_connect ex_lib (Some foo_tls) (Peer [] true None) 5 = None /\
  client_connect ex_lib None (Peer [] true None) 5 = Some Plaintext.
Proof. repeat split; reflexivity. Qed.
Example C100_server_ex :
  server_accept ex_lib (bs "a") (Some foo_cred) (Some (bs "a")) true (as_peer (Credential [4] [] [7]) None) 5 =
    Some (Some (Established (Some bar) None)) /\
  server_accept ex_lib (bs "a") (Some foo_cred) (Some (bs "a")) true (Peer [] false None) 5 = Some (Some (Established None None)) /\
  server_accept ex_lib (bs "a") (Some foo_cred) (Some (bs "b")) true (as_peer (Credential [4] [] [7]) None) 5 =
    Some (Some (Passthru (bs "b"))).
Proof. repeat split; reflexivity. Qed.

(** C101. The certificates in use have been given to the proxy, and were good then: signed by the trust anchors, for the
    proxy's identity, with their key. *)
Theorem C101_good :
  forall L local h s c,
    run L local h s -> st_client s = Some c \/ st_server s = Some c \/ st_alpn s = Some c ->
    exists now expiry, In (Set_certificate c now expiry) h /\ good L local c now.
Proof. exact in_use_good. Qed.
Print Assumptions C101_good.

(** One that is not good changes nothing but the count of errors. *)
Theorem C101_refused :
  forall L local s s' c now expiry,
    step L local (Set_certificate c now expiry) s = Some s' -> ~ good L local c now ->
    s' = Store (st_client s) (st_server s) (st_version s) (st_ready s) (st_refreshes s) (st_errors s + 1)
               (st_refresh_ts s) (st_expiry_ts s) [] (st_alpn s) (st_alpn_seen s) (st_alpn_copy s).
Proof. exact refused. Qed.
Print Assumptions C101_refused.

(** At any time, clients use the latest good certificate or, while it is published, that before it; servers that of the
    clients or that before it; once the call has returned, both use the latest; and so do the servers with protocols,
    once their task has run. *)
Theorem C101_latest :
  forall L local h s l n,
    run L local h s -> given L local h l n ->
    exists kc ks ka : nat,
      (ka <= ks <= kc)%nat /\ (kc <= ks + 1)%nat /\ (kc <= List.length l <= kc + 1)%nat /\
      st_client s = latest kc l /\ st_server s = latest ks l /\ st_alpn s = latest ka l /\
      (st_todo s = [] -> ks = List.length l /\ kc = List.length l) /\
      (st_alpn_copy s = false -> st_alpn_seen s = st_version s -> ka = ks).
Proof. exact versions. Qed.
Print Assumptions C101_latest.

(** The proxy is ready only when clients and servers have a certificate, and stays so; when the call has returned it is
    ready exactly if there has been a good certificate. *)
Theorem C101_ready :
  forall L local h s,
    run L local h s ->
    (st_ready s = true -> st_client s <> None /\ st_server s <> None) /\
    (forall o s', step L local o s = Some s' -> st_ready s = true -> st_ready s' = true) /\
    (forall l n, given L local h l n -> st_todo s = [] -> (st_ready s = true <-> l <> [])).
Proof.
  exact (fun L local h s Hr => conj (ready_set L local h s Hr) (conj (fun o s' => ready_stays L local o s s')
          (fun l n Hg => ready_after L local h s l n Hr Hg))).
Qed.
Print Assumptions C101_ready.

(** Until there is a certificate, every handshake with the proxy's name fails. *)
Theorem C101_before :
  forall L local h s l n name scheme p now,
    run L local h s -> given L local h l n -> l = [] ->
    server_accept L name (st_server s) (Some name) scheme p now = None /\
    server_accept L name (st_alpn s) (Some name) scheme p now = None.
Proof. exact no_certificate. Qed.
Print Assumptions C101_before.

(** The metrics count the certificates that were taken and refused, and have the expiry of the last. *)
Theorem C101_counted :
  forall L local h s l n,
    run L local h s -> given L local h l n ->
    st_errors s = n /\
    (st_todo s = [] -> st_refreshes s = N.of_nat (List.length l) /\
       forall l' c expiry, l = l' ++ [(c, expiry)] -> (0 <= expiry)%Z -> st_expiry_ts s = expiry).
Proof. exact counted. Qed.
Print Assumptions C101_counted.

(** Every history has its certificates. *)
Theorem C101_given : forall L local h, exists l n, given L local h l n.
Proof. exact given_exists. Qed.
Print Assumptions C101_given.

Fixpoint go (h : list op) (s : store) : option store :=
  match h with [] => Some s | o :: h => match step ex_lib foo o s with Some s => go h s | None => None end end.
Lemma go_run h h0 s s' : run ex_lib foo h0 s -> go h s = Some s' -> run ex_lib foo (h0 ++ h) s'.
Proof.
  revert h0 s. induction h as [|o h IH]; intros h0 s Hr H; cbn [go] in H.
  - injection H as <-. now rewrite app_nil_r.
  - destruct (step ex_lib foo o s) as [t|] eqn:E; [|discriminate].
    replace (h0 ++ o :: h) with ((h0 ++ [o]) ++ h) by now rewrite <- app_assoc. eapply IH; [|exact H]. econstructor; eauto.
Qed.
Definition ex_ops : list op :=
  [Set_certificate (Credential [5] [] [7]) 1 100; Set_certificate foo_cred 2 100; Publish 2; Publish 2; Alpn_changed; Publish 2;
   Publish 3; Set_certificate (Credential [2] [] [8]) 50 200; Publish 50; Alpn_copy].
Definition ex_state : store := match go ex_ops init_store with Some s => s | None => init_store end.
Example C101_ex :
  run ex_lib foo ex_ops ex_state /\ st_client ex_state = Some (Credential [2] [] [8]) /\ st_server ex_state = Some foo_cred /\
  st_alpn ex_state = Some foo_cred /\ st_ready ex_state = true /\ st_errors ex_state = 1 /\ st_refreshes ex_state = 1 /\
  st_expiry_ts ex_state = 100%Z.
Proof.
  split; [apply (go_run ex_ops [] init_store); [constructor|vm_compute; reflexivity]|]. repeat split; vm_compute; reflexivity.
Qed.

(** C102. A certificate is renewed at seven tenths of the time that it has left, but not earlier than the least delay and
    not later than the greatest; an expired one after the least delay. *)
Theorem C102_delay :
  forall min max expiry now d,
    refresh_in min max expiry now = Some d <->
    ((expiry < now)%Z /\ d = min) \/
    ((now <= expiry)%Z /\ (7 * (expiry - now) < 2 ^ 64 * 1000000000)%Z /\
     exists l, seven_tenths (expiry - now) l /\
       ((l < min /\ d = min) \/ (min <= l /\ max < l /\ d = max) \/ (min <= l <= max /\ d = l))).
Proof. exact refresh_iff. Qed.
Print Assumptions C102_delay.

(** The answers that renew the certificate are those with a certificate that is good and has not expired. *)
Theorem C102_renews :
  forall L local key y expiry,
    certify L local key (y_answer y) (y_now y) = Some expiry <-> renews L local key y expiry.
Proof. exact certify_iff. Qed.
Print Assumptions C102_renews.

(** Whatever the answers, the time of the next try is that for the certificate that was renewed last. *)
Theorem C102_kept :
  forall L local min max key d h e,
    renewals L min max local key d h e -> last_renewed L local key (d_expiry d) h (d_expiry e).
Proof. exact renewed. Qed.
Print Assumptions C102_kept.

(** After every try there is a next: not earlier than the least delay nor later than the greatest, at the least delay if
    the certificate has expired, and with three tenths of the time left if the least delay allows that. *)
Theorem C102_next :
  forall L local min max key d h y e,
    min <= max -> renewals L min max local key d (h ++ [y]) e ->
    (Z.of_N min <= d_next e - y_later y <= Z.of_N max)%Z /\
    ((d_expiry e < y_later y)%Z -> d_next e = (y_later y + Z.of_N min)%Z) /\
    ((y_later y < d_expiry e)%Z -> (10 * Z.of_N min <= 7 * (d_expiry e - y_later y))%Z ->
       (10 * d_next e <= 10 * d_expiry e - 3 * (d_expiry e - y_later y))%Z).
Proof. exact next_try. Qed.
Print Assumptions C102_next.

(** So if every request is answered in less than three tenths of the certificates' life, no certificate expires before it
    is replaced. *)
Theorem C102_always_valid :
  forall L local min max key slack life d h,
    min <= max -> (0 < life)%Z -> (10 * Z.of_N min <= 7 * life)%Z -> (10 * slack < 3 * life)%Z ->
    timely L min max local key slack life d h ->
    (d_next d + slack < d_expiry d)%Z ->
    Forall (fun ye => (y_later (fst ye) < snd ye)%Z) h.
Proof. exact always_valid. Qed.
Print Assumptions C102_always_valid.

(** Refuted: that a certificate is renewed before it expires.  One that has less than the least delay left is not. *)
Theorem C102_expires_refuted :
  ~ forall min max expiry now d, min <= max -> (now < expiry)%Z -> refresh_in min max expiry now = Some d ->
      (now + Z.of_N d < expiry)%Z.
Proof.
  intros H. specialize (H 10000000000 86400000000000 5000000000%Z 0%Z 10000000000). 
  assert (E : (0 + Z.of_N 10000000000 < 5000000000)%Z) by (apply H; [discriminate|reflexivity|reflexivity]). discriminate.
Qed.
Print Assumptions C102_expires_refuted.

(** Refuted: that there is a next try whatever the controller answers.  The delay is computed with an overflow for a
    certificate that is valid for more than about 83 billion years, and the renewal ends with a panic. *)
Theorem C102_panic_refuted :
  ~ forall L local min max key d y, exists e,
      attempt L min max local key (y_answer y) (y_now y) (y_later y) d = Some e.
Proof.
  intros H. destruct (H ex_lib foo 1 2 [7] (Daemon 0 0) (Try (Certified [1] [] (Some (9223372036854775807%Z, 0%Z))) 5 6)) as (e & E).
  vm_compute in E. discriminate.
Qed.
Print Assumptions C102_panic_refuted.
Theorem C102_panics :
  forall min max expiry now,
    refresh_in min max expiry now = None <-> (2 ^ 64 * 1000000000 <= 7 * (expiry - now))%Z.
Proof. exact refresh_panics. Qed.
Print Assumptions C102_panics.

Definition ex_try : try := Try (Certified [1] [[9]] (Some (90000%Z, 0%Z))) 1000000000 2000000000.
Example C102_renewals_ex :
  renewals ex_lib 10000000000 86400000000000 foo [7] (Daemon 0 0) [ex_try; Try Failed 70000000000000 70000000000000]
    (Daemon 90000000000000 84000000000000).
Proof. apply (Renewals_snoc _ _ _ _ _ _ [ex_try] _ (Daemon 90000000000000 63000600000000)); [|reflexivity].
  apply (Renewals_snoc _ _ _ _ _ _ [] ex_try (Daemon 0 0)); [constructor|reflexivity].
Qed.
Example C102_renews_ex : renews ex_lib foo [7] ex_try 90000000000000.
Proof. apply certify_iff. reflexivity. Qed.
Example C102_timely_ex :
  timely ex_lib 10000000000 86400000000000 foo [7] 10000000000 80000000000000 (Daemon 100000000000 0) [(ex_try, 100000000000%Z)] /\
  (d_next (Daemon 100000000000 0) + 10000000000 < d_expiry (Daemon 100000000000 0))%Z.
Proof.
  split; [|reflexivity]. eapply (Timely_cons _ _ _ _ _ _ _ (Daemon 100000000000 0) ex_try 90000000000000);
    [discriminate|split; discriminate|exact C102_renews_ex|discriminate|reflexivity|constructor].
Qed.

(** C103. What is set is that of the last SVID of the proxy's identity in an update that was received. *)
Theorem C103_source :
  forall L i u0 h s c expiry,
    spire_run L i u0 h s -> In (c, expiry) (sp_sets s) -> exists u, (In (Update u) h \/ u = u0) /\ sets L i u c expiry.
Proof. exact spire_source. Qed.
Print Assumptions C103_source.

(** When the latest update has been processed, what was set last is its SVID of the identity, if it has one. *)
Theorem C103_current :
  forall L i u0 h s c expiry,
    spire_run L i u0 h s -> sp_seen s = Some (sp_version s) -> sets L i (sp_watch s) c expiry ->
    exists rest, sp_sets s = (c, expiry) :: rest.
Proof. exact spire_current. Qed.
Print Assumptions C103_current.

(** An update that has not been processed can be; one without a usable SVID of the identity changes nothing. *)
Theorem C103_progress :
  forall L i s,
    (sp_seen s <> Some (sp_version s) ->
      exists s', spire_step L i Consume s = Some s' /\ sp_watch s' = sp_watch s /\ sp_seen s' = Some (sp_version s')) /\
    (forall s', spire_step L i Consume s = Some s' -> (forall c expiry, ~ sets L i (sp_watch s) c expiry) ->
       sp_sets s' = sp_sets s).
Proof. exact (fun L i s => conj (spire_progress L i s) (fun s' => spire_kept L i s s')). Qed.
Print Assumptions C103_progress.

(** An SVID of a message is read if it has a key, certificates and an identity; each by itself. *)
Theorem C103_read :
  forall L pbs s,
    In s (to_svids L pbs) <->
    exists pb, In pb pbs /\ to_svid L pb = Some s.
Proof. exact to_svids_in. Qed.
Print Assumptions C103_read.
Theorem C103_svid :
  forall L pb s,
    to_svid L pb = Some s <->
    pbs_key pb <> [] /\ exists v, x_url L (pbs_id pb) = Some v /\ sv_id s = Uri v /\
      pbs_certs pb = Some (sv_leaf s :: sv_intermediates s) /\ sv_key s = pbs_key pb.
Proof. exact to_svid_iff. Qed.
Print Assumptions C103_svid.
Theorem C103_each :
  forall L a b, to_svids L (a ++ b) = to_svids L a ++ to_svids L b.
Proof. exact to_svids_app. Qed.
Print Assumptions C103_each.

(** Refuted: that every update with an SVID of the identity is set.  One that is followed by another before it is
    processed is lost, also if the other has no such SVID. *)
Theorem C103_lost_refuted :
  ~ forall L i u0 h s u c expiry,
      spire_run L i u0 h s -> sp_seen s = Some (sp_version s) -> In (Update u) h -> sets L i u c expiry ->
      In (c, expiry) (sp_sets s).
Proof.
  intros H. pose (i := Uri (bs "spiffe://t/w")). pose (v := Svid i [3] [7] []).
  specialize (H ex_lib i [] [Update [v]; Update []; Consume] (Spire [] 2 (Some 2) []) [v] (Credential [3] [] [7]) (4000000000 * 1000000000)%Z).
  apply H.
  - apply (Spire_snoc _ _ _ [Update [v]; Update []] Consume (Spire [] 2 None [])); [|reflexivity].
    apply (Spire_snoc _ _ _ [Update [v]] (Update []) (Spire [v] 1 None [])); [|reflexivity].
    apply (Spire_snoc _ _ _ [] (Update [v]) (Spire [] 0 None [])); [constructor|reflexivity].
  - reflexivity.
  - now left.
  - apply process_iff. reflexivity.
Qed.
Print Assumptions C103_lost_refuted.

Example C103_ex :
  let i := Uri (bs "spiffe://t/w") in
  let v := Svid i [3] [7] [] in
  sets ex_lib i [v; Svid (Uri (bs "spiffe://t/x")) [4] [7] []] (Credential [3] [] [7]) (4000000000 * 1000000000) /\
  spire_run ex_lib i [v] [Consume] (Spire [v] 0 (Some 0) [(Credential [3] [] [7], (4000000000 * 1000000000)%Z)]).
Proof.
  split; [apply process_iff; reflexivity|].
  apply (Spire_snoc _ _ _ [] Consume (Spire [Svid (Uri (bs "spiffe://t/w")) [3] [7] []] 0 None [])); [constructor|reflexivity].
Qed.
