From Coq Require Import String List NArith QArith Bool Lia.
From Verif Require Import Bytes EndpointModel EndpointSpec SettingsModel SettingsSpec.
From Verif Require EnvModel.
Import ListNotations.
Open Scope N_scope.

Lemma start_iff c c' : start c = Some c' <-> c' = c /\ legal_frame (c_frame_size c).
Proof.
  unfold start, legal_frame. change (2 ^ 14) with 16384. change (2 ^ 24) with 16777216.
  destruct ((16384 <=? c_frame_size c) && (c_frame_size c <=? 16777215)) eqn:A.
  - apply andb_true_iff in A. rewrite !N.leb_le in A. split; [intros H; injection H as <-; split; [reflexivity|lia]|intros [-> _]; reflexivity].
  - apply andb_false_iff in A. rewrite !N.leb_gt in A. split; [discriminate|]. intros [_ H]. lia.
Qed.
Lemma buffer_iff n : (n <=? 4294967295) = true <-> legal_buffer n.
Proof. unfold legal_buffer. change (2 ^ 32) with 4294967296. rewrite N.leb_le. lia. Qed.
Lemma buffer_not n : (n <=? 4294967295) = false <-> ~ legal_buffer n.
Proof. rewrite <- buffer_iff. destruct (n <=? 4294967295); split; congruence. Qed.

Theorem endpoint_settings_spec d c m : c_frame_size d = 16384 ->
  (forall x, endpoint_settings d c m = Some x ->
     endpoint_connection d (EnvModel.cc_stream_window c) (EnvModel.cc_connection_window c) (m_http2 m) x) /\
  ((exists x, endpoint_settings d c m = Some x) <->
   (forall n, h_frame_size (m_http2 m) = Some n -> legal_frame n) /\
   (forall n, h_send_buf_size (m_http2 m) = Some n -> legal_buffer n)).
Proof.
  intros D. unfold endpoint_settings, client_settings, connect_params, override_from. destruct (m_http2 m) as [fl ka rs fs sb], d as [a sw cw pt pi pd f0 r0 b0 st hl pr].
  cbn in D. subst f0.
  cbn [h_flow h_keep_alive h_reset_streams h_frame_size h_send_buf_size].
  assert (L0 : legal_frame 16384) by (unfold legal_frame; change (2 ^ 14) with 16384; change (2 ^ 24) with 16777216; lia).
  split.
  - intros x H.
    destruct fl as [[|s w]|], ka as [[i t w0]|], rs as [r|], fs as [f|], sb as [b|];
      cbn [client_calls client_flow h_flow h_keep_alive h_reset_streams h_frame_size h_send_buf_size app applies apply k_timeout k_interval k_while_idle] in H;
      try (destruct (b <=? 4294967295); [|discriminate H]); cbn [applies] in H;
      apply start_iff in H; destruct H as [-> _];
      constructor; cbn; unfold adapts, fixed, pings, same_pings; cbn; auto.
  - set (P := (forall n, fs = Some n -> legal_frame n) /\ (forall n, sb = Some n -> legal_buffer n)).
    assert (E : forall (o : option conf), (exists x, o = Some x) <-> o <> None).
    { intros [o|]; split; intros H; [discriminate|now exists o|destruct H; discriminate|congruence]. }
    destruct fl as [[|s w]|], ka as [[i t w0]|], rs as [r|], fs as [f|], sb as [b|];
      cbn [client_calls client_flow h_flow h_keep_alive h_reset_streams h_frame_size h_send_buf_size app applies apply k_timeout k_interval k_while_idle];
      subst P; (split;
        [intros [x H];
         try (destruct (b <=? 4294967295) eqn:Q; [apply buffer_iff in Q|discriminate H]); cbn [applies] in H;
         apply start_iff in H; destruct H as [_ H]; cbn [c_frame_size] in H;
         split; intros n Hn; try discriminate Hn; injection Hn as <-; assumption
        |intros [F B];
         try (assert (Q : (b <=? 4294967295) = true) by (apply buffer_iff, B; reflexivity); rewrite Q);
         cbn [applies]; eexists; apply start_iff; split; [reflexivity|]; cbn [c_frame_size];
         first [exact L0|apply F; reflexivity]]).
Qed.

Theorem server_settings_spec d p : c_frame_size d = 16384 ->
  (forall x, server_settings d p = Some x -> accepted_connection d p x) /\
  ((exists x, server_settings d p = Some x) <->
   (forall n, EnvModel.hs_max_frame_size p = Some n -> legal_frame n) /\
   (forall n, EnvModel.hs_max_send_buf_size p = Some n -> legal_buffer n)).
Proof.
  intros D. unfold server_settings. destruct p as [fl ka ms fs hs pa sb], d as [a sw cw pt pi pd f0 r0 b0 st hl pr].
  cbn in D. subst f0.
  assert (L0 : legal_frame 16384) by (unfold legal_frame; change (2 ^ 14) with 16384; change (2 ^ 24) with 16777216; lia).
  cbn [EnvModel.hs_flow_control EnvModel.hs_keep_alive EnvModel.hs_max_concurrent_streams EnvModel.hs_max_frame_size EnvModel.hs_max_header_list_size EnvModel.hs_max_pending_accept_reset_streams EnvModel.hs_max_send_buf_size].
  split.
  - intros x H.
    destruct fl as [|s w], ka as [[i t]|], fs as [f|], hs as [h|], sb as [b|];
      cbn [server_calls server_flow EnvModel.hs_flow_control EnvModel.hs_keep_alive EnvModel.hs_max_concurrent_streams EnvModel.hs_max_frame_size EnvModel.hs_max_header_list_size EnvModel.hs_max_pending_accept_reset_streams EnvModel.hs_max_send_buf_size app applies apply] in H;
      try (destruct (b <=? 4294967295); [|discriminate H]); cbn [applies] in H;
      apply start_iff in H; destruct H as [-> _];
      constructor; cbn; unfold adapts, fixed, pings, same_pings; cbn; auto.
  - destruct fl as [|s w], ka as [[i t]|], fs as [f|], hs as [h|], sb as [b|];
      cbn [server_calls server_flow EnvModel.hs_flow_control EnvModel.hs_keep_alive EnvModel.hs_max_concurrent_streams EnvModel.hs_max_frame_size EnvModel.hs_max_header_list_size EnvModel.hs_max_pending_accept_reset_streams EnvModel.hs_max_send_buf_size app applies apply];
      (split;
        [intros [x H];
         try (destruct (b <=? 4294967295) eqn:Q; [apply buffer_iff in Q|discriminate H]); cbn [applies] in H;
         apply start_iff in H; destruct H as [_ H]; cbn [c_frame_size] in H;
         split; intros n Hn; try discriminate Hn; injection Hn as <-; assumption
        |intros [F B];
         try (assert (Q : (b <=? 4294967295) = true) by (apply buffer_iff, B; reflexivity); rewrite Q);
         cbn [applies]; eexists; apply start_iff; split; [reflexivity|]; cbn [c_frame_size];
         first [exact L0|apply F; reflexivity]]).
Qed.

Lemma legal_default : legal_frame 16384.
Proof. unfold legal_frame. change (2 ^ 14) with 16384. change (2 ^ 24) with 16777216. lia. Qed.
Theorem local_settings_spec d c : c_frame_size d = 16384 -> exists x, local_settings d c = Some x /\
  endpoint_connection d (EnvModel.cc_stream_window c) (EnvModel.cc_connection_window c) h2_default x.
Proof.
  intros D. set (m := Metadata [] 0 Unknown None None None h2_default None).
  destruct (endpoint_settings_spec d c m D) as [A B].
  destruct (proj2 B ltac:(split; intros n H; discriminate H)) as [x X]. exists x. split; [exact X|exact (A x X)].
Qed.

Lemma parse_unset (e : EnvModel.strings) {A} k (f : bytes -> option A) : (forall k, e k = Some None) -> EnvModel.parse e k f = inl None.
Proof. intros E. unfold EnvModel.parse, EnvModel.get. rewrite E. reflexivity. Qed.
Lemma parse_server_unset e base : (forall k, e k = Some None) ->
  EnvModel.parse_server e base = inl (EnvModel.H2Server (EnvModel.Fixed_windows 65535 1048576) None None None None None None).
Proof.
  intros E. unfold EnvModel.parse_server, EnvModel.parse_flow_control, EnvModel.parse_keep_alive. rewrite !(parse_unset e) by exact E. reflexivity.
Qed.
Theorem unset d e base : c_frame_size d = 16384 -> (forall k, e k = Some None) ->
  exists p x, EnvModel.parse_server e base = inl p /\ server_settings d p = Some x /\
    fixed x 65535 1048576 /\ same_pings d x /\ c_frame_size x = 16384 /\ c_send_buf_size x = c_send_buf_size d /\
    c_header_list x = c_header_list d /\ c_streams x = None.
Proof.
  intros D E. pose proof (parse_server_unset e base E) as P.
  destruct (server_settings_spec d (EnvModel.H2Server (EnvModel.Fixed_windows 65535 1048576) None None None None None None) D) as [A B].
  destruct (proj2 B ltac:(split; intros n H; discriminate H)) as [x X]. destruct (A x X). cbn in *.
  eexists _, x. split; [exact P|]. split; [exact X|]. repeat (split; [first [assumption|congruence]|]). assumption.
Qed.
Definition default_of_hyper : conf := Conf false 1048576 1048576 20000000000 None false 16384 (Some 10) 409600 (Some 200) 16384 None.
Theorem limited_refuted : ~ forall d e base p x, c_frame_size d = 16384 -> (forall k, e k = Some None) ->
  EnvModel.parse_server e base = inl p -> server_settings d p = Some x -> c_streams d <> None -> c_streams x <> None.
Proof.
  intros H. destruct (unset default_of_hyper (fun _ => Some None) [] eq_refl (fun _ => eq_refl)) as (p & x & P & X & _ & _ & _ & _ & _ & S).
  exact (H default_of_hyper (fun _ => Some None) [] p x eq_refl (fun _ => eq_refl) P X ltac:(discriminate) S).
Qed.
Definition a_small_frame : EnvModel.strings := fun k => if beq k (bs "_MAX_FRAME_SIZE"%string) then Some (Some (bs "4"%string)) else Some None.
Theorem usable_refuted :
  (~ forall d e base p, c_frame_size d = 16384 -> EnvModel.parse_server e base = inl p -> exists x, server_settings d p = Some x) /\
  (~ forall to_duration d c pb m, c_frame_size d = 16384 -> m_http2 m = to_http2_client_params to_duration pb -> exists x, endpoint_settings d c m = Some x).
Proof.
  split; intros H.
  - destruct (H default_of_hyper a_small_frame [] (EnvModel.H2Server (EnvModel.Fixed_windows 65535 1048576) None None (Some 4) None None None) eq_refl ltac:(vm_compute; reflexivity)) as [x X].
    vm_compute in X. discriminate X.
  - destruct (H (fun _ => None) default_of_hyper (EnvModel.ConnectConfig None None 0 (EnvModel.Backoff 0 0 (EnvModel.Fin 0%Q)) 65535 1048576 1 1) (PbHttp2 None None (Some (PbInternals 0 4 0)))
      (Metadata [] 1 Http2 None None None (H2Params None None None (Some 4) None) None) eq_refl eq_refl) as [x X].
    vm_compute in X. discriminate X.
Qed.
