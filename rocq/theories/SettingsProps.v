(** C146: how connections of HTTP/2 are set up *)
From Coq Require Import String List NArith QArith Bool.
From Verif Require Import Bytes EndpointModel EndpointSpec SettingsModel SettingsSpec SettingsProofs.
From Verif Require EnvModel.
Import ListNotations.
Open Scope N_scope.

(** Of a connection to an endpoint each setting is what was discovered of the endpoint, or else the proxy's, or else
    the library's; windows and pings go together.  It is made unless a setting that was discovered is not legal. *)
Theorem C146_endpoint : forall d c m, c_frame_size d = 16384 ->
  (forall x, endpoint_settings d c m = Some x ->
     endpoint_connection d (EnvModel.cc_stream_window c) (EnvModel.cc_connection_window c) (m_http2 m) x) /\
  ((exists x, endpoint_settings d c m = Some x) <->
   (forall n, h_frame_size (m_http2 m) = Some n -> legal_frame n) /\
   (forall n, h_send_buf_size (m_http2 m) = Some n -> legal_buffer n)).
Proof. exact endpoint_settings_spec. Qed.
Print Assumptions C146_endpoint.

(** Of a connection that is accepted each setting is what the environment says or else the library's, but that there
    is no limit to streams unless it says one. *)
Theorem C146_accepted : forall d p, c_frame_size d = 16384 ->
  (forall x, server_settings d p = Some x -> accepted_connection d p x) /\
  ((exists x, server_settings d p = Some x) <->
   (forall n, EnvModel.hs_max_frame_size p = Some n -> legal_frame n) /\
   (forall n, EnvModel.hs_max_send_buf_size p = Some n -> legal_buffer n)).
Proof. exact server_settings_spec. Qed.
Print Assumptions C146_accepted.

(** Connections to the application and to the control plane have the proxy's windows and are otherwise as the library
    has them; they are always made. *)
Theorem C146_local : forall d c, c_frame_size d = 16384 -> exists x, local_settings d c = Some x /\
  endpoint_connection d (EnvModel.cc_stream_window c) (EnvModel.cc_connection_window c) h2_default x.
Proof. exact local_settings_spec. Qed.
Print Assumptions C146_local.

(** Without a word of the environment: windows of 65,535 bytes and of one mebibyte, no pings but the library's, and no
    limit to the streams of a client. *)
Theorem C146_unset : forall d e base, c_frame_size d = 16384 -> (forall k, e k = Some None) ->
  exists p x, EnvModel.parse_server e base = inl p /\ server_settings d p = Some x /\
    fixed x 65535 1048576 /\ same_pings d x /\ c_frame_size x = 16384 /\ c_send_buf_size x = c_send_buf_size d /\
    c_header_list x = c_header_list d /\ c_streams x = None.
Proof. exact unset. Qed.
Print Assumptions C146_unset.

(** The full claim: what the library limits is limited unless the environment says otherwise.  The library's limit to
    the streams of a client is lifted. *)
Theorem C146_limited_refuted : ~ forall d e base p x, c_frame_size d = 16384 -> (forall k, e k = Some None) ->
  EnvModel.parse_server e base = inl p -> server_settings d p = Some x -> c_streams d <> None -> c_streams x <> None.
Proof. exact limited_refuted. Qed.
Print Assumptions C146_limited_refuted.

(** The full claim: settings that are accepted can be used.  Neither those of the environment nor those that are
    discovered are checked; every connection then panics. *)
Theorem C146_usable_refuted :
  (~ forall d e base p, c_frame_size d = 16384 -> EnvModel.parse_server e base = inl p -> exists x, server_settings d p = Some x) /\
  (~ forall to_duration d c pb m, c_frame_size d = 16384 -> m_http2 m = to_http2_client_params to_duration pb -> exists x, endpoint_settings d c m = Some x).
Proof. exact usable_refuted. Qed.
Print Assumptions C146_usable_refuted.

(** hyper's, of a server *)
Definition a_default : conf := Conf false 1048576 1048576 20000000000 None false 16384 (Some 10) 409600 (Some 200) 16384 None.
Definition a_config : EnvModel.connect_config := EnvModel.ConnectConfig None None 1000000000 (EnvModel.Backoff 0 0 (EnvModel.Fin 0%Q)) 65535 1048576 1 1.
Definition an_endpoint (h : h2_params) : metadata := Metadata [] 1 Http2 None None None h None.
Example C146_case : c_frame_size a_default = 16384 /\
  endpoint_settings a_default a_config (an_endpoint (H2Params (Some Adaptive) (Some (KeepAlive 10 3 true)) None (Some 32768) None))
  = Some (Conf true 65535 65535 3 (Some 10) true 32768 (Some 10) 409600 (Some 200) 16384 None).
Proof. split; reflexivity. Qed.
Example C146_case_server : server_settings a_default (EnvModel.H2Server (EnvModel.Fixed_windows 1 2) (Some (5, 4)) (Some 9) None (Some 7) (Some 8) (Some 6))
  = Some (Conf false 1 2 4 (Some 5) false 16384 (Some 10) 6 (Some 9) 7 (Some 8)).
Proof. reflexivity. Qed.
