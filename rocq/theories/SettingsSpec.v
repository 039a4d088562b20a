(** Specification for C146. *)
From Coq Require Import List NArith Bool.
From Verif Require Import Bytes EndpointModel SettingsModel.
From Verif Require EnvModel.
Import ListNotations.
Open Scope N_scope.

(** The windows of a connection: adapting from the protocol's, or fixed *)
Definition adapts (c : conf) : Prop := c_adaptive c = true /\ c_stream_window c = 65535 /\ c_connection_window c = 65535.
Definition fixed (c : conf) (stream connection : N) : Prop :=
  c_adaptive c = false /\ c_stream_window c = stream /\ c_connection_window c = connection.
(** Pings: how often, how long an answer may take, and whether also without requests *)
Definition pings (c : conf) (interval timeout : N) (idle : bool) : Prop :=
  c_ping_interval c = Some interval /\ c_ping_timeout c = timeout /\ c_ping_idle c = idle.
(** As the library does it *)
Definition same_pings (d c : conf) : Prop :=
  c_ping_interval c = c_ping_interval d /\ c_ping_timeout c = c_ping_timeout d /\ c_ping_idle c = c_ping_idle d.

(** What is set, or else the library's *)
Definition set_or {A} (o : option A) (d : A) : A := match o with Some x => x | None => d end.

(** What the protocol, and the library, let be set *)
Definition legal_frame (n : N) : Prop := 2 ^ 14 <= n < 2 ^ 24.
Definition legal_buffer (n : N) : Prop := n < 2 ^ 32.

(** A connection to an endpoint with metadata [m], windows [s] and [w] being the proxy's own *)
Record endpoint_connection (d : conf) (s w : N) (h : h2_params) (c : conf) : Prop := {
  e_flow : match h_flow h with
           | Some Adaptive => adapts c
           | Some (Fixed s' w') => fixed c s' w'
           | None => fixed c s w
           end;
  e_pings : match h_keep_alive h with
            | Some k => pings c (k_interval k) (k_timeout k) (k_while_idle k)
            | None => same_pings d c
            end;
  e_frame : c_frame_size c = set_or (h_frame_size h) (c_frame_size d);
  e_resets : c_reset_streams c = match h_reset_streams h with Some n => Some n | None => c_reset_streams d end;
  e_buffer : c_send_buf_size c = set_or (h_send_buf_size h) (c_send_buf_size d);
  e_streams : c_streams c = c_streams d;
  e_headers : c_header_list c = c_header_list d;
  e_pending : c_pending_resets c = c_pending_resets d }.

(** A connection that is accepted *)
Record accepted_connection (d : conf) (p : EnvModel.h2_server) (c : conf) : Prop := {
  a_flow : match EnvModel.hs_flow_control p with
           | EnvModel.Adaptive => adapts c
           | EnvModel.Fixed_windows s w => fixed c s w
           end;
  a_pings : match EnvModel.hs_keep_alive p with
            | Some (interval, timeout) => pings c interval timeout (c_ping_idle d)
            | None => same_pings d c
            end;
  a_frame : c_frame_size c = set_or (EnvModel.hs_max_frame_size p) (c_frame_size d);
  a_resets : c_reset_streams c = c_reset_streams d;
  a_buffer : c_send_buf_size c = set_or (EnvModel.hs_max_send_buf_size p) (c_send_buf_size d);
  a_streams : c_streams c = EnvModel.hs_max_concurrent_streams p;
  a_headers : c_header_list c = set_or (EnvModel.hs_max_header_list_size p) (c_header_list d);
  a_pending : c_pending_resets c = EnvModel.hs_max_pending_accept_reset_streams p }.
