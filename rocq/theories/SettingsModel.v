(** Model of how the connections of HTTP/2 are set up: linkerd/proxy/http/src/h2.rs and
    linkerd/proxy/http/src/server.rs, with the settings of linkerd/http/h2/src/lib.rs (EndpointModel, EnvModel).

    What hyper's builders keep, and what their methods do, is taken from hyper's documentation: the libraries are not
    in /repo.  How the settings act on a connection is not modelled. *)
From Coq Require Import List NArith Bool.
From Verif Require Import Bytes EndpointModel.
From Verif Require EnvModel.
Import ListNotations.
Open Scope N_scope.

(** What the builders of `hyper::{client,server}::conn::http2` keep: whether windows adapt, those of streams and of
    the connection, when pings are answered in time and how often they are sent, and whether without streams;
    the largest frame; how many streams that were reset are remembered; how much is held that was not sent; how many
    streams a client may have; how large its headers may be; how many streams that were reset may wait *)
Record conf := Conf {
  c_adaptive : bool; c_stream_window : N; c_connection_window : N;
  c_ping_timeout : N; c_ping_interval : option N; c_ping_idle : bool;
  c_frame_size : N; c_reset_streams : option N; c_send_buf_size : N;
  c_streams : option N; c_header_list : N; c_pending_resets : option N }.

(** Their methods, those that are called *)
Inductive call :=
| Adaptive_window (enabled : bool) | Stream_window (size : N) | Connection_window (size : N)
| Keep_alive_timeout (d : N) | Keep_alive_interval (d : N) | Keep_alive_while_idle (b : bool)
| Max_frame_size (size : option N) | Max_concurrent_reset_streams (n : N) | Max_send_buf_size (n : N)
| Max_concurrent_streams (n : option N) | Max_header_list_size (n : N) | Max_pending_accept_reset_streams (n : option N).

(** 65,535 bytes: the window of the protocol, hyper's `SPEC_WINDOW_SIZE` *)
Definition SPEC_WINDOW_SIZE : N := 65535.
(** hyper's methods; [None]: it panics.  `adaptive_window(true)` sets the windows to the protocol's, and setting a
    window ends adapting; `max_frame_size(None)` does nothing; `max_concurrent_streams(None)` removes the limit;
    `max_send_buf_size` panics above `u32::MAX`. *)
Definition apply (c : conf) (k : call) : option conf :=
  let '(Conf a sw cw pt pi pd fs rs sb st hl pr) := c in
  match k with
  | Adaptive_window true => Some (Conf true SPEC_WINDOW_SIZE SPEC_WINDOW_SIZE pt pi pd fs rs sb st hl pr)
  | Adaptive_window false => Some (Conf false sw cw pt pi pd fs rs sb st hl pr)
  | Stream_window n => Some (Conf false n cw pt pi pd fs rs sb st hl pr)
  | Connection_window n => Some (Conf false sw n pt pi pd fs rs sb st hl pr)
  | Keep_alive_timeout d => Some (Conf a sw cw d pi pd fs rs sb st hl pr)
  | Keep_alive_interval d => Some (Conf a sw cw pt (Some d) pd fs rs sb st hl pr)
  | Keep_alive_while_idle b => Some (Conf a sw cw pt pi b fs rs sb st hl pr)
  | Max_frame_size None => Some c
  | Max_frame_size (Some n) => Some (Conf a sw cw pt pi pd n rs sb st hl pr)
  | Max_concurrent_reset_streams n => Some (Conf a sw cw pt pi pd fs (Some n) sb st hl pr)
  | Max_send_buf_size n => if n <=? 4294967295 then Some (Conf a sw cw pt pi pd fs rs n st hl pr) else None
  | Max_concurrent_streams n => Some (Conf a sw cw pt pi pd fs rs sb n hl pr)
  | Max_header_list_size n => Some (Conf a sw cw pt pi pd fs rs sb st n pr)
  | Max_pending_accept_reset_streams n => Some (Conf a sw cw pt pi pd fs rs sb st hl n)
  end.
(** Calls, one after the other *)
Fixpoint applies (c : conf) (ks : list call) : option conf :=
  match ks with
  | [] => Some c
  | k :: ks => match apply c k with Some c => applies c ks | None => None end
  end.
(** `h2::frame::Settings::set_max_frame_size`, by which a connection starts, panics of what the protocol does not
    allow. *)
Definition start (c : conf) : option conf :=
  if (16384 <=? c_frame_size c) && (c_frame_size c <=? 16777215) then Some c else None.

(** h2.rs:90-103 *)
Definition client_flow (f : option flow_control) : list call :=
  match f with
  | None => []
  | Some Adaptive => [Adaptive_window true]
  | Some (Fixed s c) => [Stream_window s; Connection_window c]
  end.
(** h2.rs:105-124 *)
Definition client_calls (p : h2_params) : list call :=
  client_flow (h_flow p)
  ++ match h_keep_alive p with
     | Some k => [Keep_alive_timeout (k_timeout k); Keep_alive_interval (k_interval k); Keep_alive_while_idle (k_while_idle k)]
     | None => []
     end
  ++ [Max_frame_size (h_frame_size p)]
  ++ match h_reset_streams p with Some n => [Max_concurrent_reset_streams n] | None => [] end
  ++ match h_send_buf_size p with Some n => [Max_send_buf_size n] | None => [] end.
(** h2.rs:71-137: what a connection is started with; [d] is what the builder keeps at first *)
Definition client_settings (d : conf) (p : h2_params) : option conf :=
  match applies d (client_calls p) with Some c => start c | None => None end.

(** server.rs:81-94 *)
Definition server_flow (f : EnvModel.flow_control) : list call :=
  match f with
  | EnvModel.Adaptive => [Adaptive_window true]
  | EnvModel.Fixed_windows s c => [Stream_window s; Connection_window c]
  end.
(** server.rs:96-112 *)
Definition server_calls (p : EnvModel.h2_server) : list call :=
  server_flow (EnvModel.hs_flow_control p)
  ++ match EnvModel.hs_keep_alive p with
     | Some (interval, timeout) => [Keep_alive_timeout timeout; Keep_alive_interval interval]
     | None => []
     end
  ++ [Max_concurrent_streams (EnvModel.hs_max_concurrent_streams p); Max_frame_size (EnvModel.hs_max_frame_size p);
      Max_pending_accept_reset_streams (EnvModel.hs_max_pending_accept_reset_streams p)]
  ++ match EnvModel.hs_max_header_list_size p with Some n => [Max_header_list_size n] | None => [] end
  ++ match EnvModel.hs_max_send_buf_size p with Some n => [Max_send_buf_size n] | None => [] end.
(** server.rs:63-130, 202: the same for a connection that is accepted *)
Definition server_settings (d : conf) (p : EnvModel.h2_server) : option conf :=
  match applies d (server_calls p) with Some c => start c | None => None end.

(** app/src/env.rs:543-549 and 637-643: the settings of connections that are made, from the configuration *)
Definition connect_params (c : EnvModel.connect_config) : h2_params :=
  H2Params (Some (Fixed (EnvModel.cc_stream_window c) (EnvModel.cc_connection_window c))) None None None None.
(** app/outbound/src/http/concrete.rs:133-147 and app/outbound/src/http/concrete/balance.rs:147-165: a connection to an
    endpoint *)
Definition endpoint_settings (d : conf) (c : EnvModel.connect_config) (m : metadata) : option conf :=
  client_settings d (override_from (connect_params c) (m_http2 m)).
(** app/inbound/src/http/router.rs:93, of connections to the application, and app/core/src/control.rs:461-471, to the
    control plane *)
Definition local_settings (d : conf) (c : EnvModel.connect_config) : option conf := client_settings d (connect_params c).
