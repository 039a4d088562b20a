(** Model of how the proxy's logs are set up and of the times of their lines: linkerd/tracing/src/lib.rs (`Settings`),
    with level.rs, access_log.rs and uptime.rs.

    Simplifications: the filter of levels is its text, which the crate tracing-subscriber reads; the times are of the
    monotonic clock, in nanoseconds; of a line, only its time is modelled; white space is that of ASCII. *)
From Coq Require Import String List NArith Bool.
From Verif Require Import Bytes.
From Verif Require ProfileModel LogModel.
Import ListNotations.
Open Scope N_scope.

(** ** Settings *)

(** What the environment says; [None]: it is not set, or it is no UTF-8 (lib.rs:65-77, 90-91) *)
Record env := Env { e_level : option bytes; e_format : option bytes; e_access : option bytes }.
(** lib.rs:38-45, without [is_test] *)
Record settings := Settings {
  t_filter : bytes; t_format : bytes; t_start : N; t_access : option LogModel.format }.
(** lib.rs:29 *)
Definition DEFAULT_LOG_LEVEL : bytes := bs "warn,linkerd=info,hickory=error"%string.
(** lib.rs:30 *)
Definition DEFAULT_LOG_FORMAT : bytes := bs "PLAIN"%string.
(** lib.rs:65-78; [now]: the time at which the process starts *)
Definition from_env (now : N) (e : env) : settings :=
  Settings (match e_level e with Some l => l | None => DEFAULT_LOG_LEVEL end)
           (match e_format e with Some f => f | None => DEFAULT_LOG_FORMAT end)
           now (LogModel.access_log_format (e_access e)).

(** How the lines of the log are written: with the time of day, or with the time since the start *)
Inductive lines := In_json | In_plain (start : N).
(** What is logged: to standard output, with a filter, if at all; and the access log.  [g_handle]: whether the admin server
    can read and set the level *)
Record logging := Logging { g_output : option (lines * bytes); g_access : option LogModel.format; g_handle : bool }.
(** access_log.rs:11, lib.rs:206-208: the directive that is added comes after those of the text, which is as if the text went on with it *)
Definition with_access_off (filter : bytes) : bytes := filter ++ bs ",_access_log=off"%string.
(** lib.rs:192-237 *)
Definition build (s : settings) : logging :=
  let out := if eq_ignore_case (ProfileModel.trim (t_format s)) (bs "json"%string) then In_json else In_plain (t_start s) in
  Logging (Some (out, with_access_off (t_filter s))) (t_access s) true.
(** lib.rs:156-181 *)
Definition init (s : settings) : logging :=
  if eq_ignore_case (ProfileModel.trim (t_filter s)) (bs "off"%string) then Logging None None false
  else build s.

(** ** uptime.rs *)

(** Padding of `format!`: to the right of [c]s *)
Definition pad (c : N) (width : nat) (s : bytes) : bytes := repeat c (width - List.length s) ++ s.
(** `Duration::as_secs`, of nanoseconds *)
Definition as_secs (d : N) : N := d / 1000000000.
(** `Duration::subsec_micros` *)
Definition subsec_micros (d : N) : N := d mod 1000000000 / 1000.
(** uptime.rs:20-23 *)
Definition format (d : N) : bytes :=
  bs "["%string ++ pad 32 6 (to_dec (as_secs d)) ++ bs "."%string ++ pad 48 6 (to_dec (subsec_micros d)) ++ bs "s]"%string.
(** uptime.rs:26-30; `saturating_duration_since` *)
Definition format_time (start now : N) : bytes := format (now - start).
