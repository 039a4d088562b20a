(** Model of how connections to servers are made: linkerd/app/outbound/src/tcp/{connect.rs, endpoint.rs}, linkerd/app/inbound/src/server.rs:110-158,
    linkerd/proxy/transport/src/connect.rs, linkerd/stack/src/timeout.rs and `push_connect_timeout` of linkerd/app/core/src/svc.rs.
    The `allow-loopback` feature, which is for tests, is off.  Timers are exact. *)
From Coq Require Import List NArith Bool.
From Verif Require Import AuthzModel AcceptModel.
Import ListNotations.
Open Scope N_scope.

Section Dial.
  Context {E : Type}.
  (** A part of making a connection, which others do: how long it takes, if it ends, and its error *)
  Record stage := Stage { takes : option N; fails_with : option E }.
  (** Why there is no connection *)
  Inductive failure := Connection_refused | Loop (port : N) | Connect_timeout (limit : N) | Because (e : E).
  (** Parts that follow one another, from a time: when they are done and how; [None]: never *)
  Fixpoint through (t : N) (ss : list stage) : option (N * option E) :=
    match ss with
    | [] => Some (t, None)
    | Stage None _ :: _ => None
    | Stage (Some d) (Some e) :: _ => Some (t + d, Some e)
    | Stage (Some d) None :: ss => through (t + d) ss
    end.
  (** What became of a connection: when, to what address one was attempted, and the failure *)
  Record outcome := Outcome { o_at : N; o_dialed : option addr; o_failure : option failure }.
  (** timeout.rs:79-116 and svc.rs:215-227; `tokio::time::timeout` looks at what it waits for first.  An attempt that is dropped has been made. *)
  Definition timeout (limit t : N) (dialed : option addr) (f : option (N * option failure)) : outcome :=
    match f with
    | Some (d, r) => if d <=? t + limit then Outcome d dialed r else Outcome (t + limit) dialed (Some (Connect_timeout limit))
    | None => Outcome (t + limit) dialed (Some (Connect_timeout limit))
    end.
  (** `Ipv4Addr::is_loopback`, `Ipv6Addr::is_loopback` *)
  Definition is_loopback (i : ip) : bool :=
    match i with V4 a => N.shiftr a 24 =? 127 | V6 a => a =? 1 end.
  (** tcp/connect.rs:34-45, 68-75: [None] is an error *)
  Definition prevent_loopback (a : addr) : option addr := if is_loopback (fst a) then None else Some a.
  (** transport/src/connect.rs:27-55, tcp/connect.rs:22-30, tcp/endpoint.rs:32-49.  [net]: what comes of a TCP connection to an address, with its
      options; [tls], [header]: of the TLS client and of the transport header *)
  Definition connect_outbound (limit : N) (net : addr -> stage) (tls header : stage) (a : addr) (t : N) : outcome :=
    match prevent_loopback a with
    | None => timeout limit t None (Some (t, Some Connection_refused))
    | Some a =>
        timeout limit t (Some a)
          (match through t [net a; tls; header] with Some (d, e) => Some (d, option_map Because e) | None => None end)
    end.
  (** app/inbound/src/server.rs:139-156: the filter is outside the timeout *)
  Definition connect_inbound (limit proxy_port : N) (net : addr -> stage) (a : addr) (t : N) : outcome :=
    if snd a =? proxy_port then Outcome t None (Some (Loop proxy_port))
    else
      timeout limit t (Some a)
        (match through t [net a] with Some (d, e) => Some (d, option_map Because e) | None => None end).
End Dial.
Arguments stage : clear implicits. Arguments failure : clear implicits. Arguments outcome : clear implicits.
