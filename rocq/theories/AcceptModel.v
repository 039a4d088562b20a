(** Model of how inbound connections are accepted: linkerd/proxy/transport/src/{listen.rs, listen/dual_bind.rs, orig_dst.rs},
    linkerd/app/core/src/{serve.rs, transport/allow_ips.rs}, linkerd/app/inbound/src/accept.rs and, for what fails,
    linkerd/app/inbound/src/metrics/{error.rs, error/tcp.rs} with linkerd/stack/src/{filter.rs, result.rs, monitor.rs}. *)
From Coq Require Import List NArith Bool.
From Verif Require Import AuthzModel HistogramModel.
Import ListNotations.
Open Scope N_scope.

(** `std::net::SocketAddr`, without the scope and the flow of IPv6 *)
Definition addr : Type := ip * N.
(** `IpAddr`'s equality *)
Definition ip_eqb (a b : ip) : bool :=
  match a, b with V4 x, V4 y => x =? y | V6 x, V6 y => x =? y | _, _ => false end.
(** `SocketAddr`'s equality *)
Definition addr_eqb (a b : addr) : bool := ip_eqb (fst a) (fst b) && (snd a =? snd b).

(** What the system says of a connection that is accepted: whether the socket can be converted to set its options (proxy/transport/src/lib.rs:59-91), its
    peer, and its original destinations.  The system may give an address that is of no internet family: `as_socket` is [None]. *)
Record socket := Socket { s_options : bool; s_peer : option addr; s_dst4 : option (option addr); s_dst6 : option (option addr) }.

(** listen.rs:125-132 *)
Definition mapped (a : addr) : addr := (ipv4_mapped (fst a), snd a).
(** orig_dst.rs:93-115 *)
Definition orig_dst (s : socket) (client : addr) : option addr :=
  match match fst client with V4 _ => s_dst4 s | V6 _ => s_dst6 s end with
  | Some (Some a) => Some a
  | _ => None
  end.
(** listen.rs:117-137 and orig_dst.rs:79-90: the addresses of a connection; [None] is an error, also of `accept` itself *)
Definition item (a : option socket) : option (addr * addr) :=
  match a with
  | None => None
  | Some s =>
      if s_options s then
        match s_peer s with
        | None => None
        | Some peer =>
            let client := mapped peer in
            match orig_dst s client with Some dst => Some (client, dst) | None => None end
        end
      else None
  end.

(** allow_ips.rs:22-36 *)
Definition check (ips : list ip) (dst : addr) : bool :=
  match ips with [] => true | _ => existsb (ip_eqb (fst dst)) ips end.

(** An error is of these, or of another type (app/inbound/src/metrics/error.rs:18-26) *)
Inductive kind := Fail_fast | Load_shed | Gateway_domain_invalid | Gateway_loop | Io | Tls_detect_timeout | Unexpected.
(** An error of a policy (`ServerUnauthorized`, `HttpRouteUnauthorized`, `HttpRouteNotFound`), of a kind, or any other *)
Inductive cause := Policy | Of (k : kind) | Other.
(** An error, with its sources *)
Definition error : Type := cause * list cause.
(** error.rs:31-56 *)
Fixpoint mk (c : cause) (sources : list cause) : option kind :=
  match c with
  | Policy => None
  | Of k => Some k
  | Other => match sources with c :: sources => mk c sources | [] => Some Unexpected end
  end.
(** Equality of `ErrorKind`s *)
Definition kind_eqb (a b : kind) : bool :=
  match a, b with
  | Fail_fast, Fail_fast | Load_shed, Load_shed | Gateway_domain_invalid, Gateway_domain_invalid | Gateway_loop, Gateway_loop
  | Io, Io | Tls_detect_timeout, Tls_detect_timeout | Unexpected, Unexpected => true
  | _, _ => false
  end.
(** error/tcp.rs:22: the counters *)
Definition counters : Type := list (kind * addr * N).
(** error/tcp.rs:83-90: `entry(..).or_default().incr()` *)
Fixpoint incr (k : kind) (a : addr) (m : counters) : counters :=
  match m with
  | [] => [(k, a, counter_add 0 1)]
  | (k', a', n) :: m => if kind_eqb k k' && addr_eqb a a' then (k', a', counter_add n 1) :: m else (k', a', n) :: incr k a m
  end.
(** What a counter shows: nothing is zero *)
Fixpoint value (m : counters) (k : kind) (a : addr) : N :=
  match m with
  | [] => 0
  | (k', a', n) :: m => if kind_eqb k k' && addr_eqb a a' then n else value m k a
  end.
(** error/tcp.rs:81-91 *)
Definition monitor_error (dst : addr) (e : error) (m : counters) : counters :=
  match mk (fst e) (snd e) with Some k => incr k dst m | None => m end.

Section Accept.
  Context {P : Type}.
  Variable (ips : list ip) (proxy_port : N) (get_policy : addr -> P).

  (** Where a connection goes: nowhere, to the stack of connections to the proxy itself, or on with a policy *)
  Inductive way := Refused | Direct | On (policy : P).
  (** accept.rs:47-70: the check of addresses is outside the switch *)
  Definition new_service (dst : addr) : way :=
    if check ips dst then if snd dst =? proxy_port then Direct else On (get_policy dst) else Refused.
  (** A connection: its addresses, where it goes and whether it is over *)
  Record conn := Conn { c_client : addr; c_dst : addr; c_way : way; c_over : bool }.
  (** The accept loop goes on; its connections; the counters *)
  Record server := Server { accepting : bool; conns : list conn; errors : counters }.
  (** What happens: a listener (either of dual_bind.rs:36-54) gives something; the service of a connection fails, before or after it
      becomes ready, or ends well; the proxy shuts down *)
  Inductive event := Gives (a : option socket) | Ends (c : nat) (e : option error) | Shuts_down.
  (** A connection is over; not code *)
  Fixpoint over (c : nat) (l : list conn) : list conn :=
    match l, c with
    | [], _ => []
    | x :: l, O => Conn (c_client x) (c_dst x) (c_way x) true :: l
    | x :: l, S c => x :: over c l
    end.
  (** The error of allow_ips.rs:10-14 within `SharedError` of stack/src/result.rs:10-11, 33-35 *)
  Definition invalid_ip : error := (Other, [Other]).
  (** serve.rs:26-101; stack/src/monitor.rs:100-109, 136-144: each error is monitored once, as it is returned *)
  Definition step (s : server) (e : event) : server :=
    match e with
    | Gives a =>
        if accepting s then
          match item a with
          | None => s
          | Some (client, dst) =>
              match new_service dst with
              | Refused => Server true (conns s ++ [Conn client dst Refused true]) (monitor_error dst invalid_ip (errors s))
              | w => Server true (conns s ++ [Conn client dst w false]) (errors s)
              end
          end
        else s
    | Ends c r =>
        match nth_error (conns s) c with
        | Some x =>
            if c_over x then s
            else Server (accepting s) (over c (conns s)) match r with Some r => monitor_error (c_dst x) r (errors s) | None => errors s end
        | None => s
        end
    | Shuts_down => Server false (conns s) (errors s)
    end.
  (** All that happens *)
  Fixpoint run (s : server) (h : list event) : server :=
    match h with [] => s | e :: h => run (step s e) h end.
  (** At first *)
  Definition start : server := Server true [] [].
End Accept.
Arguments way : clear implicits. Arguments conn : clear implicits. Arguments server : clear implicits.
