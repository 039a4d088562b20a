(** Model of the life of the process: its start (linkerd/app/src/lib.rs, linkerd/app/src/identity.rs), its
    listeners (linkerd/app/core/src/serve.rs), what its connections do when it shuts down
    (linkerd/proxy/http/src/server.rs, linkerd/http/upgrade/src/upgrade.rs), and its end
    (linkerd2-proxy/src/main.rs).

    The crate drain is external, and modelled by what it documents: `Signal::drain` tells all `Watch`es, and
    completes once all of them, and what `Watch::signaled` gave, are dropped. *)
From Coq Require Import List Arith NArith Bool.
Import ListNotations.
Open Scope N_scope.

(** app/src/lib.rs:280-288 and 427-464: what is served *)
Inductive listener := Outbound | Inbound | Admin | Tap.
(** How a connection is handled: by HTTP servers (proxy/http/src/server.rs:168-224), or as a stream of bytes
    (`Retain`: inbound/src/server.rs:190; outbound/src/opaq/concrete.rs:237; outbound/src/tls/concrete.rs:210); what
    became of an upgraded HTTP/1 connection (http/upgrade/src/upgrade.rs:165-187); a client of the tap
    (app/src/tap.rs:63-87) *)
Inductive kind := K_http1 | K_h2 | K_tcp | K_tunnel | K_tap.
(** server.rs:180-195: served; told to finish as the process shuts down; told to finish by the stack *)
Inductive phase := Serving | Told | Torn.
(** One connection, served by a task of its own: serve.rs:47-87 *)
Record conn := Conn { c_id : nat; c_on : listener; c_kind : kind; c_phase : phase }.

(** Which identity there is: app/src/identity.rs:72-121 *)
Inductive provider := Control_plane | Spire.
(** What the life depends on: the identity, whether there is a tap, and the grace period *)
Record config := Config { g_identity : provider; g_tap : bool; g_grace : N }.

(** The state: the identity was certified (identity.rs:144-154); the task that certifies it is gone
    (proxy/spire-client/src/lib.rs:26-38); `start_proxy` waits (app/src/lib.rs:277-278); the latch of the admin
    server is held (app/src/lib.rs:443-451); the accept loops (serve.rs:27-91); the connections; when the
    shutdown began (main.rs:116-124); the time; the end, and whether it was graceful *)
Record state := State {
  s_certified : bool; s_lost : bool; s_waiting : bool; s_latched : bool;
  s_accepting : list listener; s_conns : list conn;
  s_asked : option N; s_now : N; s_exit : option bool }.

(** app/src/lib.rs:397-483: at first, the admin server and the tap are served. *)
Definition init (g : config) : state :=
  State false false true true (Admin :: if g_tap g then [Tap] else []) [] None 0 None.

(** Equality of the listeners of app/src/lib.rs:280-288 and 427-464 *)
Definition listener_eqb (a b : listener) : bool :=
  match a, b with
  | Outbound, Outbound | Inbound, Inbound | Admin, Admin | Tap, Tap => true
  | _, _ => false
  end.
(** Which connections each listener has: app/admin/src/stack.rs:124-203 and app/src/tap.rs:63-89 *)
Definition handles (l : listener) (k : kind) : bool :=
  match l, k with
  | Outbound, (K_http1 | K_h2 | K_tcp) | Inbound, (K_http1 | K_h2 | K_tcp)
  | Admin, (K_http1 | K_h2) | Tap, K_tap => true
  | _, _ => false
  end.
(** Does a connection hold a `Watch`?  HTTP servers do until their connection is done: `signaled`, and then
    `release_after` (server.rs:185-189), or the stack that their task keeps (serve.rs:76-79); `Retain` and the
    task of a tunnel `ignore_signaled` and `release_after`.  The tap's do not. *)
Definition holds (c : conn) : bool := match c_kind c with K_tap => false | _ => true end.
(** All of them: `start_proxy` (app/src/lib.rs:274), accept loops (app/src/lib.rs:281, 286; admin/src/stack.rs:203;
    app/src/tap.rs:89), and connections.  Simplification: services in caches are dropped with their stacks. *)
Definition holders (s : state) : nat :=
  (if s_waiting s then 1 else 0) + List.length (s_accepting s) + List.length (filter holds (s_conns s)).

(** The task of a connection: serve.rs:47-87 *)
Definition find_conn (id : nat) (cs : list conn) : option conn := find (fun c => Nat.eqb (c_id c) id) cs.
(** Its end: serve.rs:53-80 *)
Definition remove_conn (id : nat) (cs : list conn) : list conn := filter (fun c => negb (Nat.eqb (c_id c) id)) cs.
(** Which are handled by server.rs:168-224 *)
Definition is_http (k : kind) : bool := match k with K_http1 | K_h2 => true | _ => false end.
(** What became of a connection: server.rs:180-195 and upgrade.rs:152-190 *)
Definition put_conn (c : conn) (cs : list conn) : list conn :=
  map (fun d => if Nat.eqb (c_id d) (c_id c) then c else d) cs.

(** What may happen next, in any order; each is cited in [step]. *)
Inductive event :=
| Certified                                  (* the first certificate *)
| Lost                                       (* the identity's task ends before *)
| Started                                    (* `start_proxy` goes on *)
| Start_failed                               (* or panics *)
| Released                                   (* the latch is released *)
| Latch_failed                               (* or dropped by a panic *)
| Accepted (l : listener) (id : nat) (k : kind)
| Stopped (l : listener)                     (* an accept loop sees the signal *)
| Was_told (id : nat) | Was_torn (id : nat) | Upgraded (id : nat) | Closed (id : nat)
| Asked                                      (* SIGINT, SIGTERM or POST /shutdown *)
| Passed (t : N)                             (* time passes *)
| Drained                                    (* `drain` completes *)
| Timed_out.                                 (* the grace period does *)

Section Life.
Variable g : config.

(** One step of the tasks of app/src/lib.rs:271-290 and 397-483, serve.rs:14-101, server.rs:152-228, upgrade.rs:152-190
    and main.rs:54-130; [None]: it cannot happen. *)
Definition step (s : state) (e : event) : option state :=
  match s_exit s with
  | Some _ => None
  | None =>
      let '(State certified lost waiting latched accepting conns asked now exit) := s in
      match e with
      (* identity.rs:144-154 *)
      | Certified => if lost then None else Some (State true lost waiting latched accepting conns asked now exit)
      (* spire-client/src/lib.rs:31-35: `expect` fails if the first connection does (app/src/spire.rs:48-81), and drops
         the store; certify.rs never does. *)
      | Lost => match g_identity g with
                | Spire => if certified then None else Some (State certified true waiting latched accepting conns asked now exit)
                | Control_plane => None
                end
      (* app/src/lib.rs:278-288: both are spawned. *)
      | Started => if waiting && certified
                   then Some (State certified lost false latched (Outbound :: Inbound :: accepting) conns asked now exit)
                   else None
      (* identity.rs:166: `expect`; what the task holds is dropped. *)
      | Start_failed => if waiting && lost && negb certified
                        then Some (State certified lost false latched accepting conns asked now exit)
                        else None
      (* app/src/lib.rs:444-451 *)
      | Released => if latched && certified
                    then Some (State certified lost waiting false accepting conns asked now exit)
                    else None
      (* identity.rs:166: the latch is dropped too, which is how it is released: readiness.rs:9-11 and 33-35. *)
      | Latch_failed => if latched && lost && negb certified
                        then Some (State certified lost waiting false accepting conns asked now exit)
                        else None
      (* serve.rs:29-87.  `select!` polls in any order, so a connection may still be accepted after the signal. *)
      | Accepted l id k =>
          if existsb (listener_eqb l) accepting && handles l k &&
             match find_conn id conns with Some _ => false | None => true end
          then Some (State certified lost waiting latched accepting (Conn id l k Serving :: conns) asked now exit)
          else None
      (* serve.rs:97-100 *)
      | Stopped l =>
          if existsb (listener_eqb l) accepting && match asked with Some _ => true | None => false end
          then Some (State certified lost waiting latched (filter (fun m => negb (listener_eqb l m)) accepting) conns asked now exit)
          else None
      (* server.rs:185-189 and 209-213 *)
      | Was_told id =>
          match find_conn id conns, asked with
          | Some (Conn _ l k Serving), Some _ =>
              if is_http k then Some (State certified lost waiting latched accepting (put_conn (Conn id l k Told) conns) asked now exit)
              else None
          | _, _ => None
          end
      (* server.rs:190-194 and 214-218 *)
      | Was_torn id =>
          match find_conn id conns with
          | Some (Conn _ l k Serving) =>
              if is_http k then Some (State certified lost waiting latched accepting (put_conn (Conn id l k Torn) conns) asked now exit)
              else None
          | _ => None
          end
      (* upgrade.rs:152-190: the tunnel's task takes the `Watch` of the upgrade. *)
      | Upgraded id =>
          match find_conn id conns with
          | Some (Conn _ l K_http1 p) =>
              Some (State certified lost waiting latched accepting (put_conn (Conn id l K_tunnel p) conns) asked now exit)
          | _ => None
          end
      (* serve.rs:53-80 *)
      | Closed id =>
          match find_conn id conns with
          | Some _ => Some (State certified lost waiting latched accepting (remove_conn id conns) asked now exit)
          | None => None
          end
      (* main.rs:116-123 *)
      | Asked => match asked with
                 | None => Some (State certified lost waiting latched accepting conns (Some now) now exit)
                 | Some _ => None
                 end
      (* Time passes, but not beyond a timer that is set. *)
      | Passed t =>
          if match asked with Some a => now + t <=? a + g_grace g | None => true end
          then Some (State certified lost waiting latched accepting conns asked (now + t) exit)
          else None
      (* main.rs:124-125 *)
      | Drained => match asked with
                   | Some _ => if Nat.eqb (holders s) 0
                               then Some (State certified lost waiting latched accepting conns asked now (Some true))
                               else None
                   | None => None
                   end
      (* main.rs:124 and 126-128 *)
      | Timed_out => match asked with
                     | Some a => if now =? a + g_grace g
                                 then Some (State certified lost waiting latched accepting conns asked now (Some false))
                                 else None
                     | None => None
                     end
      end
  end.

(** A history *)
Fixpoint run (s : state) (es : list event) : option state :=
  match es with
  | [] => Some s
  | e :: es => match step s e with Some s => run s es | None => None end
  end.
End Life.
