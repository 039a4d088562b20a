(** Model of linkerd/proxy/balance/gauge-endpoints/src/lib.rs: the gauges of ready and of
    pending endpoints, which all endpoints of a balancer share *)
From Coq Require Import List Arith ZArith Bool.
Import ListNotations.

(** What the inner service says when it is polled (lib.rs:142) *)
Inductive answer := Ready | Pending | Error.
(** lib.rs:28-32: `Poll<()>` in the field `state` of `GaugeBalancerEndpoint` *)
Inductive known := Known_ready | Known_pending.
(** lib.rs:28-32, and the shared gauges.  Endpoints are numbered as they are made; [None]: dropped. *)
Record state := State { endpoints : list (option (option known)); g_ready : Z; g_pending : Z }.
(** lib.rs:20-24: no endpoints yet *)
Definition init : state := State [] 0 0.

(** lib.rs:141-165: what happens to `state` and how the gauges change *)
Definition poll_ready (s : option known) (a : answer) : option known * Z * Z :=
  match s, a with
  | Some Known_ready, Pending => (Some Known_pending, -1, 1)%Z
  | Some Known_pending, Ready => (Some Known_ready, 1, -1)%Z
  | None, Pending => (Some Known_pending, 0, 1)%Z
  | None, Ready => (Some Known_ready, 1, 0)%Z
  | _, _ => (s, 0, 0)%Z
  end.
(** lib.rs:173-183 *)
Definition on_drop (s : option known) : Z * Z :=
  match s with
  | Some Known_ready => (-1, 0)%Z
  | Some Known_pending => (0, -1)%Z
  | None => (0, 0)%Z
  end.

(** What happens to endpoints: lib.rs:120, 141, 174 *)
Inductive op := New | Poll (i : nat) (a : answer) | Drop (i : nat).
(** The endpoint i is now x (`&mut self` of lib.rs:141, 174) *)
Fixpoint set (i : nat) (x : option (option known)) (l : list (option (option known))) : list (option (option known)) :=
  match l, i with
  | [], _ => []
  | _ :: l, 0 => x :: l
  | y :: l, S i => y :: set i x l
  end.
(** [None]: there is no such endpoint.  `new_service`: lib.rs:120-128. *)
Definition step (s : state) (o : op) : option state :=
  match o with
  | New => Some (State (endpoints s ++ [Some None]) (g_ready s) (g_pending s))
  | Poll i a =>
      match nth_error (endpoints s) i with
      | Some (Some k) =>
          match poll_ready k a with
          | (k', r, p) => Some (State (set i (Some k') (endpoints s)) (g_ready s + r) (g_pending s + p))
          end
      | _ => None
      end
  | Drop i =>
      match nth_error (endpoints s) i with
      | Some (Some k) =>
          match on_drop k with
          | (r, p) => Some (State (set i None (endpoints s)) (g_ready s + r) (g_pending s + p))
          end
      | _ => None
      end
  end.
(** All that can happen, in any order *)
Inductive run : list op -> state -> Prop :=
| run_init : run [] init
| run_step : forall l s o s', run l s -> step s o = Some s' -> run (l ++ [o]) s'.
