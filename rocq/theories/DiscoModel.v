(** Model of linkerd/app/core/src/disco_cache.rs: services that are made from the answer of a discovery, which is shared by all
    the services of a key and kept until no service has used it for the idle timeout.
    The cache is that of idle-cache/src/lib.rs, of which C26 has a model with all its steps; here it is taken as it behaves
    when its task is prompt: an entry goes away, in one step, when no handle is left and none was dropped for the idle timeout.
    The queue of a discovery (stack/src/queue.rs:190-199, tower's `Buffer`) is there to share it between the services: it gives each the
    answer, or the error.  The discovery begins when the entry is made; in the code it begins at the first poll of a service.
    Keys, what is discovered, and errors are numbers. *)
From Coq Require Import List Arith NArith Bool.
Import ListNotations.

(** What a discovery answers *)
Inductive answer := Found (v : nat) | Failed (e : nat).
(** disco_cache.rs:52-62: a discovery, by its key and its answer if it has one.  `ThunkClone` gives a copy of it each time. *)
Record thunk := Thunk { t_key : nat; t_answer : option answer }.
(** disco_cache.rs:30-50: a service that waits for the discovery, was made from what was found, or failed *)
Inductive phase := Waits | Made (v : nat) | Broke (e : nat).
(** A service, with the discovery whose handle it has, and whether it was dropped *)
Record service := Service { s_thunk : nat; s_phase : phase; s_dropped : bool }.
(** An entry of the cache: its discovery, and when a handle of it was last dropped *)
Record entry := Entry { e_thunk : nat; e_last : N }.
(** All there is *)
Record state := State { now : N; entries : list (nat * entry); thunks : list thunk; services : list service }.
(** disco_cache.rs:83-92 *)
Definition init : state := State 0 [] [] [].

(** What can happen *)
Inductive event :=
| Ticks (d : N)
| New (k : nat)                   (* a service is made *)
| Answers (t : nat) (a : answer)  (* a discovery is answered *)
| Polls (i : nat)                 (* a service is polled *)
| Drops (i : nat)                 (* a service is dropped *)
| Evicts (k : nat).               (* an entry goes away *)

(** `HashMap::get` *)
Definition find_entry (k : nat) (l : list (nat * entry)) : option entry :=
  option_map snd (find (fun e => fst e =? k) l).
(** `HashMap::remove` *)
Definition remove_entry (k : nat) (l : list (nat * entry)) : list (nat * entry) :=
  filter (fun e => negb (fst e =? k)) l.
(** Helper: replaces the element at a place *)
Fixpoint set {A} (l : list A) (i : nat) (x : A) : list A :=
  match l, i with
  | [], _ => []
  | _ :: l, 0 => x :: l
  | y :: l, S i => y :: set l i x
  end.
(** Whether a service has a handle of the discovery *)
Definition holds (t : nat) (s : service) : bool := (s_thunk s =? t) && negb (s_dropped s).

(** disco_cache.rs:111-121, with idle-cache/src/new_service.rs:41-44 and disco_cache.rs:134-137: the entry of the key, or a new one with its discovery *)
Definition new_service (s : state) (k : nat) : state :=
  match find_entry k (entries s) with
  | Some e => State (now s) (entries s) (thunks s) (services s ++ [Service (e_thunk e) Waits false])
  | None =>
      let t := length (thunks s) in
      State (now s) ((k, Entry t (now s)) :: entries s) (thunks s ++ [Thunk k None]) (services s ++ [Service t Waits false])
  end.
(** disco_cache.rs:149-158, in a `FutureService`: the service is made from what was found, and keeps a handle *)
Definition poll (a : option answer) (p : phase) : phase :=
  match p, a with
  | Waits, Some (Found v) => Made v
  | Waits, Some (Failed e) => Broke e
  | _, _ => p
  end.
(** One event, if it can happen *)
Definition step (idle : N) (s : state) (e : event) : option state :=
  match e with
  | Ticks d => Some (State (now s + d) (entries s) (thunks s) (services s))
  | New k => Some (new_service s k)
  | Answers t a =>
      match nth_error (thunks s) t with
      | Some (Thunk k None) =>
          match find_entry k (entries s) with
          | Some e => if e_thunk e =? t then Some (State (now s) (entries s) (set (thunks s) t (Thunk k (Some a))) (services s)) else None
          | None => None
          end
      | _ => None
      end
  | Polls i =>
      match nth_error (services s) i with
      | Some (Service t p false) =>
          match nth_error (thunks s) t with
          | Some th => Some (State (now s) (entries s) (thunks s) (set (services s) i (Service t (poll (t_answer th) p) false)))
          | None => None
          end
      | _ => None
      end
  | Drops i =>
      match nth_error (services s) i with
      | Some (Service t p false) =>
          Some (State (now s)
            (map (fun e => if e_thunk (snd e) =? t then (fst e, Entry t (now s)) else e) (entries s))
            (thunks s) (set (services s) i (Service t p true)))
      | _ => None
      end
  | Evicts k =>
      match find_entry k (entries s) with
      | Some e =>
          if (e_last e + idle <=? now s)%N && negb (existsb (holds (e_thunk e)) (services s))
          then Some (State (now s) (remove_entry k (entries s)) (thunks s) (services s))
          else None
      | None => None
      end
  end.
(** All that happens *)
Fixpoint run (idle : N) (s : state) (h : list event) : option state :=
  match h with
  | [] => Some s
  | e :: h => match step idle s e with Some s => run idle s h | None => None end
  end.
