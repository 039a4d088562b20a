(** linkerd/idle-cache/src/lib.rs: a cache whose unused values expire

    Keys and values are numbers: keys are only compared, values only copied.  Every event
    is a part of the program that other threads cannot interleave with: a lookup holds the
    lock, `Cached::drop` first notifies and then gives up its reference, and the eviction
    task first sees its timer expire and then takes the lock.  Not modelled: dropping the
    cache itself, and a runtime that is shut down. *)
From Coq Require Import List Arith NArith Bool.
Import ListNotations.

(** lib.rs:24-34: a key `K` *)
Definition key := nat.
(** lib.rs:24-34: a value `V` *)
Definition value := nat.
(** The entry's `handle`: [None] is permanent.  lib.rs:45-53 *)
Definition entry := (value * option nat)%type.
(** lib.rs:205-279: waiting for the first drop; waiting for the timer; about to take the
    lock; returned *)
Inductive task := Waiting | Timing (deadline : N) | Expired | Done.
(** An `Arc<Notify>` with its eviction task (spawn_idle, lib.rs:189-202): how many [Cached]
    hold it, how many are in the middle of `drop`, whether the `Notify` has a permit *)
Record handle := Handle { h_key : key; h_held : nat; h_dropping : nat; h_permit : bool; h_task : task }.
(** lib.rs:24-52: the map, the handles with their tasks, and the clock *)
Record state := State { now : N; entries : list (key * entry); handles : list handle }.
(** lib.rs:68-88: an empty cache *)
Definition init : state := State 0 [] [].

(** `HashMap::get` *)
Definition find_entry (k : key) (l : list (key * entry)) : option entry :=
  option_map snd (find (fun e => fst e =? k) l).
(** `HashMap::remove` *)
Definition remove_entry (k : key) (l : list (key * entry)) : list (key * entry) :=
  filter (fun e => negb (fst e =? k)) l.
(** `HashMap::insert` *)
Definition set_entry (k : key) (e : entry) (l : list (key * entry)) : list (key * entry) :=
  (k, e) :: remove_entry k l.
(** Helper: change one element of a list *)
Fixpoint update {A} (i : nat) (f : A -> A) (l : list A) {struct l} : list A :=
  match l, i with
  | [], _ => []
  | x :: l, 0 => f x :: l
  | x :: l, S i => x :: update i f l
  end.

(** What can happen to a cache: its methods (lib.rs:119-187), a [Cached] that is cloned (37-44) or dropped in two parts (397-403), and the steps of an eviction task (205-280) *)
Inductive event :=
| Tick (d : N)
| Get (k : key)                       (* the first half of `get_or_insert_with`, too *)
| Insert (k : key) (v : value)        (* its second half *)
| Permanent (k : key) (v : value)
| Clone (h : nat)                     (* of a [Cached] with this handle *)
| Drop (h : nat)
| Release (h : nat)                   (* the end of a `drop` *)
| Poll (h : nat)                      (* the eviction task is polled *)
| Lock (h : nat).                     (* it has the lock *)
Inductive output :=
| Nothing
| Got (e : option entry)              (* the [Cached] that a lookup returns *)
| Panicked
| Evicted (k : key).

(** The strong references: the [Cached]s and the task's own *)
Definition task_holds (t : task) : bool := match t with Done => false | _ => true end.
(** What `Arc::try_unwrap` compares with one, lib.rs:247 *)
Definition strong (x : handle) : nat := h_held x + h_dropping x + (if task_holds (h_task x) then 1 else 0).
(** lib.rs:290-303, 37-44: one more [Cached] with the handle *)
Definition acquire (x : handle) : handle := Handle (h_key x) (S (h_held x)) (h_dropping x) (h_permit x) (h_task x).
(** [CacheEntry::cached], lib.rs:290-303 *)
Definition cached (s : state) (e : entry) : state * output :=
  match snd e with
  | None => (s, Got (Some e))
  | Some h =>
      match nth_error (handles s) h with
      | Some x => if strong x =? 0 then (s, Panicked) (* `upgrade().expect(…)` *)
                  else (State (now s) (entries s) (update h acquire (handles s)), Got (Some e))
      | None => (s, Panicked)
      end
  end.
(** lib.rs:119-135 *)
Definition get (s : state) (k : key) : state * output :=
  match find_entry k (entries s) with Some e => cached s e | None => (s, Got None) end.
(** lib.rs:147-169 *)
Definition insert (s : state) (k : key) (v : value) : state * output :=
  match find_entry k (entries s) with
  | Some e => cached s e
  | None =>
      let h := length (handles s) in
      (State (now s) (set_entry k (v, Some h) (entries s)) (handles s ++ [Handle k 1 0 false Waiting]), Got (Some (v, Some h)))
  end.
(** lib.rs:174-187 *)
Definition insert_permanent (s : state) (k : key) (v : value) : state * output :=
  (State (now s) (set_entry k (v, None) (entries s)) (handles s), Nothing).
(** Helper: an event of one handle *)
Definition on_handle (s : state) (h : nat) (f : handle -> handle) : state * output :=
  (State (now s) (entries s) (update h f (handles s)), Nothing).
(** lib.rs:38 (derived), 337-342 *)
Definition clone (x : handle) : handle := match h_held x with 0 => x | _ => acquire x end.
(** lib.rs:397-403; `notify_one` leaves a permit. *)
Definition drop (x : handle) : handle :=
  match h_held x with 0 => x | S n => Handle (h_key x) n (S (h_dropping x)) true (h_task x) end.
(** lib.rs:397-403 after the notification: the reference goes *)
Definition release (x : handle) : handle := Handle (h_key x) (h_held x) (pred (h_dropping x)) (h_permit x) (h_task x).
(** lib.rs:213-236; a `continue` sleeps again *)
Definition poll (idle t : N) (x : handle) : handle :=
  match h_task x with
  | Waiting => if h_permit x then Handle (h_key x) (h_held x) (h_dropping x) false (Timing (t + idle)) else x
  | Timing d =>
      if h_permit x then Handle (h_key x) (h_held x) (h_dropping x) false (Timing (t + idle))
      else if (d <=? t)%N then Handle (h_key x) (h_held x) (h_dropping x) false Expired
      else x
  | Expired | Done => x
  end.
(** lib.rs:238-277 *)
Definition lock (idle : N) (s : state) (h : nat) : state * output :=
  match nth_error (handles s) h with
  | Some x =>
      match h_task x with
      | Expired =>
          if strong x =? 1 then
            let hs := update h (fun x => Handle (h_key x) (h_held x) (h_dropping x) (h_permit x) Done) (handles s) in
            match find_entry (h_key x) (entries s) with
            | Some (_, None) => (State (now s) (entries s) hs, Nothing)
            | Some (_, Some _) => (State (now s) (remove_entry (h_key x) (entries s)) hs, Evicted (h_key x))
            | None => (State (now s) (entries s) hs, Panicked) (* `debug_assert!` *)
            end
          else on_handle s h (fun x => Handle (h_key x) (h_held x) (h_dropping x) (h_permit x) (Timing (now s + idle)))
      | _ => (s, Nothing)
      end
  | None => (s, Nothing)
  end.
(** lib.rs:119-280 and 397-403, one event *)
Definition step (idle : N) (s : state) (e : event) : state * output :=
  match e with
  | Tick d => (State (now s + d) (entries s) (handles s), Nothing)
  | Get k => get s k
  | Insert k v => insert s k v
  | Permanent k v => insert_permanent s k v
  | Clone h => on_handle s h clone
  | Drop h => on_handle s h drop
  | Release h => on_handle s h release
  | Poll h => on_handle s h (poll idle (now s))
  | Lock h => lock idle s h
  end.
(** A history of a cache; not code of its own *)
Fixpoint run (idle : N) (s : state) (es : list event) : state * list (event * output) :=
  match es with
  | [] => (s, [])
  | e :: es => let (s, o) := step idle s e in let (s, tr) := run idle s es in (s, (e, o) :: tr)
  end.
(** What happened, from an empty cache *)
Definition trace (idle : N) (es : list event) : list (event * output) := snd (run idle init es).
