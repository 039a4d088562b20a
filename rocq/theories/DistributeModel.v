(** Model of linkerd/distribute and of linkerd/router/src/cache.rs *)
From Coq Require Import List Arith NArith Bool.
Import ListNotations.

(** What a backend answers to `poll_ready` *)
Inductive readiness := Is_ready | Is_pending | Is_failed.

(** ** `WeightedIndex<u32>`, of the crate rand: a list of weights *)
Definition u32_max : N := 4294967295.
(** `WeightedIndex`'s total weight *)
Definition sum (ws : list N) : N := fold_right N.add 0%N ws.
(** rand's `WeightedError`, as far as keys.rs:135-162 can get it *)
Inductive weighted_error := Invalid_input | Insufficient_non_zero | Overflow.
(** `WeightedIndex::new`: the sum is checked as it goes *)
Definition weighted_index (ws : list N) : list N + weighted_error :=
  match ws with
  | [] => inr Invalid_input
  | _ => if (u32_max <? sum ws)%N then inr Overflow
         else if (sum ws =? 0)%N then inr Insufficient_non_zero
         else inl ws
  end.
(** `sample`: the first whose cumulative weight exceeds the number [r] that was drawn,
    below the sum; the last if there is none. *)
Fixpoint sample (ws : list N) (r : N) : nat :=
  match ws with
  | [] => 0
  | [_] => 0
  | w :: ws => if (r <? w)%N then 0 else S (sample ws (r - w))
  end.
(** `WeightedIndex::update_weights` of one index, keys.rs:160-162 *)
Fixpoint set_weight (ws : list N) (i : nat) (w : N) : list N :=
  match ws, i with
  | [], _ => []
  | _ :: ws, 0 => w :: ws
  | x :: ws, S i => x :: set_weight ws i w
  end.
(** `update_weights`, and keys.rs:156-158: [None] is `InsufficientNonZero`. *)
Definition disable_backend (ws : list N) (i : nat) : option (list N) :=
  let ws := set_weight ws i 0 in
  if (sum ws =? 0)%N then None else Some ws.

(** ** params.rs:16-27 *)
Inductive distribution (K : Type) :=
| Empty
| First_available (keys : list K)
| Random_available (keys : list (K * N)).
Arguments Empty {K}. Arguments First_available {K}. Arguments Random_available {K}.
(** params.rs:65-72 *)
Definition first_available {K} (keys : list K) : distribution K :=
  match keys with [] => Empty | _ => First_available keys end.
(** params.rs:74-88 *)
Definition random_available {K} (keys : list (K * N)) : distribution K + weighted_error :=
  if length keys <? 2 then inl (First_available (map fst keys))
  else match weighted_index (map snd keys) with
       | inr e => inr e
       | inl _ => inl (Random_available keys)
       end.

(** What the outbound proxy makes of a route's backends: [None] when it panics.
    app/outbound/src/http/logical/policy/router.rs:205-218 and the like in
    opaq/logical/router.rs and tls/logical/router.rs; the lists are not empty
    (client-policy/src/http.rs:437-439). *)
Definition random_route {K} (keys : list (K * N)) : option (distribution K) :=
  match random_available keys with inl d => Some d | inr _ => None end.

(** ** service.rs *)

(** What is seen: a backend is polled; `poll_ready` returns; `call` passes a request to a
    backend, or panics; `poll_ready` panics. *)
Inductive seen := Polled (i : nat) (r : readiness) | Answered (r : readiness) | Sent (i : nat) | Panicked
| Poll_panicked.
(** service.rs:13-24, with first.rs:6-13 and random.rs:11-21: the backends are known by
    their place in the list. *)
Record service := Service { d_selection : distribution unit; d_ready : option nat; d_log : list seen }.

(** first.rs:60-66: from the backend at [i] on; [rs] tells what each answers now *)
Fixpoint poll_first (keys : list unit) (rs : nat -> readiness) (i : nat) : list seen * option nat :=
  match keys with
  | [] => ([Answered Is_pending], None)
  | _ :: keys =>
      match rs i with
      | Is_ready => ([Polled i Is_ready; Answered Is_ready], Some i)
      | Is_failed => ([Polled i Is_failed; Answered Is_failed], None)
      | Is_pending => let (l, x) := poll_first keys rs (S i) in (Polled i Is_pending :: l, x)
      end
  end.
(** random.rs:77-104; [draws n] is the n-th number that is drawn. The loop ends within
    [fuel] rounds; [Poll_panicked] otherwise. *)
Fixpoint poll_random (fuel : nat) (ws : list N) (rs : nat -> readiness) (draws : nat -> N) (n : nat) : list seen * option nat :=
  match fuel with
  | 0 => ([Poll_panicked], None)
  | S fuel =>
      let i := sample ws (draws n mod sum ws) in
      match rs i with
      | Is_ready => ([Polled i Is_ready; Answered Is_ready], Some i)
      | Is_failed => ([Polled i Is_failed; Answered Is_failed], None)
      | Is_pending =>
          match disable_backend ws i with
          | None => ([Polled i Is_pending; Answered Is_pending], None)
          | Some ws => let (l, x) := poll_random fuel ws rs draws (S n) in (Polled i Is_pending :: l, x)
          end
      end
  end.
(** service.rs:68-77, first.rs:54-69, random.rs:71-108.  `selector` panics when the weights
    are not valid. *)
Definition poll_ready (s : service) (rs : nat -> readiness) (draws : nat -> N) : service :=
  match d_selection s, d_ready s with
  | Empty, r => Service (d_selection s) r (d_log s ++ [Answered Is_pending])
  | _, Some i => Service (d_selection s) (Some i) (d_log s ++ [Answered Is_ready])
  | First_available keys, None =>
      let (l, r) := poll_first keys rs 0 in Service (d_selection s) r (d_log s ++ l)
  | Random_available keys, None =>
      let (l, r) :=
        match weighted_index (map snd keys) with
        | inr _ => ([Poll_panicked], None)
        | inl ws => poll_random (length ws) ws rs draws 0
        end in Service (d_selection s) r (d_log s ++ l)
  end.
(** service.rs:79-85, first.rs:71-80, random.rs:110-119 *)
Definition call (s : service) : service :=
  match d_selection s, d_ready s with
  | Empty, r => Service (d_selection s) r (d_log s ++ [Panicked])
  | _, None => Service (d_selection s) None (d_log s ++ [Panicked])
  | _, Some i => Service (d_selection s) None (d_log s ++ [Sent i])
  end.
(** service.rs:28-54; the keys only matter to find the backends: stack.rs:51-57.  A clone
    is a service of its own and starts like this: first.rs:35-43, random.rs:49-59. *)
Definition forget {K} (d : distribution K) : distribution unit :=
  match d with
  | Empty => Empty
  | First_available keys => First_available (map (fun _ => tt) keys)
  | Random_available keys => Random_available (map (fun k => (tt, snd k)) keys)
  end.
(** service.rs:28-54 with stack.rs:56-62 *)
Definition new {K} (d : distribution K) : service := Service (forget d) None [].
(** What is done with a distribution: service.rs:70-88 *)
Inductive event := Poll (rs : nat -> readiness) (draws : nat -> N) | Call.
(** service.rs:70-88 *)
Definition handle (s : service) (e : event) : service :=
  match e with Poll rs draws => poll_ready s rs draws | Call => call s end.
(** A history of a distribution; not code of its own *)
Definition run {K} (d : distribution K) (es : list event) : service := fold_left handle es (new d).

(** ** cache.rs *)
Section Cache.
  Variable K : Type.
  Variable eqb : K -> K -> bool.
  (** A service is known by when it was built. *)
  Record cache := Cache { c_services : list (K * nat); c_built : nat }.
  (** `AHashMap::get`, cache.rs:113-119 and router/src/cache.rs:78-85 *)
  Definition lookup (c : list (K * nat)) (k : K) : option nat :=
    option_map snd (find (fun e => eqb (fst e) k) c).
  (** `AHashSet::contains`, cache.rs:56-92 *)
  Definition contains (l : list K) (k : K) : bool := existsb (eqb k) l.
  (** lines 76-85 *)
  Fixpoint add_missing (backends : list K) (c : cache) : cache :=
    match backends with
    | [] => c
    | k :: backends =>
        add_missing backends
          (match lookup (c_services c) k with
           | Some _ => c
           | None => Cache ((k, c_built c) :: c_services c) (S (c_built c))
           end)
    end.
  (** cache.rs:56-91; the set of backends is a list without duplicates.  The result is what
      the [BackendCache] is made of. *)
  Definition new_service (c : cache) (backends : list K) : cache :=
    let c := Cache (filter (fun e => contains backends (fst e)) (c_services c)) (c_built c) in
    if length (c_services c) <? length backends then add_missing backends c else c.
  (** router/src/cache.rs:78-84 *)
  Definition get_or_build (c : cache) (k : K) : nat * cache :=
    match lookup (c_services c) k with
    | Some s => (s, c)
    | None => (c_built c, Cache ((k, c_built c) :: c_services c) (S (c_built c)))
    end.
  (** A sequence of updates, from the empty cache (cache.rs:26-33) *)
  Definition update_all (us : list (list K)) : cache := fold_left new_service us (Cache [] 0).
  (** A sequence of requests through the router (router/src/cache.rs:61-84): the service of each *)
  Definition get_all (ks : list K) : cache * list nat :=
    fold_left (fun (cl : cache * list nat) k => let (s, c) := get_or_build (fst cl) k in (c, snd cl ++ [s])) ks (Cache [] 0, []).
End Cache.
Arguments Cache {K}. Arguments c_services {K}. Arguments c_built {K}.
