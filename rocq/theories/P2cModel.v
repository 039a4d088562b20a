(** Model of the balancer's pool of endpoints (linkerd/pool/p2c/src/lib.rs), which its worker
    (linkerd/proxy/balance/queue/src/worker.rs) tells what was discovered.  Addresses and targets
    are numbers; services are numbered as they are built. *)
From Coq Require Import List Arith NArith ZArith Bool.
From Verif Require RecoverModel.
Import ListNotations.

(** A service that `new_endpoint.new_service((addr, target))` built, lib.rs:157, 194 *)
Record svc := Svc { sid : nat; s_addr : N; s_target : N }.

(** tower's `ReadyCache` (not in /repo, tower 0.5 src/ready_cache/cache.rs): services that are ready,
    in an `IndexMap`; services that are pending, in no order.  Both are keyed by address. *)
Definition at_addr (a : N) (v : svc) : bool := (s_addr v =? a)%N.
(** `IndexMap::insert`: in place if the key is there, or else at the end *)
Fixpoint ready_insert (v : svc) (l : list svc) : list svc :=
  match l with
  | [] => [v]
  | w :: l => if at_addr (s_addr v) w then v :: l else w :: ready_insert v l
  end.
(** Helper: change one element of a list *)
Fixpoint set_nth {A} (i : nat) (x : A) (l : list A) : list A :=
  match l, i with
  | [], _ => []
  | _ :: l, 0 => x :: l
  | y :: l, S i => y :: set_nth i x l
  end.
(** `IndexMap::swap_remove_index`: the last takes the place of the one that is removed *)
Definition swap_remove (i : nat) (l : list svc) : list svc :=
  match rev l with
  | [] => []
  | z :: _ => if S i =? length l then removelast l else if i <? length l then set_nth i z (removelast l) else l
  end.
(** `IndexMap::get_index_of` *)
Fixpoint index_of (a : N) (l : list svc) : option nat :=
  match l with
  | [] => None
  | v :: l => if at_addr a v then Some 0 else option_map S (index_of a l)
  end.
(** `ReadyCache::evict`, the part for ready services: `swap_remove` *)
Definition ready_evict (a : N) (l : list svc) : list svc :=
  match index_of a l with Some i => swap_remove i l | None => l end.
(** `push`: a pending service for the same address is cancelled *)
Definition pending_drop (a : N) (l : list svc) : list svc := filter (fun v => negb (at_addr a v)) l.
(** `ReadyCache::push` *)
Definition pending_push (v : svc) (l : list svc) : list svc := v :: pending_drop (s_addr v) l.
(** A service that was ready goes back to be pending, unless a newer one for its address is *)
Definition pending_back (v : svc) (l : list svc) : list svc := if existsb (at_addr (s_addr v)) l then l else v :: l.

(** lib.rs:28-35.  `made`: how many services were built.  `failed`: an endpoint's readiness failed, so that
    the worker ends (worker.rs:90-93, 107-112) and nothing more happens. *)
Record state := State {
  endpoints : list (N * N); ready : list svc; pending : list svc; next_idx : option nat;
  gauge : Z; made : nat; failed : bool }.
(** lib.rs:78-88 *)
Definition init : state := State [] [] [] None 0 0 false.

(** `AHashMap` *)
Definition get (a : N) (m : list (N * N)) : option N := option_map snd (find (fun e => (fst e =? a)%N) m).
(** `AHashMap::remove` *)
Definition del (a : N) (m : list (N * N)) : list (N * N) := filter (fun e => negb (fst e =? a)%N) m.
(** `AHashMap::insert` *)
Definition put (a t : N) (m : list (N * N)) : list (N * N) := (a, t) :: del a m.

(** lib.rs:147-148, 180: the known target, if any, equals the new one *)
Definition same (o : option N) (t : N) : bool := match o with Some x => (x =? t)%N | None => false end.
(** lib.rs:146-163.  [rest]: `remaining`; [b]: the services that are built. *)
Fixpoint reset_loop (l : list (N * N)) (rest eps : list (N * N)) (p : list svc) (n : nat) (changed : bool)
  : list (N * N) * list (N * N) * list svc * list svc * bool :=
  match l with
  | [] => (rest, eps, p, [], changed)
  | (a, t) :: l =>
      if same (get a rest) t then reset_loop l (del a rest) (put a t eps) p n changed
      else
        let v := Svc n a t in
        match reset_loop l (del a rest) (put a t eps) (pending_push v p) (S n) true with
        | (rest, eps, p, b, c) => (rest, eps, p, v :: b, c)
        end
  end.
(** lib.rs:143-176.  A hash map drains in some order; here, in that of the list.  The order only
    matters for the indices of ready services. *)
Definition reset_pool (s : state) (l : list (N * N)) : state * list svc :=
  match reset_loop l (endpoints s) [] (pending s) (made s) false with
  | (rest, eps, p, b, c) =>
      let r := fold_left (fun r e => ready_evict (fst e) r) rest (ready s) in
      let p := fold_left (fun p e => pending_drop (fst e) p) rest p in
      let c := c || match rest with [] => false | _ => true end in
      (State eps r p (if c then None else next_idx s) (if c then Z.of_nat (length eps) else gauge s) (made s + length b) (failed s), b)
  end.
(** lib.rs:178-197 *)
Definition add_endpoint (s : state) (e : N * N) : state * list svc :=
  let (a, t) := e in
  if same (get a (endpoints s)) t then (s, [])
  else
    let v := Svc (made s) a t in
    let g := match get a (endpoints s) with Some _ => gauge s | None => (gauge s + 1)%Z end in
    (State (put a t (endpoints s)) (ready s) (pending_push v (pending s)) (next_idx s) g (S (made s)) (failed s), [v]).
(** lib.rs:199-210 *)
Definition remove_endpoint (s : state) (a : N) : state :=
  match get a (endpoints s) with
  | None => s
  | Some _ => State (del a (endpoints s)) (ready_evict a (ready s)) (pending_drop a (pending s)) None (gauge s - 1) (made s) (failed s)
  end.
(** worker.rs:171-175, 209-213: every endpoint of an `Add` *)
Fixpoint add_all (s : state) (l : list (N * N)) : state * list svc :=
  match l with
  | [] => (s, [])
  | e :: l => let (s1, b1) := add_endpoint s e in let (s2, b2) := add_all s1 l in (s2, b1 ++ b2)
  end.
(** worker.rs:167-184 and 205-222 *)
Definition on_update (s : state) (u : RecoverModel.update) : state * list svc :=
  match u with
  | RecoverModel.Reset l => reset_pool s l
  | RecoverModel.Add l => add_all s l
  | RecoverModel.Remove l => (fold_left remove_endpoint l s, [])
  | RecoverModel.Does_not_exist => reset_pool s []
  end.

(** lib.rs:119-132.  [da] is drawn from 0..len and [db] from 0..len-1. *)
Definition gen_pair (da db : nat) : nat * nat := (da, if da <=? db then S db else db).
(** lib.rs:90-110; [load]: the loads at that time (only ever compared). *)
Definition p2c_ready_index (r : list svc) (da db : nat) (load : svc -> N) : option nat :=
  match r with
  | [] => None
  | [_] => Some 0
  | d :: _ =>
      let (i, j) := gen_pair da db in
      Some (if (load (nth i r d) <=? load (nth j r d))%N then i else j)
  end.

(** What `ReadyCache::check_ready_index` finds of a ready service, lib.rs:262 *)
Inductive answer := Is_ready | Is_pending | Is_error.
(** What can happen to a pool *)
Inductive input :=
| Update (u : RecoverModel.update)
| Become_ready (a : N)           (** `poll_pending` finds a pending service to be ready (lib.rs:220, 248) *)
| Become_failed (a : N)          (** or to have failed *)
| Poll (da db : nat) (load : svc -> N) (an : answer)  (** the rest of an iteration of `poll_ready`, lib.rs:253-269 *)
| Call (req : nat).              (** lib.rs:273-276 *)
(** What is seen of it *)
Inductive event :=
| Updated (u : RecoverModel.update) (built : list svc)
| Became_ready (v : svc)
| Failed (v : svc)
| None_ready
| Answered (v : svc) (an : answer)
| Sent (req : nat) (v : svc).
(** A step; [Panic]: an index out of range (lib.rs:262, 275) or `expect` (274); [Impossible]: the input cannot come now *)
Inductive outcome := Next (s : state) (e : event) | Panic | Impossible.

(** lib.rs:143-276, one step *)
Definition step (s : state) (i : input) : outcome :=
  if failed s then Impossible
  else match i with
  | Update u => let (s', b) := on_update s u in Next s' (Updated u b)
  | Become_ready a =>
      match find (at_addr a) (pending s) with
      | Some v => Next (State (endpoints s) (ready_insert v (ready s)) (pending_drop a (pending s)) (next_idx s) (gauge s) (made s) false) (Became_ready v)
      | None => Impossible
      end
  | Become_failed a =>
      match find (at_addr a) (pending s) with
      | Some v => Next (State (endpoints s) (ready s) (pending_drop a (pending s)) (next_idx s) (gauge s) (made s) true) (Failed v)
      | None => Impossible
      end
  | Poll da db load an =>
      let n := length (ready s) in
      if negb (da <? n) && (1 <? n) || negb (S db <? n) && (1 <? n) then Impossible
      else match (match next_idx s with Some i => Some i | None => p2c_ready_index (ready s) da db load end) with
      | None => Next s None_ready
      | Some i =>
          match nth_error (ready s) i with
          | None => Panic
          | Some v =>
              match an with
              | Is_ready => Next (State (endpoints s) (ready s) (pending s) (Some i) (gauge s) (made s) false) (Answered v an)
              | Is_pending => Next (State (endpoints s) (swap_remove i (ready s)) (pending_back v (pending s)) None (gauge s) (made s) false) (Answered v an)
              | Is_error => Next (State (endpoints s) (swap_remove i (ready s)) (pending s) None (gauge s) (made s) true) (Answered v an)
              end
          end
      end
  | Call r =>
      match next_idx s with
      | None => Panic
      | Some i =>
          match nth_error (ready s) i with
          | None => Panic
          | Some v => Next (State (endpoints s) (swap_remove i (ready s)) (pending_back v (pending s)) None (gauge s) (made s) false) (Sent r v)
          end
      end
  end.
(** The runs from an empty pool; not code of its own *)
Inductive run : list event -> state -> Prop :=
| run_init : run [] init
| run_step : forall l s i s' e, run l s -> step s i = Next s' e -> run (l ++ [e]) s'.
