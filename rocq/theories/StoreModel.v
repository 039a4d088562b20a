(** Model of linkerd/metrics/src/store.rs and new_metrics.rs, with the reports of
    linkerd/http/metrics/src/requests/report.rs and linkerd/transport-metrics/src/report.rs:
    the metrics of many targets, shared by those that record and the reports

    A metric is one number that is added to (the counters are in ReqMetricsModel.v and
    ConnMetricsModel.v), with the time of its last update.  A report reads all of them
    at once; in the code each kind of metric is read on its own, while others may record.
    The order of a `HashMap`'s entries is that of the list here. *)
From Coq Require Import List NArith Bool Arith.
Import ListNotations.
Open Scope N_scope.

(** What an `Arc<V>` refers to; `LastUpdate` (store.rs:12-14) reads [updated] *)
Record cell := Cell { recorded : N; updated : N }.
(** The allocations, in their order; the store's entries (store.rs:18-24), each with the number of its allocation;
    and the handles given out, in their order: [None] after its drop *)
Record state := State { cells : list cell; entries : list (N * nat); handles : list (option nat) }.
(** store.rs:118-127 *)
Definition init : state := State [] [] [].

(** What can happen *)
Inductive input :=
| Get (k : N) (t : N)               (** new_metrics.rs:54-59; transport-metrics/src/lib.rs:79-81 *)
| Copy (h : nat)                    (** `Arc::clone` *)
| Drop (h : nat)
| Record_ (h : nat) (n : N) (t : N) (** the holder records *)
| Report (t : N).                   (** requests/report.rs:115-145; transport-metrics/src/report.rs:52-76 *)

(** `HashMap::get` *)
Definition lookup (l : list (N * nat)) (k : N) : option nat := option_map snd (find (fun e => fst e =? k) l).
(** Is this `Option` that number *)
Definition is_arc (a : nat) (h : option nat) : bool := match h with Some b => Nat.eqb b a | None => false end.
(** `Arc::strong_count` *)
Definition strong_count (s : state) (a : nat) : nat :=
  (length (filter (fun e => Nat.eqb (snd e) a) (entries s)) + length (filter (is_arc a) (handles s)))%nat.
(** Helper: change one element of a list *)
Fixpoint set_nth {A} (i : nat) (x : A) (l : list A) : list A :=
  match l, i with
  | [], _ => []
  | _ :: l, O => x :: l
  | y :: l, S i => y :: set_nth i x l
  end.
(** store.rs:54-59, with `V::default()` (requests.rs:95-103) at this time *)
Definition get_or_default (s : state) (k t : N) : state * nat :=
  match lookup (entries s) k with
  | Some a => (s, a)
  | None => (State (cells s ++ [Cell 0 t]) (entries s ++ [(k, length (cells s))]) (handles s), length (cells s))
  end.
(** The cell of an allocation *)
Definition cell_of (s : state) (a : nat) : cell := nth a (cells s) (Cell 0 0).
(** store.rs:65-71 *)
Definition retain_since (s : state) (epoch : N) : state :=
  State (cells s)
    (filter (fun e => Nat.ltb 1 (strong_count s (snd e)) || (epoch <=? updated (cell_of s (snd e)))) (entries s))
    (handles s).
(** requests/report.rs:49-61, 130: what is written *)
Definition written (s : state) : list (N * N) := map (fun e => (fst e, recorded (cell_of s (snd e)))) (entries s).

(** One operation, and its report if it is one; [None]: there is no such handle.
    `Instant::now() - self.retain_idle`, requests/report.rs:142, is at least the first time there is. *)
Definition step (retain_idle : N) (s : state) (i : input) : option (state * option (list (N * N))) :=
  match i with
  | Get k t => let (s, a) := get_or_default s k t in Some (State (cells s) (entries s) (handles s ++ [Some a]), None)
  | Copy h =>
      match nth_error (handles s) h with
      | Some (Some a) => Some (State (cells s) (entries s) (handles s ++ [Some a]), None)
      | _ => None
      end
  | Drop h =>
      match nth_error (handles s) h with
      | Some (Some a) => Some (State (cells s) (entries s) (set_nth h None (handles s)), None)
      | _ => None
      end
  | Record_ h n t =>
      match nth_error (handles s) h with
      | Some (Some a) => Some (State (set_nth a (Cell (recorded (cell_of s a) + n) t) (cells s)) (entries s) (handles s), None)
      | _ => None
      end
  | Report t => Some (retain_since s (t - retain_idle), Some (written s))
  end.
(** The operations and the reports they gave; not code of its own *)
Inductive run (retain_idle : N) : list input -> list (list (N * N)) -> state -> Prop :=
| run_init : run retain_idle [] [] init
| run_step : forall l rs s i s' r, run retain_idle l rs s -> step retain_idle s i = Some (s', r) ->
    run retain_idle (l ++ [i]) (rs ++ match r with Some r => [r] | None => [] end) s'.
