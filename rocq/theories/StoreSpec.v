(** What a store of metrics should do, without allocations: for each key, what was recorded and when *)
From Coq Require Import List NArith Bool Arith.
From Verif Require Import StoreModel.
Import ListNotations.
Open Scope N_scope.

(** For each key: what was recorded, and when last; the key of each handle that is held *)
Record table := Table { known : N -> option (N * N); held : list (option N) }.
Definition empty : table := Table (fun _ => None) [].
Definition set (f : N -> option (N * N)) (k : N) (v : option (N * N)) : N -> option (N * N) := fun k' => if k' =? k then v else f k'.
(** Someone holds a handle of this key *)
Definition in_use (s : table) (k : N) : bool := existsb (fun o => match o with Some k' => k' =? k | None => false end) (held s).
Definition key_of (s : table) (h : nat) : option N := match nth_error (held s) h with Some (Some k) => Some k | _ => None end.

Definition next (retain_idle : N) (s : table) (i : input) : table :=
  match i with
  | Get k t => Table (match known s k with Some _ => known s | None => set (known s) k (Some (0, t)) end) (held s ++ [Some k])
  | Copy h => Table (known s) (held s ++ [key_of s h])
  | Drop h => Table (known s) (firstn h (held s) ++ None :: skipn (S h) (held s))
  | Record_ h n t =>
      match key_of s h with
      | Some k => Table (match known s k with Some (m, _) => set (known s) k (Some (m + n, t)) | None => known s end) (held s)
      | None => s
      end
  | Report t =>
      Table (fun k => match known s k with
                      | Some (m, u) => if in_use s k || (t <=? u + retain_idle) then Some (m, u) else None
                      | None => None
                      end) (held s)
  end.
Definition after (retain_idle : N) (l : list input) : table := fold_left (next retain_idle) l empty.

(** A report says this: one entry for each key that is known *)
Definition says (r : list (N * N)) (s : table) : Prop :=
  NoDup (map fst r) /\ forall k n, In (k, n) r <-> exists u, known s k = Some (n, u).

(** What these operations record for a key, if it is always in use *)
Fixpoint added (retain_idle : N) (s : table) (l : list input) (k : N) : N :=
  match l with
  | [] => 0
  | i :: l =>
      (match i with Record_ h n _ => match key_of s h with Some k' => if k' =? k then n else 0 | None => 0 end | _ => 0 end)
      + added retain_idle (next retain_idle s i) l k
  end.
Fixpoint always_in_use (retain_idle : N) (s : table) (l : list input) (k : N) : bool :=
  in_use s k && match l with [] => true | i :: l => always_in_use retain_idle (next retain_idle s i) l k end.
