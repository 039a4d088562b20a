(** Specification for C12, C13 and C47. *)
From Coq Require Import List NArith.
From Verif Require Import Bytes ReplayModel.
Import ListNotations.
Open Scope N_scope.

(** What a body consists of: the data before the trailers, and the trailers. *)
Fixpoint body_data (b : body) : bytes :=
  match b with
  | [] => []
  | IData d :: r => d ++ body_data r
  | ITrailers _ :: _ => []
  | _ :: r => body_data r
  end.
Fixpoint body_trailers (b : body) : option hmap :=
  match b with
  | [] => None
  | ITrailers t :: _ => Some t
  | _ :: r => body_trailers r
  end.

(** What handle [i] was given. *)
Fixpoint data_of (i : nat) (t : list event) : bytes :=
  match t with
  | [] => []
  | (j, PData d) :: r => if Nat.eqb i j then d ++ data_of i r else data_of i r
  | _ :: r => data_of i r
  end.
Fixpoint trailers_of (i : nat) (t : list event) : list hmap :=
  match t with
  | [] => []
  | (j, PTrailers d) :: r => if Nat.eqb i j then d :: trailers_of i r else trailers_of i r
  | _ :: r => trailers_of i r
  end.
Definition ended (i : nat) (t : list event) : Prop := In (i, PEnd) t.
Definition untouched (i : nat) (t : list event) : Prop := forall p, ~ In (i, p) t.

(** Something had been read when handle [i] was first polled (or there is nothing
    to read, or it is the initial body). *)
Definition started_late (b : body) (i : nat) (t : list event) : Prop :=
  i = 0%nat \/ body_data b = [] \/
  exists t1 t2 j d, t = t1 ++ t2 /\ untouched i t1 /\ In (j, PData d) t1 /\ d <> [].

(** All the bytes kept for replays. *)
Definition held (s : option bstate) : N := match s with Some s => total (st_replay s) | None => 0 end.
Definition buffered (w : world) : N :=
  held (w_shared w) +
  fold_right (fun h n => (match h with Some h => held (h_state h) | None => 0 end) + n) 0 (w_handles w).
