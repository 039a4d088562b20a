(** Specification for C48. *)
From Coq Require Import List NArith.
From Verif Require Import Bytes FilterModel PeekModel.
Import ListNotations.
Open Scope N_scope.

(** What a reader of a body sees: the frames, up to and including the first
    trailers or error, which end a body. *)
Fixpoint seen (l : list polled) : list polled :=
  match l with
  | [] => []
  | BPending :: l => seen l
  | BFrame (FData d) :: l => BFrame (FData d) :: seen l
  | BFrame (FTrailers t) :: _ => [BFrame (FTrailers t)]
  | BFrame FUnknown :: l => seen l
  | BErr e :: _ => [BErr e]
  end.
(** The polls before the first end. *)
Fixpoint before_end (l : list (option polled)) : list polled :=
  match l with
  | Some x :: l => x :: before_end l
  | _ => []
  end.
Fixpoint data_len (l : list polled) : N :=
  match l with
  | [] => 0
  | BFrame (FData d) :: l => len d + data_len l
  | _ :: l => data_len l
  end.
