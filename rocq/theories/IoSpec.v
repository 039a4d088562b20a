(** The bytes a stream has yet to deliver. *)
From Coq Require Import List NArith.
From Verif Require Import Bytes IoModel.
Import ListNotations.

Fixpoint contents (i : io) : bytes :=
  match i with
  | Raw s => s
  | Prefixed p inner => p ++ contents inner
  end.
