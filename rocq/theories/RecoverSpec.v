(** What C44 says *)
From Coq Require Import List Arith NArith Bool.
From Verif Require Import RecoverModel.
Import ListNotations.

(** What updates mean: a map from addresses to endpoints *)
Definition view := list (N * N).
Definition insert (v : view) (e : N * N) : view := e :: filter (fun x => negb (fst x =? fst e)%N) v.
Definition apply (v : view) (u : update) : view :=
  match u with
  | Reset eps => fold_left insert eps []
  | Add eps => fold_left insert eps v
  | Remove addrs => filter (fun x => negb (existsb (N.eqb (fst x)) addrs)) v
  | Does_not_exist => []
  end.

(** The endpoints a client has, from the updates it was sent; and those that were announced *)
Definition client (l : list event) : view := fold_left (fun v e => match e with Sent u => apply v u | _ => v end) l [].
Definition announced (l : list event) : view := fold_left (fun v e => match e with Received u => apply v u | _ => v end) l [].
(** An update that says something on its own *)
Definition informative (e : event) : bool := match e with Received (Remove _) => false | Received _ => true | _ => false end.
(** How often a backoff let it continue *)
Definition ticks (l : list event) : nat := length (filter (fun e => match e with Ticked _ _ => true | _ => false end) l).
