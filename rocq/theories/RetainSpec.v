(** What C140 says *)
From Coq Require Import List Arith NArith Bool.
From Verif Require Import CacheModel RetainModel.
Import ListNotations.

(** Request [i], for target [k], is being served by service [v]: it has not failed, been dropped or answered in full *)
Definition served_by (s : state) (i : nat) (k : key) (v : value) : Prop :=
  exists r, nth_error (requests s) i = Some r /\ r_key r = k /\ r_value r = v /\ r_phase r <> Over.
(** The service that the latest request was given *)
Definition given (s : state) (k : key) (v : value) : Prop := served_by s (pred (length (requests s))) k v.
(** The drops of handles have ended *)
Definition settled (s : state) : Prop := Forall (fun x => h_dropping x = 0) (handles (cache s)).
(** From a state to another *)
Inductive steps (idle : N) : state -> list event -> state -> Prop :=
| steps_nil s : steps idle s [] s
| steps_cons s e s' h s'' : step idle s e = Some s' -> steps idle s' h s'' -> steps idle s (e :: h) s''.
