(** What C27 and C52 say *)
From Coq Require Import List Arith NArith Bool.
From Verif Require Import DistributeModel.
Import ListNotations.

(** One poll of an ordered list of [n] backends: which are polled, and the answer.  The
    first that is not pending decides. *)
Inductive first_poll (n : nat) (rs : nat -> readiness) : list seen -> option nat -> Prop :=
| f_ready : forall i, i < n -> (forall j, j < i -> rs j = Is_pending) -> rs i = Is_ready ->
    first_poll n rs (map (fun j => Polled j Is_pending) (seq 0 i) ++ [Polled i Is_ready; Answered Is_ready]) (Some i)
| f_failed : forall i, i < n -> (forall j, j < i -> rs j = Is_pending) -> rs i = Is_failed ->
    first_poll n rs (map (fun j => Polled j Is_pending) (seq 0 i) ++ [Polled i Is_failed; Answered Is_failed]) None
| f_pending : (forall j, j < n -> rs j = Is_pending) ->
    first_poll n rs (map (fun j => Polled j Is_pending) (seq 0 n) ++ [Answered Is_pending]) None.

(** The weight of a backend, unless it is among those set aside *)
Definition weight (ws : list N) (aside : list nat) (i : nat) : N :=
  if in_dec Nat.eq_dec i aside then 0%N else nth i ws 0%N.
(** The weights of the backends before [i] *)
Fixpoint before (ws : list N) (aside : list nat) (i : nat) : N :=
  match i with 0 => 0 | S i => before ws aside i + weight ws aside i end.
(** A draw falls to [i]: the draws that do are as many as its weight, in every round of
    as many draws as the weights' sum. *)
Definition falls_to (ws : list N) (aside : list nat) (draw : N) (i : nat) : Prop :=
  let r := (draw mod before ws aside (length ws))%N in
  (before ws aside i <= r)%N /\ (r < before ws aside i + weight ws aside i)%N.

(** One poll of weighted backends: [order] are those polled, all but the last pending. *)
Inductive random_poll (ws : list N) (rs : nat -> readiness) (draws : nat -> N) : list seen -> option nat -> Prop :=
| r_ready : forall order i,
    (forall a j b, order ++ [i] = a ++ j :: b -> falls_to ws a (draws (length a)) j) ->
    (forall j, In j order -> rs j = Is_pending) -> rs i = Is_ready ->
    random_poll ws rs draws (map (fun j => Polled j Is_pending) order ++ [Polled i Is_ready; Answered Is_ready]) (Some i)
| r_failed : forall order i,
    (forall a j b, order ++ [i] = a ++ j :: b -> falls_to ws a (draws (length a)) j) ->
    (forall j, In j order -> rs j = Is_pending) -> rs i = Is_failed ->
    random_poll ws rs draws (map (fun j => Polled j Is_pending) order ++ [Polled i Is_failed; Answered Is_failed]) None
| r_pending : forall order,
    (forall a j b, order = a ++ j :: b -> falls_to ws a (draws (length a)) j) ->
    (forall j, In j order -> rs j = Is_pending) -> (forall j, weight ws [] j <> 0%N -> In j order) ->
    random_poll ws rs draws (map (fun j => Polled j Is_pending) order ++ [Answered Is_pending]) None.

(** Since some backend was polled and ready, nothing was sent nor polled. *)
Definition reserved (i : nat) (l : list seen) : Prop :=
  exists a b, l = a ++ Polled i Is_ready :: b /\ forall e, In e b -> e = Answered Is_ready.
Definition entry_ok (weight_of : nat -> option N) (l : list seen) (e : seen) : Prop :=
  match e with
  | Sent i => reserved i l
  | Panicked => ~ exists i, reserved i l     (* `call` without a ready backend *)
  | Poll_panicked => False
  | Polled i _ => exists w, weight_of i = Some w /\ w <> 0%N
  | Answered Is_ready => exists i, reserved i l
  | Answered _ => ~ exists i, reserved i l
  end.
(** The weights; those of an ordered list are all one *)
Definition weight_of {K} (d : distribution K) (i : nat) : option N :=
  match d with
  | Empty => None
  | First_available keys => if i <? length keys then Some 1%N else None
  | Random_available keys => option_map snd (nth_error keys i)
  end.
(** Distributions that [first_available] and [random_available] make *)
Definition valid {K} (d : distribution K) : Prop :=
  match d with
  | Random_available keys => 0 < sum (map snd keys) /\ sum (map snd keys) <= u32_max
  | _ => True
  end%N.

(** ** The caches *)
Section Cache.
  Variable K : Type.
  (** The services in use after some updates: one for each backend of the last *)
  Definition holds (c : list (K * nat)) (k : K) (n : nat) : Prop := In (k, n) c.
  Definition exactly (c : list (K * nat)) (backends : list K) : Prop :=
    NoDup (map fst c) /\ forall k, In k backends <-> exists n, holds c k n.
End Cache.
