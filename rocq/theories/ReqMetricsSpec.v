(** What the counters of requests and responses should say: from the history alone *)
From Coq Require Import List NArith Bool.
From Verif Require Import ReqMetricsModel.
Import ListNotations.
Open Scope N_scope.

Section Spec.
  Variables (classifier eos_classifier : Type)
    (start : classifier -> head -> eos_classifier) (fail : classifier -> N -> N)
    (eos : eos_classifier -> option N -> N) (eos_error : eos_classifier -> N -> N).
  Notation input := (input classifier).

  (** The calls, in order: whether the request had no body, its classifier, and when *)
  Definition calls (h : list input) : list (bool * classifier * N) :=
    flat_map (fun i => match i with Call _ ended c t => [(ended, c, t)] | _ => [] end) h.
  Definition call_of (h : list input) (id : nat) : option (bool * classifier * N) := nth_error (calls h) id.
  Definition ids (h : list input) : list nat := seq 0 (length (calls h)).

  (** The input is about this request, and is: something read from its body; its response;
      the response's body gives something or is dropped; the response is settled *)
  Definition body_read (id : nat) (i : input) : bool :=
    match i with Poll_request _ j true _ => Nat.eqb j id | _ => false end.
  Definition responded (id : nat) (i : input) : bool :=
    match i with Respond _ j (inl _) _ => Nat.eqb j id | _ => false end.
  Definition first_byte (id : nat) (i : input) : bool :=
    match i with
    | Poll_response _ j P_pending _ => false
    | Poll_response _ j _ _ | Drop_response _ j _ => Nat.eqb j id
    | _ => false
    end.
  Definition settles (id : nat) (i : input) : bool :=
    match i with
    | Respond _ j (inr _) _ => Nat.eqb j id
    | Poll_response _ j (P_trailers _ | P_end | P_error _) _ => Nat.eqb j id
    | Drop_response _ j _ => Nat.eqb j id
    | _ => false
    end.

  (** The request had no body, or something was read from it *)
  Definition sent (h : list input) (id : nat) : bool :=
    match call_of h id with
    | Some (ended, _, _) => ended || existsb (body_read id) h
    | None => false
    end.
  Definition head_of (h : list input) (id : nat) : option head :=
    match find (responded id) h with Some (Respond _ _ (inl hd) _) => Some hd | _ => None end.

  (** The status and the class of a request's outcome: the first that settles it *)
  Definition outcome (h : list input) (id : nat) : option (option N * N) :=
    match call_of h id with
    | None => None
    | Some (_, c, _) =>
        match find (settles id) h, head_of h id with
        | Some (Respond _ _ (inr e) _), _ => Some (None, fail c e)
        | Some (Poll_response _ _ (P_trailers t) _), Some hd => Some (Some (status hd), eos (start c hd) (Some t))
        | Some (Poll_response _ _ P_end _), Some hd => Some (Some (status hd), eos (start c hd) None)
        | Some (Poll_response _ _ (P_error e) _), Some hd => Some (Some (status hd), eos_error (start c hd) e)
        | Some (Drop_response _ _ _), Some hd => Some (Some (status hd), eos (start c hd) None)
        | _, _ => None
        end
    end.
  (** The status and the latency: from the call to the first thing its body gives, or to its drop; none if that is an error *)
  Definition waited (h : list input) (id : nat) : option (N * N) :=
    match call_of h id, head_of h id with
    | Some (_, _, t0), Some hd =>
        match find (first_byte id) h with
        | Some (Poll_response _ _ (P_error _) _) => None
        | Some (Poll_response _ _ _ t) | Some (Drop_response _ _ t) => Some (status hd, t - t0)
        | _ => None
        end
    | _, _ => None
    end.

  (** How many requests were sent, had this outcome; how long those with this status waited *)
  Definition number_sent (h : list input) : nat := length (filter (sent h) (ids h)).
  Definition has_outcome (h : list input) (st : option N) (class : N) (id : nat) : bool :=
    match outcome h id with Some (st', class') => status_eqb st' st && (class' =? class) | None => false end.
  Definition number_with (h : list input) (st : option N) (class : N) : nat := length (filter (has_outcome h st class) (ids h)).
  Definition waits (h : list input) (st : N) : list N :=
    flat_map (fun id => match waited h id with Some (st', d) => if st' =? st then [d] else [] | None => [] end) (ids h).

  (** When the input was *)
  Definition time (i : input) : option N :=
    match i with
    | Call _ _ _ t | Poll_request _ _ _ t | Respond _ _ _ t | Poll_response _ _ _ t | Drop_response _ _ t => Some t
    | Cancel _ _ => None
    end.
End Spec.

(** What the counters say: the responses with this status and class, and the latencies of this status *)
Definition find_status (m : metrics) (st : option N) : option status_metrics :=
  option_map snd (find (fun e => status_eqb (fst e) st) (by_status m)).
Definition responses (m : metrics) (st : option N) (class : N) : N :=
  match find_status m st with
  | Some sm => match find (fun e => fst e =? class) (by_class sm) with Some (_, n) => n | None => 0 end
  | None => 0
  end.
Definition latencies (m : metrics) (st : option N) : list N :=
  match find_status m st with Some sm => latency sm | None => [] end.
