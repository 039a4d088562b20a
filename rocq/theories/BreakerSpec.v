(** Specification for C16, C18, C19 and C49: which histories a breaker may produce. *)
From Coq Require Import List NArith Bool.
From Verif Require Import BreakerModel.
From Verif Require BackoffSpec WindowSpec.
Import ListNotations.
Open Scope N_scope.

(** What a breaker has seen: letting requests flow since [since], with the classes
    taken since then; shut at [since] for the [n]-th time after the breaker
    tripped; or trying one request, which may have been let through already. *)
Inductive status :=
| Flowing (since : N) (seen : list (N * class))
| Blocked (n : N) (since : N)
| Trial (n : N) (used : bool).

(** The gate a client faces. *)
Definition gate_of (s : status) : gate :=
  match s with
  | Flowing _ _ => Open
  | Blocked _ _ => Shut
  | Trial _ used => Limited (if used then 0 else 1)
  end.

Section History.
  (** [trips since seen]: the breaker must trip on the last class of [seen].
      [recovers c]: a probe of class [c] succeeds.
      [pause n]: the least time it stays shut for the [n]-th time in a row. *)
  Variable trips : N -> list (N * class) -> Prop.
  Variable recovers : class -> Prop.
  Variable pause : N -> N.

  Inductive history : list entry -> status -> Prop :=
  | H_start t : history [Set_gate Open t] (Flowing t [])
  | H_lost_class l s id : history l s -> history (l ++ [Overflow id]) s
  | H_abandoned l s id : history l s -> history (l ++ [Abandon id]) s
  | H_admit l t cs id : history l (Flowing t cs) -> history (l ++ [Admit id]) (Flowing t cs)
  | H_flow l t cs id now c : history l (Flowing t cs) -> ~ trips t (cs ++ [(now, c)]) ->
      history (l ++ [Observe id now c]) (Flowing t (cs ++ [(now, c)]))
  | H_trip l t cs id now c : history l (Flowing t cs) -> trips t (cs ++ [(now, c)]) ->
      history (l ++ [Observe id now c; Set_gate Shut now]) (Blocked 0 now)
  | H_discard l n t id now c : history l (Blocked n t) ->
      history (l ++ [Observe id now c]) (Blocked n t)
  | H_trial l n t now : history l (Blocked n t) -> t + pause n <= now ->
      history (l ++ [Set_gate (Limited 1) now]) (Trial n false)
  | H_probe l n id : history l (Trial n false) -> history (l ++ [Admit id]) (Trial n true)
  | H_recover l n u id now c : history l (Trial n u) -> recovers c ->
      history (l ++ [Observe id now c; Set_gate Open now]) (Flowing now [])
  | H_again l n u id now c : history l (Trial n u) -> ~ recovers c ->
      history (l ++ [Observe id now c; Set_gate Shut now]) (Blocked (n + 1) now).
End History.

(** The pause doubles each time; a breaker that stayed shut 2^32-1 times in a row
    does not wait any more. *)
Definition pause (min max n : N) : N :=
  if n <? 2 ^ 32 - 1 then BackoffSpec.plain_delay min max n else 0.

Definition failing (c : class) : Prop :=
  match c with Http f _ => f = true | Grpc f _ => f = true | Failed => True end.
(** HTTP 429 or RESOURCE_EXHAUSTED, where that is not a failure already. *)
Definition rate_limited (c : class) : Prop :=
  match c with Http f s => f = false /\ s = 429 | Grpc f s => f = false /\ s = 8 | Failed => False end.

(** The last [n] classes all failed. *)
Definition in_a_row (n : N) (seen : list (N * class)) : Prop :=
  exists before last, seen = before ++ last /\ N.of_nat (length last) = n /\
    Forall (fun x => failing (snd x)) last.

Definition trips_consecutive (n : N) (since : N) (seen : list (N * class)) : Prop :=
  0 < n /\ in_a_row n seen.
Definition recovers_consecutive (c : class) : Prop := ~ failing c.

(** What the success rate counts as a success. *)
Definition good (c : class) : bool :=
  match c with
  | Http f s => negb f && negb (s =? 429)
  | Grpc f s => negb f && negb (s =? 8)
  | Failed => false
  end.
Definition outcomes (seen : list (N * class)) : list (N * bool) := map (fun x => (fst x, good (snd x))) seen.

(** Of at least [min_requests] (and not 0) recent responses, less than [bp] of
    10000 succeeded.  A window is at least 10 ms long and has ten slices. *)
Definition low_rate (bp window min_requests since now : N) (h : list (N * bool)) : Prop :=
  let width := N.max window 10000000 / 10 in
  let r := WindowSpec.responses since width now h in
  let s := WindowSpec.successes since width now h in
  0 < r /\ min_requests <= r /\ s * 10000 < bp * r.
Definition trips_unified (n bp window min_requests since : N) (seen : list (N * class)) : Prop :=
  0 < n /\ in_a_row n seen \/
  0 < bp /\ low_rate bp window min_requests since (WindowSpec.last_time since (outcomes seen)) (outcomes seen).
Definition recovers_unified (c : class) : Prop := ~ failing c /\ ~ rate_limited c.

(** The task is polled at times that do not go back, below 2^64 ns. *)
Fixpoint clock (t : N) (es : list event) : Prop :=
  match es with
  | [] => True
  | Run i _ :: es => t <= BackoffModel.in_now i < 2 ^ 64 /\ clock (BackoffModel.in_now i) es
  | _ :: es => clock t es
  end.

Definition is_gate (e : entry) : bool := match e with Set_gate _ _ => true | _ => false end.
Definition is_admit (e : entry) : bool := match e with Admit _ => true | _ => false end.
(** No change of the gate among [l]. *)
Definition quiet (l : list entry) : Prop := forall e, In e l -> is_gate e = false.
Definition admits (l : list entry) : nat := length (filter is_admit l).
(** How many times the gate was shut since it was last open. *)
Definition times_shut (l : list entry) : N :=
  fold_left (fun n e => match e with Set_gate Open _ => 0 | Set_gate Shut _ => n + 1 | _ => n end) l 0.

(** What a client sees between two settings of the gate, in the order
    [before], [g] at [t], [between], [g'] at [t']. *)
Definition gate_rule (pause : N -> N) (before : list entry) (g : gate) (t : N) (between : list entry)
    (g' : gate) (t' : N) : Prop :=
  match g with
  | Open => g' = Shut
  | Shut => g' = Limited 1 /\ admits between = 0%nat /\ t + pause (times_shut before) <= t'
  | Limited _ => (g' = Open \/ g' = Shut) /\ (admits between <= 1)%nat
  end.
