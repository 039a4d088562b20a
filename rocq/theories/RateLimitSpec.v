(** What C31 says *)
From Coq Require Import List Arith NArith Bool.
From Verif Require Import Bytes AuthzModel RateLimitModel.
Import ListNotations.
Open Scope N_scope.

(** The limit, besides the total, that applies to a client: that of the last override which
    lists it, shared by the clients of that override; or its own, unauthenticated
    clients being one client. *)
Inductive bucket := B_none | B_override (n : nat) (rps : N) | B_identity (i : option id) (rps : N).
Inductive bucket_of (l : limits) : option id -> bucket -> Prop :=
| b_override : forall i n rps before after,
    l_overrides l = before ++ (i, (n, rps)) :: after -> (forall x, ~ In (i, x) after) ->
    bucket_of l (Some i) (B_override n rps)
| b_identity : forall i rps, (forall j x, i = Some j -> ~ In (j, x) (l_overrides l)) ->
    l_per_identity l = Some rps -> bucket_of l i (B_identity i rps)
| b_none : forall i, (forall j x, i = Some j -> ~ In (j, x) (l_overrides l)) ->
    l_per_identity l = None -> bucket_of l i B_none.

Section Limiter.
  Variable L : Type.
  Variable fresh : N -> L.
  Variable step : N -> L -> N -> bool * L.

  (** A limiter of its own that is asked at these times: its last answer *)
  Definition after (rps : N) (ts : list N) : L := fold_left (fun s t => snd (step rps s t)) ts (fresh rps).
  Definition answer (rps : N) (ts : list N) (now : N) : bool := fst (step rps (after rps ts) now).
  (** How many of these it admits at times from [a] up to [b] *)
  Fixpoint admits (rps : N) (s : L) (a b : N) (ts : list N) : nat :=
    match ts with
    | [] => 0
    | t :: ts => let (ok, s) := step rps s t in
        (if ok && (a <=? t) && (t <? b) then 1 else 0) + admits rps s a b ts
    end.

  (** What happens to a request at [now] of a client in bucket [b], when [seen] are the
      times at which the total limiter was asked before and [mine] those at which the
      bucket's was. *)
  Inductive decision (l : limits) (b : bucket) (seen mine : list N) (now : N) : outcome -> Prop :=
  | d_total : forall rps, l_total l = Some rps -> answer rps seen now = false ->
      decision l b seen mine now (Over_total rps)
  | d_none : (forall rps, l_total l = Some rps -> answer rps seen now = true) -> b = B_none ->
      decision l b seen mine now Admitted_
  | d_admit : forall rps, (forall rps, l_total l = Some rps -> answer rps seen now = true) ->
      (exists n, b = B_override n rps) \/ (exists i, b = B_identity i rps) -> answer rps mine now = true ->
      decision l b seen mine now Admitted_
  | d_override : forall n rps, (forall rps, l_total l = Some rps -> answer rps seen now = true) ->
      b = B_override n rps -> answer rps mine now = false ->
      decision l b seen mine now (Over_override rps)
  | d_identity : forall i rps, (forall rps, l_total l = Some rps -> answer rps seen now = true) ->
      b = B_identity i rps -> answer rps mine now = false ->
      decision l b seen mine now (Over_identity rps).
End Limiter.

(** Requests and what became of them *)
Definition history := list ((option id * N) * outcome).
Definition times (h : history) : list N := map (fun e => snd (fst e)) h.
Definition over_total (o : outcome) : Prop := exists rps, o = Over_total rps.
(** The times of the requests in bucket [b] that the total limit let pass *)
Inductive asked (l : limits) (b : bucket) : history -> list N -> Prop :=
| a_nil : asked l b [] []
| a_skip : forall h ts i now o, (bucket_of l i b -> over_total o) -> asked l b h ts ->
    asked l b (h ++ [((i, now), o)]) ts
| a_take : forall h ts i now o, bucket_of l i b -> ~ over_total o -> asked l b h ts ->
    asked l b (h ++ [((i, now), o)]) (ts ++ [now]).
(** The times of the requests in bucket [b] *)
Inductive sent (l : limits) (b : bucket) : list (option id * N) -> list N -> Prop :=
| s_nil : sent l b [] []
| s_other : forall rs ts i now, ~ bucket_of l i b -> sent l b rs ts -> sent l b (rs ++ [(i, now)]) ts
| s_mine : forall rs ts i now, bucket_of l i b -> sent l b rs ts -> sent l b (rs ++ [(i, now)]) (ts ++ [now]).

(** How many requests were admitted at times from [a] up to [b]; and of those in a bucket *)
Definition counts (a b : N) (e : (option id * N) * outcome) : bool :=
  match snd e with Admitted_ => (a <=? snd (fst e)) && (snd (fst e) <? b) | _ => false end.
Definition admitted (a b : N) (h : history) : nat := length (filter (counts a b) h).
Inductive admitted_in (l : limits) (k : bucket) (a b : N) : history -> nat -> Prop :=
| ai_nil : admitted_in l k a b [] 0
| ai_skip : forall h n e, ~ (bucket_of l (fst (fst e)) k /\ counts a b e = true) -> admitted_in l k a b h n ->
    admitted_in l k a b (h ++ [e]) n
| ai_take : forall h n e, bucket_of l (fst (fst e)) k -> counts a b e = true -> admitted_in l k a b h n ->
    admitted_in l k a b (h ++ [e]) (S n).

(** Identities that share a limiter have the same rate. *)
Definition shared_rates (l : limits) : Prop :=
  forall i j n r r', In (i, (n, r)) (l_overrides l) -> In (j, (n, r')) (l_overrides l) -> r = r'.

(** Times do not go back. *)
Definition ordered (ts : list N) : Prop := forall x y a b c, ts = a ++ x :: b ++ y :: c -> x <= y.
