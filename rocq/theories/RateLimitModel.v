(** Model of linkerd/proxy/server-policy/src/local_rate_limit.rs.

    `governor::RateLimiter` is of another crate: [fresh rps] is the state of a limiter of
    `Quota::per_second(rps)` which has seen nothing and [step rps] its `check` at some
    time.  A keyed limiter has one such state for each key.  [gcra_fresh] and [gcra_step]
    are one such limiter, for examples.  Requests are checked one after the other. *)
From Coq Require Import List Arith NArith Bool.
From Verif Require Import Bytes AuthzModel.
Import ListNotations.
Open Scope N_scope.

(** linkerd/identity/src/lib.rs:24-27: derived equality *)
Definition id_eqb (a b : id) : bool :=
  match a, b with Dns x, Dns y => beq x y | Uri x, Uri y => beq x y | _, _ => false end.
(** `Eq for Option<Id>`: the key of the keyed limiter *)
Definition opt_id_eqb (a b : option id) : bool :=
  match a, b with Some x, Some y => id_eqb x y | None, None => true | _, _ => false end.

(** What the control plane sends; a limit may be missing *)
Record api_override := ApiOverride { ao_limit : option N; ao_identities : list bytes }.
(** local_rate_limit.rs:144-180 reads `HttpLocalRateLimit` *)
Record api_limits := ApiLimits { al_total : option N; al_identity : option N; al_overrides : list api_override }.

(** lines 18-24, without the metadata and the state of the limiters.  [overrides]: an
    identity's limiter, each with its rate; the number tells limiters apart, as identities
    may share one. *)
Record limits := Limits { l_total : option N; l_per_identity : option N; l_overrides : list (id * (nat * N)) }.

(** `and_then(NonZeroU32::new)` *)
Definition non_zero (l : option N) : option N :=
  match l with Some 0 => None | l => l end.
(** `Iterator::filter_map` *)
Fixpoint filter_map_ {A B} (f : A -> option B) (l : list A) : list B :=
  match l with
  | [] => []
  | a :: l => match f a with Some b => b :: filter_map_ f l | None => filter_map_ f l end
  end.
(** lines 161-183; [n]: the limiter's number.  Collecting into a map keeps the last of
    the entries with the same key: see [override_of]. *)
Fixpoint overrides_of (url_parse : bytes -> option bytes) (n : nat) (l : list api_override) : list (id * (nat * N)) :=
  match l with
  | [] => []
  | o :: l =>
      match non_zero (ao_limit o) with
      | None => overrides_of url_parse (S n) l
      | Some rps =>
          map (fun i => (i, (n, rps))) (filter_map_ (id_from_str url_parse) (ao_identities o)) ++
          overrides_of url_parse (S n) l
      end
  end.
(** lines 144-191 *)
Definition limits_of (url_parse : bytes -> option bytes) (a : api_limits) : limits :=
  Limits (non_zero (al_total a)) (non_zero (al_identity a)) (overrides_of url_parse 0 (al_overrides a)).

(** `HashMap::get`, of the collected entries *)
Definition override_of (l : limits) (i : id) : option (nat * N) :=
  option_map snd (find (fun e => id_eqb (fst e) i) (rev (l_overrides l))).

(** local_rate_limit.rs:36-44, 80: `Ok(())` or a `RateLimitError` *)
Inductive outcome := Admitted_ | Over_total (rps : N) | Over_identity (rps : N) | Over_override (rps : N).

Section Limiter.
  Variable L : Type.
  Variable fresh : N -> L.
  Variable step : N -> L -> N -> bool * L.

  (** The limiters' states: a missing one is fresh. *)
  Record state := State { s_total : option L; s_override : list (nat * L); s_identity : list (option id * L) }.
  (** Limiters that have seen nothing *)
  Definition start : state := State None [] [].
  (** Helper: the limiter of an override, fresh if it was not used yet *)
  Definition get_override (s : state) (n : nat) (rps : N) : L :=
    match find (fun e => Nat.eqb (fst e) n) (s_override s) with Some e => snd e | None => fresh rps end.
  (** Helper: the limiter of a key, fresh if it was not used yet *)
  Definition get_identity (s : state) (i : option id) (rps : N) : L :=
    match find (fun e => opt_id_eqb (fst e) i) (s_identity s) with Some e => snd e | None => fresh rps end.

  (** lines 98-103 *)
  Definition check_identity (l : limits) (s : state) (i : option id) (now : N) : outcome * state :=
    match l_per_identity l with
    | None => (Admitted_, s)
    | Some rps =>
        let (ok, lim) := step rps (get_identity s i rps) now in
        (if ok then Admitted_ else Over_identity rps,
         State (s_total s) (s_override s) ((i, lim) :: s_identity s))
    end.
  (** lines 87-103 *)
  Definition check_client (l : limits) (s : state) (i : option id) (now : N) : outcome * state :=
    match match i with Some i => override_of l i | None => None end with
    | Some (n, rps) =>
        let (ok, lim) := step rps (get_override s n rps) now in
        (if ok then Admitted_ else Over_override rps,
         State (s_total s) ((n, lim) :: s_override s) (s_identity s))
    | None => check_identity l s i now
    end.
  (** lines 80-104 *)
  Definition check (l : limits) (s : state) (i : option id) (now : N) : outcome * state :=
    match l_total l with
    | None => check_client l s i now
    | Some rps =>
        let (ok, lim) := step rps (match s_total s with Some x => x | None => fresh rps end) now in
        let s := State (Some lim) (s_override s) (s_identity s) in
        if ok then check_client l s i now else (Over_total rps, s)
    end.

  (** The outcomes of requests of some clients at some times *)
  Fixpoint run (l : limits) (s : state) (rs : list (option id * N)) : list outcome :=
    match rs with
    | [] => []
    | (i, now) :: rs => let (o, s) := check l s i now in o :: run l s rs
    end.
End Limiter.

(** The generic cell rate algorithm with a burst of [rps] and one more each 1/[rps] of a
    second, in nanoseconds: the state is the theoretical arrival time of the next request. *)
Definition gcra_fresh (rps : N) : N := 0.
(** governor's `check`, for examples only *)
Definition gcra_step (rps tat now : N) : bool * N :=
  let t := 1000000000 / rps in
  if now <? tat - t * (rps - 1) then (false, tat) else (true, N.max tat now + t).
