(** Model of the watches of what the control plane says: linkerd/tonic-watch/src/lib.rs, which
    inbound and outbound policies, service profiles and SPIRE identities are watched with, and of
    the limits on its streams: linkerd/tonic-stream/src/lib.rs.

    Simplifications: logging is not modelled; of a status only its code matters; the task of a watch
    is a state machine whose events are what its awaits return.  A backoff is the number of the
    call of `recover` that returned it; when it yields is not modelled. *)
From Coq Require Import List NArith Bool.
Import ListNotations.
Open Scope N_scope.

(** ** tonic-watch/src/lib.rs *)

(** What the task awaits *)
Inductive task :=
| Looking (backoff : option nat)     (* 106-110: readiness, the response or its first item *)
| Waiting_old (old new : nat)        (* 135: the backoff there was already *)
| Waiting_new (new : nat)            (* 141: the backoff just got *)
| Streaming                          (* 196: the next item of the stream *)
| Over.                              (* the task ended *)

Section Watch.
  Context {A : Type}.
  (** `Recover::recover`: whether it returns a backoff for a status with this code *)
  Variable recovers : N -> bool.

  (** What happens to the task: an item arrives; the service does not become ready, the request or
      the stream fails with a code, or the stream ends, which is code 0 (215); the backoff that is
      waited for yields, or ends; all receivers are dropped, or the future of [spawn_watch] *)
  Inductive event := Delivered (v : A) | Failed (code : N) | Yielded | Ended | Dropped.
  (** What the task does *)
  Inductive act := Looks_up | Publishes (v : A) | Waited (backoff : nat) | Gives_up (code : N).

  (** [published]: the task is in [publish_updates].  [value]: what the receivers see, if there are
      any.  [read]: not all receivers are dropped.  [backoffs]: how often `recover` was called *)
  Record state := State { tk : task; published : bool; value : option A; read : bool; backoffs : nat }.

  (** 44-89: [spawn_with_init] makes the watch at once, [spawn_watch] with the first item *)
  Definition spawn_with_init (init : A) : state := State (Looking None) false (Some init) true 0.
  (** 44-61 *)
  Definition spawn_watch : state := State (Looking None) false None true 0.

  (** The first item or a later one is there.  51-60: [spawn_watch] makes the watch.  79-82: if
      there is no receiver any more, [spawn_with_init] ends. *)
  Definition deliver (s : state) (v : A) : state * list act :=
    if read s then (State Streaming true (Some v) (read s) (backoffs s), [Publishes v])
    else (State Over (published s) (value s) (read s) (backoffs s), []).

  (** 129-142 and 201: `recover` is asked for a backoff. *)
  Definition failed (s : state) (c : N) (next : nat -> task) (acts : list act) : state * list act :=
    if recovers c
    then (State (next (backoffs s)) (published s) (value s) (read s) (S (backoffs s)), acts)
    else (State Over (published s) (value s) (read s) (backoffs s), [Gives_up c]).

  (** 104-145, 160-183 and 196-206; None: this cannot happen now. *)
  Definition step (s : state) (e : event) : option (state * list act) :=
    match tk s, e with
    | Over, _ => None
    | _, Dropped =>
        if read s then
          (* 165-168; the first lookup of spawn_with_init goes on *)
          match published s, value s with
          | false, Some _ => Some (State (tk s) (published s) (value s) false (backoffs s), [])
          | _, _ => Some (State Over (published s) (value s) false (backoffs s), [])
          end
        else None
    | Looking _, Delivered v | Streaming, Delivered v => Some (deliver s v)
    | Looking b, Failed c =>
        Some (failed s c (fun new => match b with Some old => Waiting_old old new | None => Waiting_new new end) [])
    | Streaming, Failed c => Some (failed s c (fun new => Looking (Some new)) [Looks_up])
    | Waiting_old old _, Yielded =>
        Some (State (Looking (Some old)) (published s) (value s) (read s) (backoffs s), [Waited old; Looks_up])
    | Waiting_old _ new, Ended => Some (State (Waiting_new new) (published s) (value s) (read s) (backoffs s), [])
    | Waiting_new new, Yielded =>
        Some (State (Looking (Some new)) (published s) (value s) (read s) (backoffs s), [Waited new; Looks_up])
    | Waiting_new _, Ended => Some (State (Looking None) (published s) (value s) (read s) (backoffs s), [Looks_up])
    | _, _ => None
    end.

  (** The histories of a watch: what happened, in order, and what the task did *)
  Inductive run (start : state) : list event -> list act -> state -> Prop :=
  | run_init : run start [] [Looks_up] start
  | run_step : forall es acts s e s' more,
      run start es acts s -> step s e = Some (s', more) -> run start (es ++ [e]) (acts ++ more) s'.
  (** The same, computed *)
  Fixpoint go (s : state) (acts : list act) (es : list event) : option (list act * state) :=
    match es with
    | [] => Some (acts, s)
    | e :: es => match step s e with Some (s', more) => go s' (acts ++ more) es | None => None end
    end.
End Watch.
Arguments event : clear implicits. Arguments act : clear implicits. Arguments state : clear implicits.

(** app/inbound/src/policy/api.rs:111-134, and, of service profiles, app/src/dst.rs:95-118 *)
Definition inbound_recovers (code : N) : bool := negb ((code =? 3) || (code =? 9)).
(** app/outbound/src/policy/api.rs:122-147 *)
Definition outbound_recovers (code : N) : bool :=
  if (code =? 3) || (code =? 9) then false else if (code =? 5) || (code =? 12) then false else true.
(** proxy/spire-client/src/api.rs:184-201 *)
Definition spire_recovers (code : N) : bool := negb (code =? 3).

(** ** tonic-stream/src/lib.rs *)

(** 10-21.  `Duration::MAX`, of limits that are not set (123 and 156), is taken to never end. *)
Record limits := Limits { initial : option N; idle : option N; lifetime : option N }.

(** A `Sleep` that was set to end then, or never *)
Definition elapsed (now : N) (deadline : option N) : bool :=
  match deadline with Some t => t <=? now | None => false end.
(** `time::sleep`, called now *)
Definition sleep (now : N) (d : option N) : option N := option_map (fun d => now + d) d.

(** 35-56: the call or its stream *)
Inductive receive :=
| Calling (recv : option N)
| Receiving (life : option N) (recv : option N) (recv_init : bool)
| Closed.

(** What polling the call or the stream inside gives *)
Inductive inner {A : Type} := Pending | Responded | Item (v : A) | Error (code : N) | End.
(** What polling it with limits gives.  [Out_timeout]: `DeadlineExceeded`, of this code *)
Inductive outer {A : Type} := Out_pending | Out_responded | Out_item (v : A) | Out_error (code : N) | Out_end | Out_timeout.
Arguments inner : clear implicits. Arguments outer : clear implicits.

(** 118-130 *)
Definition new_receive (l : limits) (now : N) : receive :=
  Calling (sleep now (match initial l with Some d => Some d | None => idle l end)).

(** 139-159 *)
Definition poll_call {A} (l : limits) (recv : option N) (now : N) (i : inner A) : receive * outer A :=
  match i with
  | Responded => (Receiving (sleep now (lifetime l)) recv true, Out_responded)
  | Error c => (Closed, Out_error c)
  | _ => if elapsed now recv then (Closed, Out_timeout) else (Calling recv, Out_pending)
  end.

(** 170-202 *)
Definition poll_next {A} (l : limits) (life recv : option N) (recv_init : bool) (now : N) (i : inner A)
  : receive * outer A :=
  if elapsed now life then (Closed, Out_end)
  else
    let recv' := match idle l with Some d => Some (now + d) | None => recv end in
    match i with
    | Item v => (Receiving life recv' false, Out_item v)
    | Error c => (Closed, Out_error c)
    | End => (Closed, Out_end)
    | _ =>
        if elapsed now recv then (Closed, if recv_init then Out_timeout else Out_end)
        else (Receiving life recv recv_init, Out_pending)
    end.

(** Polling it; None: it was closed, or what is inside cannot be like that now *)
Definition poll {A} (l : limits) (r : receive) (now : N) (i : inner A) : option (receive * outer A) :=
  match r, i with
  | Closed, _ => None
  | Calling recv, (Pending | Responded | Error _) => Some (poll_call l recv now i)
  | Receiving life recv init, (Pending | Item _ | Error _ | End) => Some (poll_next l life recv init now i)
  | _, _ => None
  end.

(** Polling it again and again, from a call made at [start]; times do not go back. *)
Inductive polls {A} (l : limits) (start : N) : list (N * inner A) -> list (outer A) -> N -> receive -> Prop :=
| polls_init : polls l start [] [] start (new_receive l start)
| polls_step : forall ps os t r now i r' o,
    polls l start ps os t r -> t <= now -> poll l r now i = Some (r', o) ->
    polls l start (ps ++ [(now, i)]) (os ++ [o]) now r'.
(** The same, computed *)
Fixpoint go_polls {A} (l : limits) (t : N) (r : receive) (ps : list (N * inner A)) : option (list (outer A) * N * receive) :=
  match ps with
  | [] => Some ([], t, r)
  | (now, i) :: ps =>
      if t <=? now then
        match poll l r now i with
        | Some (r', o) => match go_polls l now r' ps with Some (os, t', r'') => Some (o :: os, t', r'') | None => None end
        | None => None
        end
      else None
  end.
