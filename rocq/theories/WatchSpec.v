(** What C68 and C69 say *)
From Coq Require Import List NArith Bool.
From Verif Require Import WatchModel.
Import ListNotations.
Open Scope N_scope.

(** What was delivered, in order, and what was published *)
Fixpoint delivered {A} (es : list (event A)) : list A :=
  match es with [] => [] | Delivered v :: es => v :: delivered es | _ :: es => delivered es end.
Fixpoint publications {A} (acts : list (act A)) : list A :=
  match acts with [] => [] | Publishes v :: acts => v :: publications acts | _ :: acts => publications acts end.
(** The last of a list, or what there was before *)
Definition latest {A} (before : option A) (l : list A) : option A :=
  match rev l with v :: _ => Some v | [] => before end.

(** A watch as it starts *)
Definition starts {A} (s : state A) : Prop := s = spawn_watch \/ exists v, s = spawn_with_init v.
(** It failed in a way that it does not recover from. *)
Definition rejected {A} (recovers : N -> bool) (es : list (event A)) : Prop :=
  exists c, In (Failed c) es /\ recovers c = false.
(** Nobody is interested any more, and the task knows: the watch that was made with an initial value
    learns it only once something was delivered. *)
Definition abandoned {A} (start : state A) (es : list (event A)) : Prop :=
  In Dropped es /\ (start = spawn_watch \/ delivered es <> []).

Definition all_published {A} (l : list (act A)) : Prop := forall a, In a l -> exists v, a = Publishes v.
Fixpoint lookups {A} (acts : list (act A)) : nat :=
  match acts with [] => O | Looks_up :: acts => S (lookups acts) | _ :: acts => lookups acts end.

(** ** Limits *)

(** When the response came *)
Fixpoint responded_at {A} (ps : list (N * inner A)) : option N :=
  match ps with [] => None | (t, Responded) :: _ => Some t | _ :: ps => responded_at ps end.
(** When the last item came *)
Fixpoint last_item {A} (ps : list (N * inner A)) : option N :=
  match ps with
  | [] => None
  | (t, Item _) :: ps => match last_item ps with Some t' => Some t' | None => Some t end
  | _ :: ps => last_item ps
  end.
(** The stream is as old as it may get. *)
Definition expired {A} (l : limits) (ps : list (N * inner A)) (now : N) : Prop :=
  exists t d, responded_at ps = Some t /\ lifetime l = Some d /\ t + d <= now.
(** There was no item, and it should have come: within the initial limit of the call, or within the
    idle limit if there is no initial one. *)
Definition late {A} (l : limits) (start : N) (ps : list (N * inner A)) (now : N) : Prop :=
  last_item ps = None /\
  exists d, (initial l = Some d \/ (initial l = None /\ idle l = Some d)) /\ start + d <= now.
(** There were items, but none for as long as the idle limit. *)
Definition quiet {A} (l : limits) (ps : list (N * inner A)) (now : N) : Prop :=
  exists t d, last_item ps = Some t /\ idle l = Some d /\ t + d <= now.
(** There were items, there is no idle limit, and the initial limit of the call passed. *)
Definition outlived {A} (l : limits) (start : N) (ps : list (N * inner A)) (now : N) : Prop :=
  exists t d, last_item ps = Some t /\ idle l = None /\ initial l = Some d /\ start + d <= now.

(** The items *)
Fixpoint items_in {A} (ps : list (N * inner A)) : list A :=
  match ps with [] => [] | (_, Item v) :: ps => v :: items_in ps | _ :: ps => items_in ps end.
Fixpoint items_out {A} (os : list (outer A)) : list A :=
  match os with [] => [] | Out_item v :: os => v :: items_out os | _ :: os => items_out os end.
