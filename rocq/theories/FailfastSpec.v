(** What C22 says *)
From Coq Require Import List NArith Bool.
From Verif Require Import FailfastModel.
Import ListNotations.
Open Scope N_scope.

(** The answers of the inner service, in order *)
Definition answers (l : list seen) : list readiness :=
  flat_map (fun e => match e with Inner _ r => [r] | _ => [] end) l.
(** Since [t], and not before, every poll of the inner service was pending. *)
Definition pending_since (t : N) (l : list seen) : Prop := exists a b,
  l = a ++ Inner t Pending_ :: b /\
  (answers a = [] \/ exists ok, last (answers a) Pending_ = Ready_ ok) /\
  (forall r, In r (answers b) -> r = Pending_).

(** Where the service is: fine; failing requests while the task waits for the inner
    service; failing requests, the task having returned, until that is looked at. *)
Inductive mode := Fine | Failing | Over (ok : bool).
Definition next (m : mode) (e : seen) : mode :=
  match e, m with
  | Entered _, _ => Failing
  | Finished ok, _ => Over ok
  | Checked, Over _ => Fine
  | _, _ => m
  end.
Definition mode_of (l : list seen) : mode := fold_left next l Fine.

(** What a request gets *)
Definition call_outcome (l : list seen) : outcome :=
  match mode_of l with
  | Fine => match rev (answers l) with Pending_ :: _ => Panicked | _ => Forwarded end
  | _ => Failed_fast
  end.

(** Whether the last thing the gate was told is to shut *)
Fixpoint shut (b : bool) (l : list seen) : bool :=
  match l with
  | [] => b
  | Gate_shut :: l => shut true l
  | Gate_open :: l => shut false l
  | _ :: l => shut b l
  end.
(** The service is in failfast, and its task has not seen the inner service ready. *)
Definition blocked (l : list seen) : Prop := exists a t b,
  l = a ++ Entered t :: b /\ (forall u, ~ In (Entered u) b) /\ (forall r, In r (answers b) -> r = Pending_).

(** What `poll_ready` does and answers *)
Definition entry_ok (l : list seen) (e : seen) : Prop :=
  match e with
  | Entered _ => mode_of l = Fine
  | Answer r =>
      exists l' x, l = l' ++ [x] /\
      match x with
      | Inner _ r' => mode_of l' = Fine /\ r = r'
      | Checked => match mode_of l' with Failing => r = Ready_ true | Over ok => r = Ready_ ok | Fine => False end
      | _ => False
      end
  | Called o => o = call_outcome l
  | Finished ok => mode_of l = Failing /\ last (answers l) Pending_ = Ready_ ok
  | Checked => mode_of l <> Fine
  | _ => True
  end.
Definition dropped (es : list event) : Prop := In Drop es.
