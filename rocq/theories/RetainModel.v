(** Model of how the inbound proxy keeps the services of its requests: linkerd/http/retain/src/lib.rs on linkerd/idle-cache/src/new_service.rs, as
    linkerd/app/inbound/src/http/router.rs:226-245 puts them together with `OneshotRoute` of linkerd/router/src/lib.rs.
    The cache is that of CacheModel.v.  A target is a key, and a service a number.  Services are only kept here; what they do with requests is
    elsewhere. *)
From Coq Require Import List Arith NArith Bool.
From Verif Require Import CacheModel.
Import ListNotations.

(** tower's `Oneshot` waits for the service to be ready, or for its response, or the response has a body, or it is over *)
Inductive phase := Asks | Waits | Responds | Over.
(** A request, with the service it was given, and the handle of that *)
Record request := Request { r_key : key; r_value : value; r_handle : nat; r_phase : phase }.
(** The cache and the requests there have been *)
Record state := State { cache : CacheModel.state; requests : list request }.
(** What happens: a request for a target arrives, for which the service would be made if there is none; its service is ready and called, answers or fails;
    the body of the response is dropped, or the request is; time passes; and the parts of the cache go on *)
Inductive event :=
| Arrives (k : key) (v : value)
| Calls (i : nat) | Answers (i : nat) | Fails (i : nat) | Ends (i : nat) | Cancels (i : nat)
| Passes (d : N) | Releases (h : nat) | Polls (h : nat) | Locks (h : nat).

(** Helper: change one element of a list *)
Fixpoint set_nth {A} (i : nat) (x : A) (l : list A) : list A :=
  match l, i with [], _ => [] | _ :: l, O => x :: l | y :: l, S i => y :: set_nth i x l end.
(** Helper: a request goes on, and the cache sees these *)
Definition goes_on (idle : N) (s : state) (i : nat) (r : request) (p : phase) (es : list CacheModel.event) : state :=
  State (fst (CacheModel.run idle (cache s) es)) (set_nth i (Request (r_key r) (r_value r) (r_handle r) p) (requests s)).
(** new_service.rs:41-44 (Arrives), retain/src/lib.rs:69-87: `call` clones the service, and the clone is in the future, and then in the body, of the
    response; `Oneshot` drops the service it called.  Dropping a future, or a body, drops the clone.  [None]: it cannot happen *)
Definition step (idle : N) (s : state) (e : event) : option state :=
  match e with
  | Arrives k v =>
      match CacheModel.step idle (cache s) (Insert k v) with
      | (c, Got (Some (v, Some h))) => Some (State c (requests s ++ [Request k v h Asks]))
      | _ => None
      end
  | Calls i =>
      match nth_error (requests s) i with
      | Some r => match r_phase r with Asks => Some (goes_on idle s i r Waits [Clone (r_handle r); Drop (r_handle r)]) | _ => None end
      | None => None
      end
  | Answers i =>
      match nth_error (requests s) i with
      | Some r => match r_phase r with Waits => Some (goes_on idle s i r Responds []) | _ => None end
      | None => None
      end
  | Fails i | Cancels i =>
      match nth_error (requests s) i with
      | Some r => match r_phase r with Asks | Waits => Some (goes_on idle s i r Over [Drop (r_handle r)]) | _ => None end
      | None => None
      end
  | Ends i =>
      match nth_error (requests s) i with
      | Some r => match r_phase r with Responds => Some (goes_on idle s i r Over [Drop (r_handle r)]) | _ => None end
      | None => None
      end
  | Passes d => Some (State (fst (CacheModel.step idle (cache s) (Tick d))) (requests s))
  | Releases h => Some (State (fst (CacheModel.step idle (cache s) (Release h))) (requests s))
  | Polls h => Some (State (fst (CacheModel.step idle (cache s) (Poll h))) (requests s))
  | Locks h => Some (State (fst (CacheModel.step idle (cache s) (Lock h))) (requests s))
  end.
(** The histories; not code of its own *)
Inductive run (idle : N) : list event -> state -> Prop :=
| run_init : run idle [] (State CacheModel.init [])
| run_step : forall h s e s', run idle h s -> step idle s e = Some s' -> run idle (h ++ [e]) s'.
