(** What the theorems about copying say, apart from the model's own functions. *)
From Coq Require Import List NArith Bool.
From Verif Require Import Bytes DuplexModel.
Import ListNotations.
Open Scope N_scope.

(** ** What is seen of a proxied connection *)

(** A connection that is polled again and again as long as it is pending, and the calls made until now *)
Inductive run : duplex -> list event -> Prop :=
| Run_new : run new []
| Run_poll : forall d tr answers d' rest tr', run d tr ->
    poll_duplex d (answers, tr) = (Some (d', Pending), (rest, tr')) -> run d' tr'.
(** The calls at some time, perhaps in the middle of a poll *)
Definition seen (tr : list event) : Prop :=
  exists d tr0 answers r rest, run d tr0 /\ poll_duplex d (answers, tr0) = (r, (rest, tr)).

(** The bytes read from a socket, *)
Definition reads (s : side) (tr : list event) : bytes :=
  flat_map (fun e => match e, s with
                     | Event Inner (Read (Ready b)), Inner => b
                     | Event Outer (Read (Ready b)), Outer => b
                     | _, _ => []
                     end) tr.
(** those that a socket has taken, *)
Definition writes (s : side) (tr : list event) : bytes :=
  flat_map (fun e => match e, s with
                     | Event Inner (Write b (Ready n)), Inner => firstn n b
                     | Event Outer (Write b (Ready n)), Outer => firstn n b
                     | _, _ => []
                     end) tr.
(** that a socket has come to the end of its input, and that one's output has been shut down *)
Definition eof (s : side) (tr : list event) : Prop := In (Event s (Read (Ready []))) tr.
Definition shut (s : side) (tr : list event) : Prop := In (Event s (Shutdown (Ready tt))) tr.

(** The direction that a call is made for, named by the socket it comes from *)
Definition direction (e : event) : side :=
  match ev_call e with Read _ => ev_sock e | _ => across (ev_sock e) end.
(** The calls for a direction *)
Definition calls (s : side) (tr : list event) : list event :=
  filter (fun e => match direction e, s with Inner, Inner | Outer, Outer => true | _, _ => false end) tr.
(** The last one was to flush, and did not complete. *)
Definition flush_due (s : side) (tr : list event) : Prop :=
  exists l, calls s tr = l ++ [Event (across s) (Flush Pending)].

(** ** The calls that may be made *)

(** [allowed pre e]: after the calls [pre], the call [e] is in order.  A socket is read only when all that was read
    before has been written, not after its end, and no more than 8 KiB at once; all that is left is offered to the
    other one; that is flushed
    before the end only; it is shut down after the end, when all has been written, and once; and a flush is
    completed before anything else is done. *)
Definition allowed (pre : list event) (e : event) : Prop :=
  let s := direction e in
  match ev_call e with
  | Read r => reads s pre = writes (across s) pre /\ ~ eof s pre /\ (forall b, r = Ready b -> len b <= 8192)
  | Write b _ => reads s pre = writes (across s) pre ++ b /\ b <> []
  | Flush _ => ~ eof s pre
  | Shutdown _ => eof s pre /\ reads s pre = writes (across s) pre /\ ~ shut (across s) pre
  end /\
  match ev_call e with Flush _ => True | _ => ~ flush_due s pre end.

(** ** Waiting *)

(** A call did not complete. *)
Definition incomplete (e : event) : Prop :=
  match ev_call e with
  | Read Pending | Write _ Pending | Flush Pending | Shutdown Pending => True
  | _ => False
  end.
(** Among the calls of a poll there is one for a direction that did not complete, and nothing was done for it
    afterwards but to flush. *)
Definition waiting (s : side) (evs : list event) : Prop :=
  exists a e b, calls s evs = a ++ e :: b /\ incomplete e /\
    forall x, In x b -> exists r, x = Event (across s) (Flush r).
(** Everything that was written for a direction during a poll was flushed afterwards, as far as calls to flush or to
    shut down go. *)
Definition flushed (s : side) (evs : list event) : Prop :=
  forall a b n c, calls s evs = a ++ Event (across s) (Write b (Ready n)) :: c ->
    exists r, In (Event (across s) (Flush r)) c \/ In (Event (across s) (Shutdown r)) c.
(** The socket did not take at once all that it was offered. *)
Definition congested (s : side) (evs : list event) : Prop := exists b, In (Event (across s) (Write b Pending)) (calls s evs).
(** A call failed, or nothing was taken of what was offered. *)
Definition failing (e : event) (f : failure) : Prop :=
  match ev_call e with
  | Read (Failed x) | Write _ (Failed x) | Flush (Failed x) | Shutdown (Failed x) => f = x
  | Write _ (Ready O) => f = Write_zero
  | _ => False
  end.

(** ** Answers, for examples *)

(** Some bytes are read; some are taken; a flush or a shutdown is done; not ready; an error *)
Definition has (b : bytes) : answer := Answer Is_ready b 0.
Definition takes (n : nat) : answer := Answer Is_ready [] n.
Definition done : answer := Answer Is_ready [] 0.
Definition not_yet : answer := Answer Is_pending [] 0.
Definition broken : answer := Answer Has_failed [] 0.
(** The client has a byte to read and the server takes it, over and over. *)
Fixpoint busy (n : nat) : list answer := match n with O => [] | S n => has [0] :: takes 1 :: busy n end.
