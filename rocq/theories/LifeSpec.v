(** What C109 and C110 say *)
From Coq Require Import List Arith NArith Bool.
From Verif Require Import LifeModel.
Import ListNotations.
Open Scope N_scope.

(** How long a history takes *)
Fixpoint elapsed (es : list event) : N :=
  match es with
  | [] => 0
  | Passed t :: es => t + elapsed es
  | _ :: es => elapsed es
  end.
(** A connection to [l] that is open after a history: it was accepted, and has not been closed since. *)
Definition open_after (es : list event) (id : nat) (l : listener) : Prop :=
  exists a k b, es = a ++ Accepted l id k :: b /\ ~ In (Closed id) b.
(** The admin server says that the proxy is ready. *)
Definition says_ready (s : state) : Prop := s_latched s = false.
(** A connection of the application's traffic is accepted. *)
Definition proxies (e : event) : Prop := exists l id k, e = Accepted l id k /\ (l = Outbound \/ l = Inbound).
(** What happens while a process shuts down, and takes no time: it starts to serve, stops to accept, its
    connections are closed, and it is done. *)
Definition winds_down (e : event) : Prop :=
  match e with Started | Stopped _ | Closed _ | Drained => True | _ => False end.
