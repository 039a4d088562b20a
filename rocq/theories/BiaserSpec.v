(** What C33 says *)
From Coq Require Import String List NArith ZArith Bool Reals.
From Verif Require Import Bytes FilterModel TraceModel RetrySpec HintSpec EwmaModel BiaserModel.
Import ListNotations.
Open Scope N_scope.

(** ** The failures *)
(** A gRPC answer that says its status in the headers *)
Definition grpc_answer (r : response) : Prop :=
  status r = 200 /\ exists ct rest, hm_get (hdrs r) (bs "content-type") = Some ct /\ printable ct /\ ct = bs "application/grpc" ++ rest.
Definition grpc_status (r : response) (code : N) : Prop :=
  grpc_answer r /\ exists v, hm_get (hdrs r) (bs "grpc-status") = Some v /\ printable v /\ number v code /\ code < 2 ^ 16.
(** The server asks to send less; or fails otherwise *)
Definition overloaded (r : response) : Prop := status r = 429 \/ status r = 503 \/ grpc_status r 8 \/ grpc_status r 14.
Definition broken (r : response) : Prop := (500 <= status r < 600 /\ status r <> 503) \/ exists k, grpc_status r k /\ In k [2; 4; 13; 15].
(** How long the server asks to wait *)
Definition advice (date : bytes -> option N) (wall max : N) (r : response) (d : N) : Prop :=
  ((status r = 429 \/ status r = 503) /\ exists v, hm_get (hdrs r) (bs "retry-after") = Some v /\ printable v /\ delay_text date wall max v d) \/
  (grpc_answer r /\ exists v, hm_get (hdrs r) (bs "grpc-retry-pushback-ms") = Some v /\ printable v /\ pushback_text max v d).
Definition base_penalty (c : config) : N := c_penalty_ms c * 10 ^ 6.

(** ** Histories *)
Definition calls (l : list event) : nat := length (filter (fun e => match e with Called _ _ => true | _ => false end) l).
Definition records (l : list event) : nat := length (filter (fun e => match e with Recorded _ _ _ => true | _ => false end) l).
Definition records_of (id : nat) (l : list event) : nat := length (filter (fun e => match e with Recorded i _ _ => Nat.eqb i id | _ => false end) l).
(** Requests that were made and have no observation yet *)
Definition in_flight (l : list event) : nat := calls l - records l.
(** What the average is at a time *)
Definition estimate (b : biaser) (t : Z) (x : R) : Prop := get_at (b_rtt b) t = Fin x.
(** What ends a request: an error, the first frame, a cancellation; or a response that has no body or is a failure *)
Definition ends (o : op) (id : nat) : Prop :=
  match o with
  | Fail i _ | Frame i _ | Cancel i _ => i = id
  | Respond i r ended _ _ => i = id /\ (ended = true \/ overloaded r \/ broken r)
  | _ => False
  end.
