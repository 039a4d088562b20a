(** Specification for C34 and C35: the text formats. *)
From Coq Require Import List NArith.
From Verif Require Import Bytes FilterModel FilterSpec TraceModel.
Import ListNotations.
Open Scope N_scope.

Inductive digit_value : N -> N -> Prop :=
| dv_digit v : v <= 9 -> digit_value (48 + v) v
| dv_lower v : v <= 5 -> digit_value (97 + v) (10 + v)
| dv_upper v : v <= 5 -> digit_value (65 + v) (10 + v).

(** [s] is a hexadecimal text of the bytes [b]. *)
Inductive hexes : bytes -> bytes -> Prop :=
| hexes_nil : hexes [] []
| hexes_cons a x b y s t : digit_value a x -> digit_value b y -> hexes s t ->
    hexes (a :: b :: s) (16 * x + y :: t).

Definition byte_string (b : bytes) : Prop := Forall (fun c => c < 256) b.
Definition nonzero (b : bytes) : Prop := exists c, In c b /\ c <> 0.
Definition dash : N := 45.

(** A request's first value for a header. *)
Definition first_value (n : bytes) (hs : headers) (v : bytes) : Prop :=
  exists vs, values n hs (v :: vs).

(** A `traceparent` as the W3C recommendation has it. *)
Definition traceparent (v tid pid : bytes) (fl : N) : Prop :=
  exists t p f, v = [48; 48] ++ dash :: t ++ dash :: p ++ dash :: f /\
    hexes t tid /\ hexes p pid /\ hexes f [fl] /\
    len tid = 16 /\ len pid = 8 /\ nonzero tid /\ nonzero pid.

(** A span id that the proxy may draw; the all-zero one is not a valid id. *)
Definition span_id_ok (id : bytes) : Prop := len id = 8 /\ byte_string id /\ nonzero id.

(** The header in which each format carries the span id. *)
Definition span_header (p : propagation) : bytes :=
  match p with W3CHttp => TRACEPARENT | B3Grpc => GRPC_TRACE_BIN | B3Http => X_B3_SPANID end.
(** [b] filled up with zeros on the left. *)
Definition padded (n : nat) (b r : bytes) : Prop :=
  exists k, r = repeat 0 k ++ b /\ (length r = n).
