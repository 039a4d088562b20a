(** What C137 says *)
From Coq Require Import List NArith Bool.
From Verif Require Import AuthzModel AcceptModel AcceptSpec DialModel.
Import ListNotations.
Open Scope N_scope.

(** 127.0.0.0/8 and ::1 *)
Inductive loopback : ip -> Prop :=
| Lo_v4 x : x < 2 ^ 24 -> loopback (V4 (127 * 2 ^ 24 + x))
| Lo_v6 : loopback (V6 1).
(** Those, and what a system connects to likewise: ::ffff:127.0.0.0/104 *)
Definition reaches_loopback (i : ip) : Prop := loopback i \/ exists a, a < 2 ^ 32 /\ loopback (V4 a) /\ i = v4_in_v6 a.
(** Parts that follow one another are done after [d], with this error or none *)
Inductive done {E : Type} : list (stage E) -> N -> option E -> Prop :=
| Do_all : done [] 0 None
| Do_fails d e ss : done (Stage (Some d) (Some e) :: ss) d (Some e)
| Do_next d ss d' r : done ss d' r -> done (Stage (Some d) None :: ss) (d + d') r.
(** What comes of them within a time: their end, or a timeout *)
Inductive within {E : Type} (limit : N) (ss : list (stage E)) : N -> option (failure E) -> Prop :=
| Wi_done d : done ss d None -> d <= limit -> within limit ss d None
| Wi_fails d e : done ss d (Some e) -> d <= limit -> within limit ss d (Some (Because e))
| Wi_late : (forall d r, done ss d r -> limit < d) -> within limit ss limit (Some (Connect_timeout limit)).
