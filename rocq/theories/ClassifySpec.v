(** Specification for C50. *)
From Coq Require Import String List NArith Bool.
From Verif Require Import Bytes FilterModel TraceModel RetrySpec BreakerModel ClassifyModel HintSpec.
Import ListNotations.
Open Scope N_scope.

(** The status a profile's match describes. *)
Fixpoint describes (m : rmatch) (status : N) : Prop :=
  match m with
  | Status lo hi => lo <= status <= hi
  | Not m => ~ describes m status
  | All ms => fold_right (fun m p => describes m status /\ p) True ms
  | Any ms => fold_right (fun m p => describes m status \/ p) False ms
  end.

(** The gRPC status of headers or trailers: a decimal number below 2^16, where those
    above 16 mean UNKNOWN. *)
Definition has_status (hs : headers) (c : N) : Prop :=
  exists v n, hm_get hs (bs "grpc-status") = Some v /\ number v n /\ n < 2 ^ 16 /\
    (n <= 16 /\ c = n \/ 16 < n /\ c = 2).
Definition grpc_request (hs : headers) : Prop :=
  exists v r, hm_get hs (bs "content-type") = Some v /\ printable v /\ v = bs "application/grpc" ++ r.

(** The classifier in effect for a request, as stated by its policy. *)
Definition effective (r : request) (hs : headers) (c : response_classifier) : Prop :=
  match r with
  | Profile cs => c = R_profile cs
  | Policy_grpc codes => c = R_grpc codes
  | Policy_http ranges => grpc_request hs /\ c = R_grpc [15; 4; 13; 7; 14; 2] \/ ~ grpc_request hs /\ c = R_http ranges
  | Default => grpc_request hs /\ c = R_grpc [15; 4; 13; 7; 14; 2] \/ ~ grpc_request hs /\ c = R_http [(500, 599)]
  end.

(** The class of a response that ended with these trailers, if any. *)
Definition first_match (cs : list rclass) (status : N) (c : rclass) : Prop :=
  exists a b, cs = a ++ c :: b /\ describes (rc_match c) status /\ forall x, In x a -> ~ describes (rc_match x) status.
Definition no_status (hs : headers) : Prop := ~ exists c, has_status hs c.
Definition final_status (hs : headers) (trailers : option headers) (c : N) : Prop :=
  has_status hs c \/ no_status hs /\ exists t, trailers = Some t /\ has_status t c.
Definition no_final_status (hs : headers) (trailers : option headers) : Prop :=
  ~ exists c, final_status hs trailers c.
Definition fails_iff (fail : bool) (P : Prop) : Prop := fail = true <-> P.

Inductive class_of : response_classifier -> N -> headers -> option headers -> class -> Prop :=
| Class_http ranges st hs tr fail :
    fails_iff fail (exists lo hi, In (lo, hi) ranges /\ lo <= st <= hi) ->
    class_of (R_http ranges) st hs tr (Http fail st)
| Class_grpc codes st hs tr c fail : final_status hs tr c -> fails_iff fail (In c codes) ->
    class_of (R_grpc codes) st hs tr (Grpc fail c)
| Class_grpc_none codes st hs tr : no_final_status hs tr ->
    class_of (R_grpc codes) st hs tr (Grpc false 2)
| Class_profile cs st hs tr c : first_match cs st c -> class_of (R_profile cs) st hs tr (Http (rc_failure c) st)
| Class_profile_grpc cs st hs tr c fail : ~ (exists c, first_match cs st c) ->
    final_status hs tr c -> fails_iff fail (In c [15; 4; 13; 7; 14; 2]) ->
    class_of (R_profile cs) st hs tr (Grpc fail c)
| Class_profile_http cs st hs tr fail : ~ (exists c, first_match cs st c) -> no_final_status hs tr ->
    fails_iff fail (500 <= st <= 599) -> class_of (R_profile cs) st hs tr (Http fail st).

(** ** How a body ends *)
(** The events of a response, after its head: data, then how it ended. *)
Definition ends (es : list event) (tr : option (option headers)) : Prop :=
  exists n rest e, es = repeat Data n ++ e :: rest /\
    match e with
    | End | Drop => tr = Some None
    | Trailers t => tr = Some (Some t)
    | Body_error => tr = None
    | _ => False
    end.
