(** What C141 says *)
From Coq Require Import List NArith ZArith Bool.
From Verif Require Import EndpointModel BreakerModel ClientPolicyModel.
Import ListNotations.
Open Scope N_scope.

(** The field of a message for the failure accrual of requests of a version, [two] for HTTP/2 *)
Definition field (pb : pb_policy) (two : bool) : option (option pb_accrual) :=
  match pb_proxy_protocol pb with
  | Some (Some (Pb_detect _ http1 http2 _)) =>
      match (if two then http2 else http1) with Some h => pbp_accrual h | None => None end
  | Some (Some (Pb_http1 h)) => pbp_accrual h
  | Some (Some (Pb_http2 h)) => pbp_accrual h
  | Some (Some (Pb_grpc g)) => pbp_accrual g
  | _ => None
  end.
(** Seconds are an i64 and nanoseconds an i32 *)
Definition in_range (d : pb_duration) : Prop := (- 2 ^ 63 <= fst d < 2 ^ 63 /\ - 2 ^ 31 <= snd d < 2 ^ 31)%Z.
(** How many requests were tried, and how many got through *)
Definition sends (es : list event) : nat := length (filter (fun e => match e with Send => true | _ => false end) es).
Definition passed (l : list entry) : nat := length (filter (fun e => match e with Admit _ => true | _ => false end) l).
