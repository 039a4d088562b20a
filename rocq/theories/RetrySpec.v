(** Specification for C14 and C15. *)
From Coq Require Import String List NArith ZArith Bool.
From Verif Require Import Bytes FilterModel TraceModel PeekModel RetryModel.
Import ListNotations.
Open Scope N_scope.

(** ** C14 *)
(** The answer of the last attempt. *)
Definition last_answer (l : list attempt) : option outcome :=
  option_map at_outcome (hd_error (rev l)).
(** Everything the attempts' bodies gave to the service. *)
Definition all_events (l : list attempt) := concat (map at_events l).

(** The gRPC status of a response: the header if there is one, else the trailers. *)
Definition has_code (hs : headers) (c : N) : Prop :=
  exists v, hm_get hs (bs "grpc-status") = Some v /\ to_str v = Some v /\
    exists z, parse_i32 v = Some z /\ c = (if (0 <=? z)%Z && (z <=? 16)%Z then Z.to_N z else 2).
Definition response_code (r : response) (c : N) : Prop :=
  has_code (rs_headers r) c \/
  hm_get (rs_headers r) (bs "grpc-status") = None /\ exists t, peek_trailers (rs_body r) = Some t /\ has_code t c.
(** The responses that a policy wants retried. *)
Definition wants_retry (p : policy) (r : response) : Prop :=
  (exists codes c, p_grpc p = Some codes /\ response_code r c /\ In c codes) \/
  (exists ranges lo hi, p_http p = Some ranges /\ In (lo, hi) ranges /\ lo <= rs_status r <= hi).
(** The errors that are retried: nothing that was shed; fail-fast; or the first
    response timeout is about headers; or the first HTTP/2 error is REFUSED_STREAM. *)
Definition first_of (kind : cause -> Prop) (e : error) (c : cause) : Prop :=
  exists a b, e = a ++ c :: b /\ kind c /\ forall x, In x a -> ~ kind x.
Definition retryable_cause (e : error) : Prop :=
  ~ In LoadShed e /\
  (In FailFast e \/
   first_of (fun c => c = TimeoutHeaders \/ c = TimeoutLifetime \/ c = TimeoutStream) e TimeoutHeaders \/
   first_of (fun c => exists r, c = H2Error r) e (H2Error (Some 7))).

(** ** C15 *)
Definition decimal (d : bytes) : N := fold_left (fun a c => a * 10 + (c - 48)) d 0.
Definition digits (d : bytes) : Prop := d <> [] /\ Forall (fun c => 48 <= c <= 57) d.
(** A number may be written with a plus sign in front. *)
Definition number (t : bytes) (n : N) : Prop :=
  exists d, digits d /\ n = decimal d /\ (t = d \/ t = bs "+" ++ d).
Definition blanks (t : bytes) : Prop := Forall (fun c => c = 32 \/ c = 9) t.

Inductive duration_unit : bytes -> N -> Prop :=
| U_ms : duration_unit (bs "ms") 1
| U_s : duration_unit (bs "s") 1000
| U_m : duration_unit (bs "m") 60000
| U_h : duration_unit (bs "h") 3600000
| U_d : duration_unit (bs "d") 86400000.
(** The text [v] means [ms] milliseconds. *)
Definition duration_text (v : bytes) (ms : N) : Prop :=
  exists w1 t n u w2, v = w1 ++ t ++ u ++ w2 /\ blanks w1 /\ blanks w2 /\ number t n /\ n <= u64_max /\
    ((exists mul, duration_unit u mul /\ ms = n * mul /\ ms <= u64_max) \/ (u = [] /\ n = 0 /\ ms = 0)).

(** A status condition, and the codes it selects. *)
Definition status_code (t : bytes) (n : N) : Prop := number t n /\ 100 <= n <= 599.
Definition condition (t : bytes) (c : N) : Prop :=
  (lowers t = bs "5xx" /\ 500 <= c <= 599) \/
  (lowers t = bs "gateway-error" /\ 502 <= c <= 504) \/
  status_code t c \/
  (exists a b s e, t = a ++ bs "-" ++ b /\ status_code a s /\ status_code b e /\ s <= c <= e).
(** The items of a comma-separated list. *)
Definition items (s : bytes) (l : list bytes) : Prop :=
  l <> [] /\ s = join 44 l /\ Forall (fun t => ~ In 44 t) l.
Definition grpc_name (t : bytes) (c : N) : Prop :=
  In (lowers t, c)
     [(bs "cancelled", 1); (bs "deadline-exceeded", 4); (bs "internal", 13);
      (bs "resource-exhausted", 8); (bs "unavailable", 14)].

Definition own_headers : list bytes :=
  [bs "l5d-retry-http"; bs "l5d-retry-grpc"; bs "l5d-retry-limit"; bs "l5d-retry-timeout";
   bs "l5d-timeout"; bs "l5d-request-timeout"; bs "l5d-response-timeout"].
