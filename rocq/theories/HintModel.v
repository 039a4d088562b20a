(** Model of linkerd/http/classify/src/retry_after.rs.  Durations are in nanoseconds. *)
From Coq Require Import String List NArith ZArith Bool.
From Verif Require Import Bytes FilterModel TraceModel RetryModel.
Import ListNotations.
Open Scope N_scope.

(** `Duration::from_secs`, `Duration::from_millis` *)
Definition from_secs (s : N) : N := s * 1000000000.
(** `Duration::from_millis` *)
Definition from_millis (ms : N) : N := ms * 1000000.

Section Hint.
  (** `httpdate::parse_http_date` (another crate), in nanoseconds since the epoch,
      and `SystemTime::now()`. *)
  Variable parse_http_date : bytes -> option N.
  Variable now : N.

  (** retry_after.rs:42-68 *)
  Definition parse_retry_after_value (s : bytes) (max : N) : option N :=
    let s := trim s in
    match parse_uint u64_max s with
    | Some secs => Some (N.min (from_secs secs) max)
    | None =>
        match parse_http_date s with
        | Some datetime => if now <=? datetime then Some (N.min (datetime - now) max) else Some 0
        | None => None
        end
    end.

  (** retry_after.rs:22-36 *)
  Definition parse_retry_after (status : N) (hs : headers) (max : N) : option N :=
    if negb (status =? 429) && negb (status =? 503) then None
    else match hm_get hs (bs "retry-after") with
         | Some v => match to_str v with Some s => parse_retry_after_value s max | None => None end
         | None => None
         end.
End Hint.

(** retry_after.rs:71, 93-118 *)
Definition parse_grpc_retry_pushback (hs : headers) (max : N) : option N :=
  match hm_get hs (bs "grpc-retry-pushback-ms") with
  | Some v =>
      match to_str v with
      | Some s =>
          match parse_i32 (trim s) with
          | Some ms => if (ms <? 0)%Z then None else Some (N.min (from_millis (Z.to_N ms)) max)
          | None => None
          end
      | None => None
      end
  | None => None
  end.
