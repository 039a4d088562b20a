(** Model of linkerd/exp-backoff/src/lib.rs. *)
From Coq Require Import List NArith Bool.
Import ListNotations.
Open Scope N_scope.

(** Durations are nanoseconds.  [std::time::Duration] holds a u64 of seconds
    and a number of nanoseconds below 10^9. *)
Definition sec : N := 1000000000.
(** `Duration::MAX`: u64::MAX seconds and 999999999 nanoseconds *)
Definition dur_max : N := 18446744073709551616 * sec - 1.
(** `u32::MAX`, lib.rs:113, 176 *)
Definition u32max : N := 4294967295.
(** `u64::MAX` *)
Definition u64max : N := 18446744073709551615.

(** lib.rs:15-26.  Simplification: the jitter ratio, an f64, only appears
    through [bo_jitter], the test `self.jitter == 0.0` of lib.rs:121, and
    through the products computed from it, which are inputs of [jitter]. *)
Record backoff := Backoff { bo_min : N; bo_max : N; bo_jitter : bool }.

(** lib.rs:69-90; [jitter_ok] stands for the three checks on the float. *)
Definition try_new (min max : N) (jitter jitter_ok : bool) : option backoff :=
  if max <? min then None
  else if max =? 0 then None
  else if negb jitter_ok then None
  else Some (Backoff min max jitter).

(** [2_u32.saturating_pow] *)
Definition saturating_pow2 (n : N) : N := N.min (2 ^ n) u32max.

(** [Duration::checked_mul] *)
Definition checked_mul (d k : N) : option N :=
  if d * k <=? dur_max then Some (d * k) else None.

(** lib.rs:112-115 *)
Definition base (b : backoff) (iterations : N) : N :=
  N.min (match checked_mul (bo_min b) (saturating_pow2 iterations) with
         | Some d => d
         | None => bo_max b
         end) (bo_max b).

(** [Duration::new]: panics when the carried seconds overflow. *)
Definition duration_new (secs nanos : N) : option N :=
  if secs + nanos / sec <=? u64max then Some (secs * sec + nanos) else None.

(** lib.rs:120-136.  [secs] and [nanos] are the values of the casts
    `secs as u64` and `nanos as u32`.  [None] is a panic. *)
Definition jitter (b : backoff) (base secs nanos : N) : option N :=
  if negb (bo_jitter b) then Some 0
  else match duration_new secs nanos with
       | Some d => Some (N.min d (bo_max b - base))
       | None => None
       end.

(** lib.rs:31-38.  [st_sleep] is the deadline of the active delay. *)
Record stream := Stream { st_iterations : N; st_sleep : option N; st_duration : N }.

(** lib.rs:92-101 *)
Definition stream_new : stream := Stream 0 None 0.

(** lib.rs:164-188: what `poll_next` gives: pending, an item, the end, or a panic *)
Inductive output := Pending | Item | End | Panic.

(** What one poll reads from outside: the clock and the random products. *)
Record input := Input { in_now : N; in_secs : N; in_nanos : N }.

(** lib.rs:169-175, with an active delay; the delay is over at its deadline. *)
Definition poll_sleep (st : stream) (deadline now : N) : output * stream :=
  if deadline <=? now
  then (Item, Stream (st_iterations st + 1) None (st_duration st))
  else (Pending, st).

Section Poll.
  (** The latest instant the platform can represent: adding a duration beyond
      it panics. *)
  Variable instant_max : N.

  (** lib.rs:164-188.  The loop runs at most twice: arming a delay is followed
      by polling it. *)
  Definition poll_next (b : backoff) (st : stream) (i : input) : output * stream :=
    match st_sleep st with
    | Some deadline => poll_sleep st deadline (in_now i)
    | None =>
        if st_iterations st =? u32max then (End, st)
        else
          let bs := base b (st_iterations st) in
          match jitter b bs (in_secs i) (in_nanos i) with
          | None => (Panic, st)
          | Some j =>
              let backoff := bs + j in
              if in_now i + backoff <=? instant_max then
                let deadline := in_now i + backoff in
                poll_sleep (Stream (st_iterations st) (Some deadline) backoff) deadline (in_now i)
              else (Panic, st)
          end
    end.

  (** A sequence of polls, giving the time and the result of each. *)
  Fixpoint polls (b : backoff) (st : stream) (is : list input) : list (N * output) :=
    match is with
    | [] => []
    | i :: is' =>
        let '(o, st') := poll_next b st i in (in_now i, o) :: polls b st' is'
    end.
End Poll.
