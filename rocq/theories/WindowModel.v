(** Model of linkerd/app/outbound/src/http/breaker/success_rate.rs. *)
From Coq Require Import List NArith ZArith Bool.
From Flocq Require Import IEEE754.BinarySingleNaN.
Import ListNotations.
Open Scope N_scope.

(** Instants and durations are in nanoseconds. *)
(** success_rate.rs:33-47 *)
Definition BUCKETS : nat := 10.
(** success_rate.rs:46-47: ten buckets of a millisecond, in nanoseconds *)
Definition MIN_WINDOW : N := 10000000.
(** `u32::MAX` *)
Definition u32max : N := 4294967295.

(** success_rate.rs:51-61 *)
Record bucket := Bucket { bk_ok : N; bk_total : N }.
(** success_rate.rs:50-54: `Default` *)
Definition empty : bucket := Bucket 0 0.

(** success_rate.rs:72-81 *)
Record window := Window { wd_buckets : list bucket; wd_width : N; wd_current : nat; wd_roll : N }.

(** success_rate.rs:91-99 *)
Definition new (w now : N) : window :=
  Window (repeat empty BUCKETS) (N.max w MIN_WINDOW / 10) 0 now.

(** Helper: change one element of a list *)
Fixpoint update (l : list bucket) (i : nat) (f : bucket -> bucket) : list bucket :=
  match l, i with
  | [], _ => []
  | b :: l, O => f b :: l
  | b :: l, S i => b :: update l i f
  end.
(** success_rate.rs:57-60 *)
Definition clear (b : bucket) : bucket := empty.

(** success_rate.rs:123-126: the landing buckets of [n] steps are cleared. *)
Fixpoint clear_steps (l : list bucket) (current n : nat) : list bucket :=
  match n with
  | O => l
  | S n' => update (clear_steps l current n') (Nat.modulo (current + n) BUCKETS) clear
  end.

(** success_rate.rs:106-138.  `as usize` and `as u64` keep 64 bits. *)
Definition roll (w : window) (now : N) : window :=
  let elapsed := now - wd_roll w in
  let steps := (elapsed / N.max (wd_width w) 1) mod 2 ^ 64 in
  if steps =? 0 then w
  else
    let bs := if 10 <=? steps then map clear (wd_buckets w)
              else clear_steps (wd_buckets w) (wd_current w) (N.to_nat steps) in
    let remainder := (elapsed mod N.max (wd_width w) 1) mod 2 ^ 64 in
    Window bs (wd_width w) (N.to_nat ((N.of_nat (wd_current w) + steps) mod 10))
      (wd_roll w + (elapsed - remainder)).

(** `u32::saturating_add(1)`, success_rate.rs:146, 148 *)
Definition saturating_inc (n : N) : N := N.min (n + 1) u32max.

(** success_rate.rs:143-150 *)
Definition record (w : window) (success : bool) (now : N) : window :=
  let w := roll w now in
  Window (update (wd_buckets w) (wd_current w)
            (fun b => Bucket (if success then saturating_inc (bk_ok b) else bk_ok b)
                             (saturating_inc (bk_total b))))
         (wd_width w) (wd_current w) (wd_roll w).

(** success_rate.rs:158-166; ten u32 cannot overflow a u64. *)
Definition totals (w : window) : N * N :=
  fold_left (fun a b => (fst a + bk_ok b, snd a + bk_total b)) (wd_buckets w) (0, 0).

(** f64 *)
Definition f64 := binary_float 53 1024.
(** Flocq: binary64's precision *)
Definition prec_gt_0_53 : FLX.Prec_gt_0 53 := eq_refl.
(** Flocq: binary64's exponents *)
Definition prec_lt_emax_53 : Prec_lt_emax 53 1024 := eq_refl.
#[global] Existing Instance prec_gt_0_53.
#[global] Existing Instance prec_lt_emax_53.
(** `n as f64` and `/` *)
Definition f64_of_N (n : N) : f64 := binary_normalize 53 1024 _ _ mode_NE (Z.of_N n) 0 false.
(** `/` of f64 *)
Definition f64_div : f64 -> f64 -> f64 := Bdiv mode_NE.
(** `<` of f64 *)
Definition f64_lt : f64 -> f64 -> bool := Bltb.

(** linkerd/proxy/client-policy/src/lib.rs:182-212: a threshold of [bp] basis points. *)
Definition as_fraction (bp : N) : f64 := f64_div (f64_of_N bp) (f64_of_N 10000).

(** success_rate.rs:170-174, 190-196 *)
Definition should_trip (w : window) (min_requests : N) (threshold : f64) : bool :=
  let '(successes, total) := totals w in
  if total =? 0 then false
  else (min_requests <=? total) && f64_lt (f64_div (f64_of_N successes) (f64_of_N total)) threshold.

(** success_rate.rs:200-206 *)
Definition reset (w : window) (now : N) : window :=
  Window (map clear (wd_buckets w)) (wd_width w) 0 now.

(** Any sequence of recorded responses: time and whether it succeeded. *)
Definition record_all (w : window) (h : list (N * bool)) : window :=
  fold_left (fun w s => record w (snd s) (fst s)) h w.
