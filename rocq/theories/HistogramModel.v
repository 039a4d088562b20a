(** Model of linkerd/metrics/src/histogram.rs, counter.rs and latency.rs *)
From Coq Require Import List NArith ZArith QArith Bool.
Import ListNotations.
Open Scope N_scope.

(** [f64]: the finite ones are rational numbers. *)
Inductive f64 := Nan | Infinite (negative : bool) | Finite (q : Q).
(** lib.rs:86-95.  The result of [to_f64] is at most 2^53, and so exact: an integer stands
    for it. *)
Definition max_precise : N := 2 ^ 53.
(** lib.rs:94-96 *)
Definition to_f64 (n : N) : N := n mod (max_precise + 1).
(** `n <= x` for such an integer *)
Definition int_le (n : N) (x : f64) : bool :=
  match x with Nan => false | Infinite negative => negb negative | Finite q => Qle_bool (inject_Z (Z.of_N n)) q end.
(** `partial_cmp` gives `Less` *)
Definition float_lt (a b : f64) : bool :=
  match a, b with
  | Nan, _ | _, Nan => false
  | Infinite false, _ => false
  | Infinite true, Infinite true => false
  | Infinite true, _ => true
  | Finite _, Infinite negative => negb negative
  | Finite a, Finite b => negb (Qle_bool b a)
  end.
(** histogram.rs:39-43 *)
Inductive bucket := Le (ceiling : f64) | Inf.
(** histogram.rs:241-252 *)
Definition bucket_lt (a b : bucket) : bool :=
  match a, b with
  | Inf, Inf => false
  | Le Nan, _ => false
  | _, Le Nan => false
  | Le _, Inf => true
  | Inf, Le _ => false
  | Le s, Le r => float_lt s r
  end.

(** counter.rs:40-42: `fetch_add` wraps *)
Definition counter_add (c n : N) : N := (c + n) mod 2 ^ 64.
(** histogram.rs:9-36, without the unit *)
Record histogram := Histogram { bounds : list bucket; buckets : list N; h_sum : N }.
(** histogram.rs:54-69: [None] when the `assert!` fails *)
Fixpoint new_buckets (prior : bucket) (bs : list bucket) : option (list N) :=
  match bs with
  | [] => Some []
  | b :: bs => if bucket_lt prior b then option_map (cons 0) (new_buckets b bs) else None
  end.
(** histogram.rs:54-69 *)
Definition new (bs : list bucket) : option histogram :=
  option_map (fun l => Histogram bs l 0) (new_buckets (Le (Finite 0)) bs).
(** histogram.rs:75-83 *)
Definition fits (value : N) (b : bucket) : bool :=
  match b with Le ceiling => int_le (to_f64 value) ceiling | Inf => true end.
(** `Iterator::position`, histogram.rs:75-83 *)
Fixpoint position {A} (f : A -> bool) (l : list A) : option nat :=
  match l with [] => None | x :: l => if f x then Some 0%nat else option_map S (position f l) end.
(** histogram.rs:85: one bucket is incremented (counter.rs:40-42 wraps) *)
Fixpoint incr (i : nat) (l : list N) {struct l} : list N :=
  match l, i with
  | [], _ => []
  | c :: l, O => counter_add c 1 :: l
  | c :: l, S i => c :: incr i l
  end.
(** histogram.rs:71-87: [None] when no bucket fits *)
Definition add (h : histogram) (value : N) : option histogram :=
  match position (fits value) (bounds h) with
  | Some idx => Some (Histogram (bounds h) (incr idx (buckets h)) (counter_add (h_sum h) value))
  | None => None
  end.
(** A sequence of `add`s; not code of its own *)
Fixpoint add_all (h : histogram) (vs : list N) : option histogram :=
  match vs with [] => Some h | v :: vs => match add h v with Some h => add_all h vs | None => None end end.

(** The lines that are written, without names and labels *)
Inductive line := Bucket_line (le : bucket) (n : N) | Count_line (n : N) | Sum_line (n : N).
(** histogram.rs:184-219: [counts] are the buckets as they are read, one after the other,
    and [sum] is read last. *)
Fixpoint fmt_buckets (total : N) (bs : list bucket) (counts : list N) : list line * N :=
  match bs, counts with
  | b :: bs, c :: counts =>
      let total := counter_add total c in
      let (l, total') := fmt_buckets total bs counts in (Bucket_line b (to_f64 total) :: l, total')
  | _, _ => ([], total)
  end.
(** histogram.rs:184-219 *)
Definition fmt_metric (bs : list bucket) (counts : list N) (sum : N) : list line :=
  let (l, total) := fmt_buckets 0 bs counts in
  l ++ [Count_line (to_f64 total); Sum_line (to_f64 sum)].

(** latency.rs: a [Duration] is seconds and nanoseconds. *)
Record duration := Duration { secs : N; nanos : N }.
(** `u64::MAX` *)
Definition u64_max : N := 2 ^ 64 - 1.
(** latency.rs:66-72 *)
Definition from_ms (d : duration) : N :=
  N.min u64_max (N.min u64_max (secs d * 1000) + nanos d / 1000000).
(** latency.rs:45-53 *)
Definition from_us (d : duration) : N :=
  let us := secs d * 1000000 + nanos d / 1000 in if us <=? u64_max then us else u64_max.
(** latency.rs:7-35 *)
Definition latency_bounds : list bucket :=
  map (fun n => Le (Finite (inject_Z n)))
    [1; 2; 3; 4; 5; 10; 20; 30; 40; 50; 100; 200; 300; 400; 500; 1000; 2000; 3000; 4000; 5000;
     10000; 20000; 30000; 40000; 50000]%Z ++ [Inf].
