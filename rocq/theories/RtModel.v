(** Model of linkerd2-proxy/src/rt.rs and linkerd/workers/src/lib.rs: how many threads the proxy runs on. *)
From Coq Require Import String List NArith QArith Bool.
From Verif Require Import Bytes EnvModel.
Import ListNotations.
Open Scope N_scope.

(** workers/src/lib.rs:7-12.  A ratio is the rational number that the `f64` is. *)
Record workers := Workers { available : N; max_ratio : option Q; max_cores : option N; min_cores : N }.

(** `std::env::var(..).ok()`: a variable that is not set, or is not Unicode, is the same *)
Definition var (e : strings) (key : bytes) : option bytes := match e key with Some v => v | None => None end.
(** `NonZeroUsize::new` *)
Definition non_zero (n : N) : option N := if n =? 0 then None else Some n.
(** rt.rs:19, 27, 39: `v.parse::<usize>().ok().and_then(NonZeroUsize::new)`; a `usize` has 64 bits *)
Definition parse_cores (v : bytes) : option N := match parse_uint u64_max v with Some n => non_zero n | None => None end.
(** `Option::and_then` *)
Definition and_then {A B} (o : option A) (f : A -> option B) : option B := match o with Some a => f a | None => None end.
(** `Option::or_else` *)
Definition or_else {A} (o p : option A) : option A := match o with Some a => Some a | None => p end.

Section Floats.
  (** `str::parse::<f64>`: the number, if it is one; not a number (NaN) and the infinities are dropped by the filter that follows *)
  Variable parse_f64 : bytes -> option Q.
  (** `(available as f64 * ratio).round() as usize` *)
  Variable share : N -> Q -> N.

  (** rt.rs:49: `filter(|n| *n > 0.0 && *n <= 1.0)` *)
  Definition parse_ratio (v : bytes) : option Q :=
    and_then (parse_f64 v) (fun q => if negb (Qle_bool q 0) && Qle_bool q 1 then Some q else None).

  (** rt.rs:16-64 *)
  Definition config (e : strings) (cpus : N) : workers :=
    let min_cores :=
      match or_else (and_then (var e (bs "LINKERD2_PROXY_CORES_MIN"%string)) parse_cores)
                    (and_then (var e (bs "LINKERD2_PROXY_CORES"%string)) parse_cores) with
      | Some n => n
      | None => 1
      end in
    let max_cores := and_then (var e (bs "LINKERD2_PROXY_CORES_MAX"%string)) parse_cores in
    let cores_ratio := and_then (var e (bs "LINKERD2_PROXY_CORES_MAX_RATIO"%string)) parse_ratio in
    Workers (match non_zero cpus with Some n => n | None => 1 end) cores_ratio max_cores min_cores.

  (** workers/src/lib.rs:23-41 *)
  Definition cores (w : workers) : N :=
    let n := match or_else (max_cores w) (and_then (max_ratio w) (fun r => non_zero (share (available w) r))) with
             | Some n => n
             | None => 1
             end in
    N.min (N.max n (min_cores w)) (available w).

  (** rt.rs:67-86: the scheduler *)
  Inductive runtime := Current_thread | Multi_thread (threads blocking : N).
  (** rt.rs:7-87 *)
  Definition build (e : strings) (cpus : N) : runtime :=
    match cores (config e cpus) with
    | 1 => Current_thread
    | n => Multi_thread n n
    end.
End Floats.
