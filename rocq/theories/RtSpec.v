(** What C134 says *)
From Coq Require Import String List NArith QArith Bool.
From Verif Require Import Bytes EnvModel RtModel.
From Verif Require RetrySpec.
Import ListNotations.
Open Scope N_scope.

(** The variable says a number of cores, at least one, and small enough for 64 bits. *)
Definition says (e : strings) (key : bytes) (n : N) : Prop :=
  exists v, e key = Some (Some v) /\ RetrySpec.number v n /\ 1 <= n < 18446744073709551616.
Definition silent (e : strings) (key : bytes) : Prop := forall n, ~ says e key n.
(** The variable says a ratio above none and up to all. *)
Definition says_ratio (parse_f64 : bytes -> option Q) (e : strings) (q : Q) : Prop :=
  exists v, e (bs "LINKERD2_PROXY_CORES_MAX_RATIO"%string) = Some (Some v) /\ parse_f64 v = Some q /\ (0 < q)%Q /\ (q <= 1)%Q.

(** The least number of cores that is asked for.  One variable goes before the other, which older configurations have. *)
Inductive least (e : strings) : N -> Prop :=
| L_min n : says e (bs "LINKERD2_PROXY_CORES_MIN"%string) n -> least e n
| L_cores n : silent e (bs "LINKERD2_PROXY_CORES_MIN"%string) -> says e (bs "LINKERD2_PROXY_CORES"%string) n -> least e n
| L_one : silent e (bs "LINKERD2_PROXY_CORES_MIN"%string) -> silent e (bs "LINKERD2_PROXY_CORES"%string) -> least e 1.
(** How many may be used beyond that *)
Inductive most (parse_f64 : bytes -> option Q) (share : N -> Q -> N) (e : strings) (cpus : N) : N -> Prop :=
| M_max n : says e (bs "LINKERD2_PROXY_CORES_MAX"%string) n -> most parse_f64 share e cpus n
| M_ratio q : silent e (bs "LINKERD2_PROXY_CORES_MAX"%string) -> says_ratio parse_f64 e q -> most parse_f64 share e cpus (N.max 1 (share cpus q))
| M_one : silent e (bs "LINKERD2_PROXY_CORES_MAX"%string) -> (forall q, ~ says_ratio parse_f64 e q) -> most parse_f64 share e cpus 1.
(** The threads that run the proxy *)
Definition threads (r : runtime) : N := match r with Current_thread => 1 | Multi_thread n _ => n end.
