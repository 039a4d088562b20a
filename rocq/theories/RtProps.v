(** C134: how many threads the proxy runs on. *)
From Coq Require Import String List NArith QArith Bool Lia.
From Verif Require Import Bytes BytesProofs EnvModel RtModel RtSpec RtProofs.
From Verif Require RetrySpec.
Import ListNotations.
Open Scope N_scope.

(** An environment *)
Definition environment (l : list (bytes * bytes)) : strings :=
  fun key => Some (option_map snd (List.find (fun kv => beq (fst kv) key) l)).
Definition half (v : bytes) : option Q := if beq v (bs "0.5"%string) then Some (1 # 2)%Q else None.
Definition halves (n : N) (_ : Q) : N := (n + 1) / 2.
Definition CORES := bs "LINKERD2_PROXY_CORES"%string.
Definition CORES_MIN := bs "LINKERD2_PROXY_CORES_MIN"%string.
Definition CORES_MAX := bs "LINKERD2_PROXY_CORES_MAX"%string.
Definition CORES_MAX_RATIO := bs "LINKERD2_PROXY_CORES_MAX_RATIO"%string.
Definition run_on (l : list (bytes * bytes)) (cpus : N) : runtime := build half halves (environment l) cpus.
Example C134_none : run_on [] 8 = Current_thread. Proof. reflexivity. Qed.
Example C134_min : run_on [(CORES_MIN, bs "3"%string); (CORES, bs "5"%string)] 8 = Multi_thread 3 3. Proof. reflexivity. Qed.
Example C134_old : run_on [(CORES_MIN, bs "0"%string); (CORES, bs "5"%string)] 8 = Multi_thread 5 5. Proof. reflexivity. Qed.
Example C134_most : run_on [(CORES_MAX, bs "4"%string); (CORES_MAX_RATIO, bs "0.5"%string)] 16 = Multi_thread 4 4. Proof. reflexivity. Qed.
Example C134_share : run_on [(CORES_MAX, bs "all"%string); (CORES_MAX_RATIO, bs "0.5"%string)] 16 = Multi_thread 8 8. Proof. reflexivity. Qed.
Example C134_all : run_on [(CORES_MAX, bs "99"%string)] 2 = Multi_thread 2 2. Proof. reflexivity. Qed.
Example C134_says : says (environment [(CORES_MAX, bs "4"%string)]) CORES_MAX 4 /\ silent (environment [(CORES_MAX, bs "0"%string)]) CORES_MAX.
Proof. split; [apply says_iff; reflexivity|apply silent_iff; reflexivity]. Qed.

(** The number of threads is the most that is asked for, or the least where that is more, but never more than there are cores.
    Each of these is one number, whatever the environment. *)
Theorem C134_number parse_f64 share e cpus : 1 <= cpus ->
  exists least_n most_n, least e least_n /\ most parse_f64 share e cpus most_n /\
  (forall n, least e n -> n = least_n) /\ (forall n, most parse_f64 share e cpus n -> n = most_n) /\
  threads (build parse_f64 share e cpus) = N.min (N.max most_n least_n) cpus.
Proof. exact (number_of_threads parse_f64 share e cpus). Qed.
Print Assumptions C134_number.

(** There is always one, whatever the environment, and never more than the cores, even if none can be found. *)
Theorem C134_within parse_f64 share e cpus : 1 <= threads (build parse_f64 share e cpus) <= N.max 1 cpus.
Proof. exact (within parse_f64 share e cpus). Qed.
Print Assumptions C134_within.

(** Several threads are used only if there are at least two of them. *)
Theorem C134_scheduler parse_f64 share e cpus :
  match build parse_f64 share e cpus with Current_thread => True | Multi_thread n blocking => 2 <= n /\ blocking = n end.
Proof. exact (scheduler parse_f64 share e cpus). Qed.
Print Assumptions C134_scheduler.

(** One would have the number of threads stay within a maximum that is set.  It does not where the least is above it, also if that is
    what an older configuration says. *)
Theorem C134_max_refuted : ~ forall parse_f64 share e cpus n, says e CORES_MAX n -> threads (build parse_f64 share e cpus) <= n.
Proof.
  intros H. specialize (H half halves (environment [(CORES, bs "4"%string); (CORES_MAX, bs "2"%string)]) 8 2).
  assert (S : says (environment [(CORES, bs "4"%string); (CORES_MAX, bs "2"%string)]) CORES_MAX 2) by (apply says_iff; reflexivity).
  specialize (H S). vm_compute in H. apply H. reflexivity.
Qed.
Print Assumptions C134_max_refuted.
