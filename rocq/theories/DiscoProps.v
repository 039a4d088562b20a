(** C133: discoveries are shared, and kept while they are used. *)
From Coq Require Import List Arith NArith Bool.
From Verif Require Import DiscoModel DiscoSpec DiscoProofs.
Import ListNotations.

(** Two services of key 0 share a lookup, which key 1 does not; after they are gone for long, key 0 is looked up again. *)
Definition story : list event :=
  [New 0; New 1; New 0; Answers 0 (Found 5); Answers 1 (Failed 9); Polls 0; Polls 1; Polls 2; Drops 0; Ticks 3; Drops 2; Ticks 10; Evicts 0; New 0].
Example C133_story : exists s, run 10 init story = Some s /\ lookups s = [0; 1; 0] /\
  services s = [Service 0 (Made 5) true; Service 1 (Broke 9) false; Service 0 (Made 5) true; Service 2 Waits false].
Proof. eexists. split; [vm_compute; reflexivity|]. split; vm_compute; reflexivity. Qed.
(** Not so soon *)
Example C133_soon : run 10 init [New 0; Drops 0; Ticks 9; Evicts 0] = None.
Proof. reflexivity. Qed.
Example C133_used : run 10 init [New 0; New 0; Drops 0; Ticks 100; Evicts 0] = None.
Proof. reflexivity. Qed.
(** Two are in use. *)
Example C133_both : exists s x y, run 10 init [New 0; New 0; Answers 0 (Found 3); Polls 0] = Some s /\
  in_use [New 0; New 0; Answers 0 (Found 3); Polls 0] s 0 0 x /\ in_use [New 0; New 0; Answers 0 (Found 3); Polls 0] s 0 1 y /\ s_phase x = Made 3.
Proof.
  do 3 eexists. split; [vm_compute; reflexivity|]. unfold in_use. cbn [services news flat_map app nth_error].
  split; [split; [reflexivity|split; reflexivity]|]. split; [split; [reflexivity|split; reflexivity]|]. reflexivity.
Qed.

(** A service is made from, or fails with, the answer to a lookup of its own key. *)
Theorem C133_own_answer idle h s i x k : run idle init h = Some s -> nth_error (services s) i = Some x -> nth_error (news h) i = Some k ->
  nth_error (lookups s) (s_thunk x) = Some k /\
  (forall v, s_phase x = Made v -> In (Answers (s_thunk x) (Found v)) h) /\
  (forall e, s_phase x = Broke e -> In (Answers (s_thunk x) (Failed e)) h).
Proof. exact (own_answer idle h s i x k). Qed.
Print Assumptions C133_own_answer.

(** Services of a key that are there at the same time share one lookup. *)
Theorem C133_shared idle h s i j k x y : run idle init h = Some s -> in_use h s k i x -> in_use h s k j y -> s_thunk x = s_thunk y.
Proof. exact (shared idle h s i j k x y). Qed.
Print Assumptions C133_shared.

(** A key is looked up at most once more than its entry went away. *)
Theorem C133_one_lookup idle h s k : run idle init h = Some s -> count k (lookups s) <= S (count k (evictions h)).
Proof. exact (one_lookup idle h s k). Qed.
Print Assumptions C133_one_lookup.

(** The entry of a key goes away only when no service of the key is there and none of those that used its lookup was dropped
    for the idle timeout. *)
Theorem C133_evicted idle h s k : run idle init (h ++ [Evicts k]) = Some s ->
  (forall v i x, run idle init h = Some v -> ~ in_use h v k i x) /\
  exists v t, run idle init h = Some v /\ nth_error (lookups v) t = Some k /\
  forall a b i x, h = a ++ Drops i :: b -> nth_error (services v) i = Some x -> s_thunk x = t -> (idle <= clock b)%N.
Proof. exact (evicted idle h s k). Qed.
Print Assumptions C133_evicted.

(** Then the key is looked up anew. *)
Theorem C133_anew idle h s k : run idle init (h ++ [Evicts k; New k]) = Some s ->
  exists v, run idle init h = Some v /\ lookups s = lookups v ++ [k].
Proof. exact (anew idle h s k). Qed.
Print Assumptions C133_anew.

(** One would have a lookup that failed made again for the next service.  It is not: as long as services of the key come, one after
    another, within the idle timeout, each fails with the old error, for any number of them, and all the time that takes. *)
Theorem C133_failed_refuted idle n : exists h s, run idle init h = Some s /\ lookups s = [0] /\ clock h = (N.of_nat n * (idle - 1))%N /\
  news h = repeat 0 (S n) /\ services s = repeat (Service 0 (Broke 7) true) (S n).
Proof. exact (remembered idle n). Qed.
Print Assumptions C133_failed_refuted.
