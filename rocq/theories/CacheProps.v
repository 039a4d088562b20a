(** C26 the idle cache *)
From Coq Require Import List Arith NArith.
From Verif Require Import CacheModel CacheSpec CacheProofs.
Import ListNotations.

(** Nothing panics: neither lookups nor the eviction tasks. *)
Theorem C26_no_panic : forall idle es e, ~ In (e, Panicked) (trace idle es).
Proof. exact never_panics. Qed.
Print Assumptions C26_no_panic.
(** While a handle is held, lookups of its key give that handle and its value. *)
Theorem C26_same : forall idle es a b c k e1 e2 v h o,
  trace idle es = a ++ (e1, Got (Some (v, Some h))) :: b ++ (e2, o) :: c ->
  looked_up k e1 -> looked_up k e2 ->
  held_throughout h (a ++ [(e1, Got (Some (v, Some h)))]) b -> never_permanent k b ->
  o = Got (Some (v, Some h)).
Proof. exact same_value. Qed.
Print Assumptions C26_same.
(** A permanent value stays. *)
Theorem C26_permanent : forall idle es a b c k v o1 e2 o,
  trace idle es = a ++ (Permanent k v, o1) :: b ++ (e2, o) :: c ->
  looked_up k e2 -> never_permanent k b -> o = Got (Some (v, None)).
Proof. exact permanent_kept. Qed.
Print Assumptions C26_permanent.
(** A lookup gives a value that was put in for its key. *)
Theorem C26_own : forall idle es a b k e v h,
  trace idle es = a ++ (e, Got (Some (v, h))) :: b -> looked_up k e -> put k v (a ++ [(e, Got (Some (v, h)))]).
Proof. exact own_value. Qed.
Print Assumptions C26_own.
(** A value is evicted only when no handle is left, *)
Theorem C26_unheld : forall idle es a b e k, trace idle es = a ++ (e, Evicted k) :: b ->
  exists h, e = Lock h /\ holders h a = 0 /\ dropping h a = 0.
Proof. exact evicted_unheld. Qed.
Print Assumptions C26_unheld.
(** and after a period of at least the idle timeout ([a2]) in which no handle was dropped;
    none was held during it, unless the last was dropped between the timer's expiry and
    the eviction ([a3]).  Missing: that this cannot be; see below. *)
Theorem C26_idle_partial : forall idle es tr b h k, trace idle es = tr ++ (Lock h, Evicted k) :: b ->
  exists a1 a2 a3, tr = a1 ++ a2 ++ a3 /\ (clock a1 + idle <= clock (a1 ++ a2))%N /\ ~ dropped h a1 a2 /\
    (~ dropped h (a1 ++ a2) a3 -> unheld_throughout h a1 (a2 ++ a3)).
Proof. exact evicted_idle. Qed.
Print Assumptions C26_idle_partial.
(** A value can be evicted although a handle was held a moment ago. *)
Theorem C26_idle_refuted : exists idle es a c h k, (0 < idle)%N /\
  trace idle es = a ++ c ++ [(Lock h, Evicted k)] /\ 0 < holders h a /\ clock c = 0%N.
Proof.
  exists 10%N, [Insert 1 5; Clone 0; Drop 0; Release 0; Poll 0; Tick 10; Poll 0; Drop 0; Release 0; Lock 0],
    (trace 10 [Insert 1 5; Clone 0; Drop 0; Release 0; Poll 0; Tick 10; Poll 0]), [(Drop 0, Nothing); (Release 0, Nothing)], 0, 1.
  vm_compute. auto.
Qed.
Print Assumptions C26_idle_refuted.
(** A value that is no longer used goes away: once its task has run, an idle timeout
    passed, and it has run again, lookups do not find it. *)
Theorem C26_no_leak : forall idle es h k v o,
  holders h (trace idle es) = 0 -> dropping h (trace idle es) = 0 ->
  In (Get k, o) (skipn (length es + 4) (trace idle (es ++ [Poll h; Tick idle; Poll h; Lock h; Get k]))) ->
  o <> Got (Some (v, Some h)).
Proof. exact no_leak. Qed.
Print Assumptions C26_no_leak.

(** Two users share a value; it is evicted ten seconds after the second left, and built
    again for the third; a permanent value replaces it. *)
Example C26_demo : trace 10 [Get 1; Insert 1 5; Insert 1 6; Drop 0; Release 0; Poll 0; Tick 10; Poll 0; Lock 0; Drop 0; Release 0; Poll 0;
    Tick 9; Poll 0; Tick 1; Poll 0; Lock 0; Get 1; Insert 1 7; Permanent 1 8; Get 1] =
  [(Get 1, Got None); (Insert 1 5, Got (Some (5, Some 0))); (Insert 1 6, Got (Some (5, Some 0))); (Drop 0, Nothing); (Release 0, Nothing);
   (Poll 0, Nothing); (Tick 10, Nothing); (Poll 0, Nothing); (Lock 0, Nothing); (Drop 0, Nothing); (Release 0, Nothing); (Poll 0, Nothing);
   (Tick 9, Nothing); (Poll 0, Nothing); (Tick 1, Nothing); (Poll 0, Nothing); (Lock 0, Evicted 1); (Get 1, Got None);
   (Insert 1 7, Got (Some (7, Some 1))); (Permanent 1 8, Nothing); (Get 1, Got (Some (8, None)))].
Proof. vm_compute. reflexivity. Qed.
Example C26_demo_held : held_throughout 0 [(Insert 1 5, Got (Some (5, Some 0)))] [(Clone 0, Nothing); (Drop 0, Nothing)].
Proof.
  intros a b E. destruct a as [|x a]; [vm_compute; auto|]. injection E as <- E. destruct a as [|y a]; [vm_compute; auto|].
  injection E as <- E. destruct a; [vm_compute; auto|discriminate].
Qed.
Example C26_demo_leak : In (Get 1, Got None) (skipn (length [Insert 1 5; Drop 0; Release 0] + 4)
    (trace 10 ([Insert 1 5; Drop 0; Release 0] ++ [Poll 0; Tick 10; Poll 0; Lock 0; Get 1])))
  /\ holders 0 (trace 10 [Insert 1 5; Drop 0; Release 0]) = 0 /\ dropping 0 (trace 10 [Insert 1 5; Drop 0; Release 0]) = 0.
Proof. vm_compute. auto. Qed.
