(** Property C08: backoff delays. *)
From Coq Require Import List NArith Lia.
From Verif Require Import BackoffModel BackoffSpec BackoffProofs.
Import ListNotations.
Open Scope N_scope.

(** Every armed delay lies in [min, max], is at least the plain delay and equals
    it without jitter. *)
Theorem C08_delay_bounds :
  forall min max j ok b n secs nanos d,
    max <= longest -> try_new min max j ok = Some b ->
    jitter b (base b n) secs nanos = Some d ->
    min <= base b n + d <= max /\ plain_delay min max n <= base b n + d /\
    (j = false -> base b n + d = plain_delay min max n).
Proof.
  exact (fun min max j ok b n secs nanos d Hm Hb Hj =>
    match try_new_valid min max j ok b Hm Hb with
    | conj Hv (conj E1 (conj E2 E3)) =>
        match E1, E2, E3 with
        | eq_refl, eq_refl, eq_refl =>
            match delay_bounds b n secs nanos d Hv Hj with
            | conj (conj A B) (conj C D) => conj (conj C B) (conj A D)
            end
        end
    end).
Qed.
Print Assumptions C08_delay_bounds.

Theorem C08_delays_grow :
  forall min max n m, n <= m -> plain_delay min max n <= plain_delay min max m.
Proof. exact plain_mono. Qed.
Print Assumptions C08_delays_grow.

(** The whole stream: each item at least its delay after the one before it,
    never pending for [max] or longer, ending only after 2^32-1 items. *)
Theorem C08_stream :
  forall instant_max min max j ok b is,
    max <= longest -> try_new min max j ok = Some b -> clock_from 0 is ->
    paced min max 0 0 (polls instant_max b stream_new is) /\
    prompt max (polls instant_max b stream_new is).
Proof. exact stream_paced. Qed.
Print Assumptions C08_stream.

Theorem C08_no_panic_partial :
  forall instant_max min max j ok b is st,
    max <= longest -> try_new min max j ok = Some b ->
    (forall i, In i is -> in_now i + max <= instant_max /\ in_secs i + 5 <= u64max /\ in_nanos i <= u32max) ->
    forall t, ~ In (t, Panic) (polls instant_max b st is).
Proof. exact stream_no_panic. Qed.
Print Assumptions C08_no_panic_partial.

(** Accepted but absurd configurations do panic: the deadline is not
    representable, or the jitter overflows a duration. *)
Theorem C08_no_panic_refuted :
  (exists b, try_new longest longest false true = Some b /\
     polls (9223372036854775807 * sec) b stream_new [Input 1 0 0] = [(1, Panic)]) /\
  (exists b, try_new 1 longest true true = Some b /\ jitter b (base b 0) u64max u32max = None).
Proof.
  exact (conj (ex_intro _ _ (conj eq_refl eq_refl)) (ex_intro _ _ (conj eq_refl eq_refl))).
Qed.
Print Assumptions C08_no_panic_refuted.

(** The doubling stops after 32 steps even when [max] is not reached. *)
Theorem C08_reaches_max_refuted :
  exists min max b, try_new min max false true = Some b /\ 0 < min /\
    forall n, base b n < max.
Proof.
  exact (ex_intro _ 1 (ex_intro _ sec_10 (ex_intro _ _ (conj eq_refl (conj N.lt_0_1 stuck_below_max))))).
Qed.
Print Assumptions C08_reaches_max_refuted.

Example C08_demo :
  exists b, try_new 5 40 true true = Some b /\
    polls (1000 * sec) b stream_new
      [Input 0 0 2; Input 6 0 0; Input 7 0 0; Input 8 0 100; Input 48 0 0; Input 50 0 0; Input 100 0 0]
    = [(0, Pending); (6, Pending); (7, Item); (8, Pending); (48, Item); (50, Pending); (100, Item)].
Proof. eexists. split; reflexivity. Qed.
