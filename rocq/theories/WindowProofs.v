(** Proofs about the success-rate window. *)
From Coq Require Import List Arith NArith ZArith Bool Lia ZifyBool ZifyNat ZifyN.
From Verif Require Import WindowModel WindowSpec.
Import ListNotations.
Open Scope N_scope.
Ltac Zify.zify_post_hook ::= Z.div_mod_to_equations.

Lemma update_length : forall l i f, length (update l i f) = length l.
Proof. induction l; intros [|i] f; cbn; auto. Qed.
Lemma update_nth : forall l i f j, (i < length l)%nat ->
  nth j (update l i f) empty = if Nat.eqb j i then f (nth i l empty) else nth j l empty.
Proof.
  induction l as [|b l IH]; intros i f j Hi; cbn in Hi; [lia|].
  destruct i; destruct j; cbn [update nth Nat.eqb]; auto. apply IH. lia.
Qed.

Lemma clear_steps_length : forall l c n, length (clear_steps l c n) = length l.
Proof. intros l c n. induction n; cbn [clear_steps]; [auto|]. now rewrite update_length. Qed.
Lemma clear_steps_nth : forall l c n j, length l = 10%nat -> (j < 10)%nat ->
  (exists i, (1 <= i <= n)%nat /\ j = Nat.modulo (c + i) 10) /\ nth j (clear_steps l c n) empty = empty \/
  (forall i, (1 <= i <= n)%nat -> j <> Nat.modulo (c + i) 10) /\ nth j (clear_steps l c n) empty = nth j l empty.
Proof.
  intros l c n j Hl Hj. induction n as [|n IH].
  - right. split; [lia|reflexivity].
  - assert (Hm : (Nat.modulo (c + S n) 10 < 10)%nat) by (apply Nat.mod_upper_bound; lia).
    change (clear_steps l c (S n)) with (update (clear_steps l c n) (Nat.modulo (c + S n) 10) clear).
    rewrite update_nth by (rewrite clear_steps_length; lia).
    destruct (Nat.eqb j (Nat.modulo (c + S n) 10)) eqn:E.
    + left. apply Nat.eqb_eq in E. split; [exists (S n); split; [lia|exact E]|reflexivity].
    + apply Nat.eqb_neq in E. destruct IH as [[(i & Hi & Hji) IH]|[Hno IH]].
      * left. split; [exists i; split; [lia|exact Hji]|exact IH].
      * right. split; [|exact IH]. intros i Hi. destruct (Nat.eq_dec i (S n)) as [->|]; [exact E|].
        apply Hno. lia.
Qed.

(** What the slot of slice [x] should hold. *)
Definition cnt (t0 w : N) (h : list (N * bool)) (x : N) : bucket :=
  Bucket (cap (count (fun s => in_slice t0 w x s && snd s) h)) (cap (count (in_slice t0 w x) h)).
Definition slot (x : N) : nat := N.to_nat (x mod 10).

Record inv (t0 w : N) (h : list (N * bool)) (c : N) (d : window) : Prop := {
  i_len : length (wd_buckets d) = 10%nat;
  i_width : wd_width d = w;
  i_roll : wd_roll d = t0 + c * w;
  i_cur : wd_current d = slot c;
  i_past : forall s, In s h -> slice t0 w (fst s) <= c;
  i_old : forall k, k < 10 -> k <= c -> nth (slot (c - k)) (wd_buckets d) empty = cnt t0 w h (c - k);
  i_none : forall k, k < 10 -> c < k -> nth (slot (c + 10 - k)) (wd_buckets d) empty = empty
}.

Lemma count_nil {A} (f : A -> bool) h : (forall s, In s h -> f s = false) -> count f h = 0.
Proof.
  unfold count. induction h as [|s h IH]; intros H; [reflexivity|].
  cbn [filter]. rewrite (H s) by now left. apply IH. intros x Hx. apply H. now right.
Qed.
Lemma count_app {A} (f : A -> bool) h s : count f (h ++ [s]) = count f h + (if f s then 1 else 0).
Proof. unfold count. rewrite filter_app, app_length. cbn [filter]. destruct (f s); cbn; lia. Qed.
Lemma count_le {A} (f g : A -> bool) h : (forall s, f s = true -> g s = true) -> count f h <= count g h.
Proof.
  intros H. unfold count. induction h as [|s h IH]; [reflexivity|].
  cbn [filter]. destruct (f s) eqn:E; [rewrite (H s E); cbn [length]; lia|].
  destruct (g s); cbn [length]; lia.
Qed.
Lemma count_ext {A} (f g : A -> bool) h : (forall s, In s h -> f s = g s) -> count f h = count g h.
Proof.
  intros H. unfold count. f_equal. f_equal. apply filter_ext_in. exact H.
Qed.

Lemma cnt_none t0 w h x : (forall s, In s h -> slice t0 w (fst s) < x) -> cnt t0 w h x = empty.
Proof.
  intros H. unfold cnt, in_slice, empty. f_equal; rewrite count_nil; try reflexivity; intros s Hs; specialize (H s Hs).
  - destruct (slice t0 w (fst s) =? x) eqn:E; [lia|reflexivity].
  - lia.
Qed.

Lemma slot_lt x : (slot x < 10)%nat.
Proof. unfold slot. lia. Qed.
Lemma slot_add c i : Nat.modulo (slot c + i) 10 = slot (c + N.of_nat i).
Proof. unfold slot. lia. Qed.
Lemma slot_inj x y : slot x = slot y -> x <= y -> y - x < 10 -> x = y.
Proof. unfold slot. lia. Qed.

Lemma nth_clear l j : nth j (map clear l) empty = empty.
Proof. revert j. induction l; intros [|j]; cbn; auto. Qed.

Section Roll.
  Variables (t0 w : N) (h : list (N * bool)).
  Hypothesis Hw : 0 < w.

  Lemma roll_inv : forall c d now, inv t0 w h c d -> t0 + c * w <= now -> now < 2 ^ 64 ->
    inv t0 w h (slice t0 w now) (roll d now).
  Proof.
    intros c d now I Hn Hb. destruct I as [Il Iw Ir Ic Ip Io In_].
    assert (Hs : (now - wd_roll d) / w = slice t0 w now - c /\ c <= slice t0 w now /\ (now - wd_roll d) mod w = (now - t0) mod w).
    { rewrite Ir. unfold slice. clear - Hw Hn. set (q := (now - t0) / w). set (r := (now - t0) mod w).
      assert (Hq : now - t0 = w * q + r /\ r < w).
      { subst q r. split; [apply N.div_mod; lia|apply N.mod_lt; lia]. }
      clearbody q r.
      assert (Hcq : c <= q) by nia.
      assert (E : now - (t0 + c * w) = (q - c) * w + r) by nia.
      rewrite E. rewrite N.div_add_l by lia. rewrite (N.add_comm ((q - c) * w) r), N.mod_add by lia.
      rewrite (N.div_small r), (N.mod_small r) by lia. lia. }
    destruct Hs as (Hs & Hc & Hr). unfold roll. rewrite Iw. replace (N.max w 1) with w by (clear - Hw; lia).
    assert (Hsm : slice t0 w now - c < 2 ^ 64).
    { rewrite <- Hs. apply N.le_lt_trans with (now - wd_roll d).
      - apply N.div_le_upper_bound; [clear - Hw; lia|]. clear - Hw. nia.
      - clear - Hb. lia. }
    rewrite Hs. rewrite (N.mod_small (slice t0 w now - c)) by exact Hsm.
    set (c' := slice t0 w now) in *.
    assert (Hrt : wd_roll d + (now - wd_roll d - ((now - wd_roll d) mod w) mod 2 ^ 64) = t0 + c' * w).
    { rewrite (N.mod_small ((now - wd_roll d) mod w)).
      2:{ apply N.le_lt_trans with (now - wd_roll d); [|clear - Hb; lia].
          apply N.mod_le. clear - Hw. lia. }
      pose proof (N.div_mod (now - wd_roll d) w ltac:(lia)) as E. rewrite Hs in E.
      assert (F : now - wd_roll d - (now - wd_roll d) mod w = (c' - c) * w).
      { rewrite (N.mul_comm (c' - c)). set (m := (now - wd_roll d) mod w) in *.
        set (a := w * (c' - c)) in *. clearbody m a. clear - E. lia. }
      rewrite F, Ir, <- N.add_assoc, <- N.mul_add_distr_r. do 2 f_equal. clear - Hc. lia. }
    set (rv := wd_roll d + _) in *. clearbody c' rv. clear Hs Hr Hb Hn Hsm.
    destruct (c' - c =? 0) eqn:E0.
    { assert (c' = c) as -> by lia. constructor; auto. }
    assert (Hp : forall s, In s h -> slice t0 w (fst s) <= c') by (intros s Hsi; specialize (Ip s Hsi); lia).
    assert (Hcur : N.to_nat ((N.of_nat (wd_current d) + (c' - c)) mod 10) = slot c').
    { rewrite Ic. unfold slot. lia. }
    constructor; cbn [wd_buckets wd_width wd_roll wd_current]; auto.
    - destruct (10 <=? c' - c); [now rewrite map_length|now rewrite clear_steps_length].
    - intros k Hk Hkc. destruct (10 <=? c' - c) eqn:E10.
      + rewrite nth_clear, cnt_none; [reflexivity|]. intros s Hsi. specialize (Ip s Hsi). lia.
      + destruct (clear_steps_nth (wd_buckets d) (wd_current d) (N.to_nat (c' - c)) (slot (c' - k)) Il (slot_lt _))
          as [[(i & Hi & Hji) He]|[Hno He]]; rewrite He; clear He.
        * rewrite Ic, slot_add in Hji.
          assert (c' - k = c + N.of_nat i).
          { destruct (N.le_gt_cases (c' - k) (c + N.of_nat i)) as [L|L].
            - apply slot_inj; [exact Hji|exact L|lia].
            - symmetry. apply slot_inj; [symmetry; exact Hji|lia|lia]. }
          rewrite cnt_none; [reflexivity|]. intros s Hsi. specialize (Ip s Hsi). lia.
        * destruct (N.le_gt_cases (c' - k) c) as [L|L].
          2:{ exfalso. apply (Hno (N.to_nat (c' - k - c))); [lia|]. rewrite Ic, slot_add. f_equal. lia. }
          replace (c' - k) with (c - (c - (c' - k))) by lia. apply Io; lia.
    - intros k Hk Hkc. destruct (10 <=? c' - c) eqn:E10; [apply nth_clear|].
      destruct (clear_steps_nth (wd_buckets d) (wd_current d) (N.to_nat (c' - c)) (slot (c' + 10 - k)) Il (slot_lt _))
          as [[_ He]|[Hno He]]; rewrite He; [reflexivity|].
      replace (c' + 10 - k) with (c + 10 - (k - (c' - c))) by lia. apply In_; lia.
  Qed.
End Roll.

Lemma cnt_app t0 w h s x :
  cnt t0 w (h ++ [s]) x =
  if in_slice t0 w x s
  then Bucket (if snd s then saturating_inc (bk_ok (cnt t0 w h x)) else bk_ok (cnt t0 w h x))
              (saturating_inc (bk_total (cnt t0 w h x)))
  else cnt t0 w h x.
Proof.
  unfold cnt. cbn [bk_ok bk_total]. rewrite !count_app. unfold saturating_inc, u32max, cap.
  change (2 ^ 32 - 1) with 4294967295.
  destruct (in_slice t0 w x s), (snd s); cbn [andb]; f_equal; lia.
Qed.

Lemma record_inv t0 w h c d s : 0 < w ->
  inv t0 w h c d -> t0 + c * w <= fst s -> fst s < 2 ^ 64 ->
  inv t0 w (h ++ [s]) (slice t0 w (fst s)) (record d (snd s) (fst s)).
Proof.
  intros Hw I Hn Hb. apply (roll_inv t0 w h Hw c d (fst s)) in I; [|exact Hn|exact Hb].
  set (c' := slice t0 w (fst s)) in *. destruct I as [Il Iw Ir Ic Ip Io In_]. unfold record.
  assert (Hc : (wd_current (roll d (fst s)) < length (wd_buckets (roll d (fst s))))%nat).
  { rewrite Il, Ic. apply slot_lt. }
  constructor; cbn [wd_buckets wd_width wd_roll wd_current]; auto.
  - now rewrite update_length.
  - intros y Hy. apply in_app_or in Hy as [Hy|[<-|[]]]; [auto|]. fold c'. lia.
  - intros k Hk Hkc. rewrite update_nth by exact Hc.
    rewrite cnt_app. unfold in_slice. fold c'.
    destruct (Nat.eqb (slot (c' - k)) (wd_current (roll d (fst s)))) eqn:E.
    + apply Nat.eqb_eq in E. rewrite Ic in E. apply slot_inj in E; [|lia|lia].
      assert (k = 0) as -> by lia. rewrite Ic. replace (c' =? c' - 0) with true by lia.
      specialize (Io 0 ltac:(lia) ltac:(lia)). rewrite N.sub_0_r in *. rewrite Io. reflexivity.
    + apply Nat.eqb_neq in E. rewrite Ic in E. destruct (c' =? c' - k) eqn:E2.
      * exfalso. apply E. f_equal. lia.
      * apply Io; assumption.
  - intros k Hk Hkc. rewrite update_nth by exact Hc.
    destruct (Nat.eqb (slot (c' + 10 - k)) (wd_current (roll d (fst s)))) eqn:E.
    + apply Nat.eqb_eq in E. rewrite Ic in E. exfalso. unfold slot in E. lia.
    + apply In_; assumption.
Qed.

Lemma reset_inv t0 w d : length (wd_buckets d) = 10%nat -> wd_width d = w -> inv t0 w [] 0 (reset d t0).
Proof.
  intros Hl Hw. constructor; cbn [reset wd_buckets wd_width wd_roll wd_current]; auto.
  - now rewrite map_length.
  - lia.
  - intros s [].
  - intros k Hk Hk0. rewrite nth_clear. reflexivity.
  - intros k Hk Hk0. apply nth_clear.
Qed.
Lemma nth_repeat_empty n j : nth j (repeat empty n) empty = empty.
Proof. revert j. induction n; intros [|j]; cbn; auto. Qed.
Lemma new_inv t0 w : inv t0 (N.max w MIN_WINDOW / 10) [] 0 (new w t0).
Proof.
  constructor; cbn [new wd_buckets wd_width wd_roll wd_current]; auto using nth_repeat_empty.
  - lia.
  - intros s [].
Qed.
Lemma new_length w t0 : length (wd_buckets (new w t0)) = 10%nat.
Proof. reflexivity. Qed.

Lemma ordered_app t h s : ordered t (h ++ [s]) -> ordered t h /\ last_time t h <= fst s.
Proof.
  revert t. induction h as [|x h IH]; intros t; cbn [app ordered].
  - intros [H _]. split; [exact I|exact H].
  - intros [H1 H2]. apply IH in H2 as [H2 H3]. split; [split; assumption|].
    unfold last_time in *. destruct h as [|y h]; [exact H3|].
    change (last (x :: y :: h) (t, true)) with (last (y :: h) (t, true)).
    assert (E : forall l z, last (z :: l) (fst x, true) = last (z :: l) (t, true)).
    { intros l. induction l as [|a l IHl]; intros z; [reflexivity|]. cbn [last]. apply IHl. }
    now rewrite E in H3.
Qed.
Lemma last_app_time t0 h s : last_time t0 (h ++ [s]) = fst s.
Proof. unfold last_time. now rewrite last_last. Qed.
Lemma last_time_ge t0 h : ordered t0 h -> t0 <= last_time t0 h.
Proof.
  induction h as [|s h IH] using rev_ind; intros H; [reflexivity|].
  rewrite last_app_time. apply ordered_app in H as [H L]. specialize (IH H). lia.
Qed.

Lemma record_all_inv t0 w h d : 0 < w -> inv t0 w [] 0 d -> ordered t0 h ->
  last_time t0 h < 2 ^ 64 ->
  inv t0 w h (slice t0 w (last_time t0 h)) (record_all d h).
Proof.
  intros Hw I0. induction h as [|s h IH] using rev_ind; intros Ho Hb.
  - unfold last_time, slice. cbn [last fst]. replace (t0 - t0) with 0 by lia. rewrite N.div_0_l by lia. exact I0.
  - unfold record_all. rewrite fold_left_app. cbn [fold_left]. change (fold_left _ h d) with (record_all d h).
    rewrite last_app_time in *. apply ordered_app in Ho as [Ho Hl].
    apply record_inv with (c := slice t0 w (last_time t0 h)); auto.
    + apply IH; [exact Ho|lia].
    + pose proof (last_time_ge t0 h Ho). pose proof (N.mul_div_le (last_time t0 h - t0) w ltac:(lia)).
      unfold slice. lia.
Qed.

(** ** The totals *)
Definition sum_ok (l : list bucket) : N := fold_right (fun b a => bk_ok b + a) 0 l.
Definition sum_total (l : list bucket) : N := fold_right (fun b a => bk_total b + a) 0 l.
Lemma totals_sum w : totals w = (sum_ok (wd_buckets w), sum_total (wd_buckets w)).
Proof.
  unfold totals. assert (H : forall l a b, fold_left (fun a b => (fst a + bk_ok b, snd a + bk_total b)) l (a, b)
    = (a + sum_ok l, b + sum_total l)).
  { induction l as [|x l IH]; intros a b; cbn [fold_left sum_ok sum_total fold_right]; [f_equal; lia|].
    rewrite IH. cbn [fst snd]. f_equal; unfold sum_ok, sum_total; lia. }
  rewrite H. f_equal; lia.
Qed.

(** The slots added up in order of age. *)
Definition age (d : window) (c k : N) : bucket := nth (slot (c + 10 - k)) (wd_buckets d) empty.
Lemma sum_by_age f d c : length (wd_buckets d) = 10%nat ->
  fold_right (fun b a => f b + a) 0 (wd_buckets d) =
  fold_right (fun k a => f (age d c k) + a) 0 [0;1;2;3;4;5;6;7;8;9].
Proof.
  intros Hl. unfold age. destruct (wd_buckets d) as [|b0 [|b1 [|b2 [|b3 [|b4 [|b5 [|b6 [|b7 [|b8 [|b9 [|]]]]]]]]]]];
    try discriminate Hl. cbn [fold_right].
  assert (Hs : forall k, k < 10 -> slot (c + 10 - k) = N.to_nat ((c mod 10 + 10 - k) mod 10)).
  { intros k Hk. unfold slot. lia. }
  rewrite !Hs by lia. clear Hs. assert (Hm : c mod 10 < 10) by (apply N.mod_lt; lia).
  set (m := c mod 10) in *. clearbody m. clear Hl.
  assert (D : m = 0 \/ m = 1 \/ m = 2 \/ m = 3 \/ m = 4 \/ m = 5 \/ m = 6 \/ m = 7 \/ m = 8 \/ m = 9) by lia.
  decompose [or] D; subst m;
    repeat match goal with |- context [N.to_nat ?e] =>
      let v := eval vm_compute in (N.to_nat e) in change (N.to_nat e) with v end;
    cbn [nth]; lia.
Qed.

Lemma slot_10 x : slot (x + 10) = slot x.
Proof. unfold slot. lia. Qed.
Lemma age_spec t0 w h c d k : inv t0 w h c d -> k < 10 ->
  age d c k = if k <=? c then cnt t0 w h (c - k) else empty.
Proof.
  intros I Hk. unfold age. destruct (k <=? c) eqn:E.
  - replace (c + 10 - k) with (c - k + 10) by lia. rewrite slot_10. apply (i_old _ _ _ _ _ I); lia.
  - apply (i_none _ _ _ _ _ I); lia.
Qed.

Lemma ite_add (b e : bool) (n : N) :
  (if b then (if e then 1 else 0) + n else 0) = (if b && e then 1 else 0) + (if b then n else 0).
Proof. now destruct b, e. Qed.

(** Counting the live responses slice by slice. *)
Lemma count_slices {A} (g : A -> bool) (sl : A -> N) c h : (forall s, In s h -> sl s <= c) ->
  count (fun s => (c - sl s <? 10) && g s) h =
  fold_right (fun k a => (if k <=? c then count (fun s => (sl s =? c - k) && g s) h else 0) + a) 0 [0;1;2;3;4;5;6;7;8;9].
Proof.
  intros Hc. induction h as [|s h IH].
  - unfold count. cbn [filter length fold_right N.of_nat].
    repeat match goal with |- context [if ?b then _ else _] => destruct b end; reflexivity.
  - assert (Hh : forall x, In x h -> sl x <= c) by (intros x Hx; apply Hc; now right).
    specialize (IH Hh). specialize (Hc s (or_introl eq_refl)).
    assert (Hcons : forall f, count f (s :: h) = (if f s then 1 else 0) + count f h).
    { intros f. unfold count. cbn [filter]. destruct (f s); cbn [length]; lia. }
    rewrite Hcons, IH. cbn [fold_right]. rewrite !Hcons.
    cbv beta. clear IH Hh Hcons. destruct (g s); rewrite ?andb_true_r, ?andb_false_r.
    + set (x := sl s) in *. clearbody x.
      repeat match goal with |- context [count ?f h] => let n := fresh in set (n := count f h); clearbody n end.
      assert (D : c - x = 0 \/ c - x = 1 \/ c - x = 2 \/ c - x = 3 \/ c - x = 4 \/ c - x = 5 \/ c - x = 6 \/
                  c - x = 7 \/ c - x = 8 \/ c - x = 9 \/ 10 <= c - x) by lia.
      rewrite !ite_add.
      repeat match goal with |- context [if ?k <=? c then ?n else 0] =>
        let m := fresh in set (m := if k <=? c then n else 0); clearbody m end.
      decompose [or] D; clear D;
        repeat match goal with |- context [if ?b then 1 else 0] =>
          first [replace b with true by lia | replace b with false by lia] end; lia.
    + rewrite ?N.add_0_l. reflexivity.
Qed.

Lemma ite_ok (b : bool) x : bk_ok (if b then x else empty) = if b then bk_ok x else 0.
Proof. now destruct b. Qed.
Lemma ite_total (b : bool) x : bk_total (if b then x else empty) = if b then bk_total x else 0.
Proof. now destruct b. Qed.
Lemma totals_spec t0 w h c d now : inv t0 w h c d -> c = slice t0 w now ->
  totals d = (successes t0 w now h, responses t0 w now h).
Proof.
  intros I ->. rewrite totals_sum. unfold sum_ok, sum_total.
  rewrite !(sum_by_age _ d (slice t0 w now) (i_len _ _ _ _ _ I)).
  unfold successes, responses, over_slices. cbn [fold_right].
  rewrite !(age_spec _ _ _ _ _ _ I) by lia. rewrite !ite_ok, !ite_total. reflexivity.
Qed.

(** Without crowding these are plain counts of the live responses. *)
Lemma over_ext t0 w now f g : (forall x, f x = g x) -> over_slices t0 w now f = over_slices t0 w now g.
Proof. intros H. unfold over_slices. cbn [fold_right]. now rewrite !H. Qed.
Lemma counts_plain t0 w now h : 0 < w -> ordered t0 h -> last_time t0 h <= now -> not_crowded t0 w h ->
  responses t0 w now h = count (live t0 w now) h /\
  successes t0 w now h = count (fun s => live t0 w now s && snd s) h.
Proof.
  intros Hw Ho Hl Hu.
  assert (Hp : forall s, In s h -> slice t0 w (fst s) <= slice t0 w now).
  { intros s Hs. unfold slice. apply N.div_le_mono; [lia|]. assert (fst s <= now); [|lia]. apply N.le_trans with (2 := Hl). clear Hl Hu.
    induction h as [|x h IH] using rev_ind; [destruct Hs|]. rewrite last_app_time.
    apply ordered_app in Ho as [Ho Hx]. apply in_app_or in Hs as [Hs|[->|[]]]; [|reflexivity].
    specialize (IH Ho Hs). lia. }
  split.
  - rewrite (count_ext (live t0 w now) (fun s => (slice t0 w now - slice t0 w (fst s) <? 10) && true)).
    2:{ intros s _. unfold live. now rewrite andb_true_r. }
    rewrite (count_slices (fun _ => true) (fun s => slice t0 w (fst s)) (slice t0 w now) h Hp).
    unfold responses.
    apply (over_ext t0 w now _ (fun x => count (fun s => (slice t0 w (fst s) =? x) && true) h)).
    intros x. specialize (Hu x). unfold cap. rewrite N.min_l by exact Hu.
    apply count_ext. intros s _. unfold in_slice. now rewrite andb_true_r.
  - unfold live. rewrite (count_slices snd (fun s => slice t0 w (fst s)) (slice t0 w now) h Hp).
    unfold successes.
    apply (over_ext t0 w now _ (fun x => count (fun s => (slice t0 w (fst s) =? x) && snd s) h)).
    intros x. specialize (Hu x). unfold cap. rewrite N.min_l; [reflexivity|].
    apply N.le_trans with (2 := Hu). apply count_le. intros s E. now apply andb_prop in E.
Qed.

Lemma over_le t0 w now f g : (forall x, f x <= g x) -> over_slices t0 w now f <= over_slices t0 w now g.
Proof.
  intros H. unfold over_slices. induction [0;1;2;3;4;5;6;7;8;9] as [|k l IH]; cbn [fold_right]; [lia|].
  apply N.add_le_mono; [|exact IH]. destruct (k <=? slice t0 w now); [apply H|lia].
Qed.
Lemma counts_bounds t0 w now h : successes t0 w now h <= responses t0 w now h <= 10 * 4294967295.
Proof.
  split.
  - apply over_le. intros x. unfold cap.
    pose proof (count_le (fun s => in_slice t0 w x s && snd s) (in_slice t0 w x) h
                 (fun s E => proj1 (andb_prop _ _ E))). lia.
  - unfold responses, over_slices.
    assert (H : forall l, fold_right (fun k a => (if k <=? slice t0 w now
      then cap (count (in_slice t0 w (slice t0 w now - k)) h) else 0) + a) 0 l <= N.of_nat (length l) * 4294967295).
    { induction l as [|k l IH]; cbn [fold_right length]; [lia|].
      match goal with |- ?x + _ <= _ => assert (x <= 4294967295) end; [|lia].
      destruct (k <=? slice t0 w now); [unfold cap; change (2 ^ 32 - 1) with 4294967295; lia|lia]. }
    apply (H [0;1;2;3;4;5;6;7;8;9]).
Qed.

(** Which ages are live. *)
Lemma live_young t0 w now s : 0 < w -> t0 <= fst s -> fst s <= now -> now - fst s <= 9 * w -> live t0 w now s = true.
Proof.
  intros Hw H0 H1 H2. unfold live, slice.
  assert (H : (now - t0) / w <= (fst s - t0) / w + 9).
  { rewrite <- N.div_add by lia. apply N.div_le_mono; lia. }
  lia.
Qed.
Lemma live_old t0 w now s : 0 < w -> t0 <= fst s -> 10 * w <= now - fst s -> live t0 w now s = false.
Proof.
  intros Hw H0 H2. unfold live, slice.
  assert (H : (fst s - t0) / w + 10 <= (now - t0) / w).
  { rewrite <- N.div_add by lia. apply N.div_le_mono; lia. }
  lia.
Qed.

(** From a new window on. *)
Lemma width_pos w : 0 < N.max w MIN_WINDOW / 10.
Proof. apply N.div_str_pos. unfold MIN_WINDOW. lia. Qed.
Theorem new_totals t0 w h : ordered t0 h -> last_time t0 h < 2 ^ 64 ->
  totals (record_all (new w t0) h) =
  (successes t0 (N.max w 10000000 / 10) (last_time t0 h) h, responses t0 (N.max w 10000000 / 10) (last_time t0 h) h).
Proof.
  intros Ho Hl. pose proof (record_all_inv t0 _ h (new w t0) (width_pos w) (new_inv t0 w) Ho Hl) as I.
  exact (totals_spec _ _ _ _ _ _ I eq_refl).
Qed.
(** A reset window is as good as a new one. *)
Lemma reset_lengths w0 t0 h0 t1 h1 : ordered t0 h0 -> last_time t0 h0 < 2 ^ 64 ->
  ordered t1 h1 -> last_time t1 h1 < 2 ^ 64 ->
  totals (record_all (reset (record_all (new w0 t0) h0) t1) h1) =
  (successes t1 (N.max w0 10000000 / 10) (last_time t1 h1) h1, responses t1 (N.max w0 10000000 / 10) (last_time t1 h1) h1).
Proof.
  intros Ho Hl Ho1 Hl1. pose proof (record_all_inv t0 _ h0 (new w0 t0) (width_pos w0) (new_inv t0 w0) Ho Hl) as I.
  pose proof (reset_inv t1 _ _ (i_len _ _ _ _ _ I) (i_width _ _ _ _ _ I)) as R.
  pose proof (record_all_inv t1 _ h1 _ (width_pos w0) R Ho1 Hl1) as I1.
  exact (totals_spec _ _ _ _ _ _ I1 eq_refl).
Qed.
