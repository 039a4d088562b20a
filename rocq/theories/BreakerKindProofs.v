From Coq Require Import List Arith NArith ZArith Bool Lia ZifyBool ZifyNat ZifyN.
From Verif Require Import BreakerModel BreakerSpec BreakerProofs.
From Verif Require Import BackoffModel BackoffSpec BackoffProofs.
From Verif Require WindowModel WindowSpec WindowProofs WindowFloatProofs.
Import ListNotations.
Open Scope N_scope.

Lemma failing_iff c : is_failure c = true <-> failing c.
Proof. destruct c; cbn; tauto. Qed.
Lemma success_iff c : is_success c = true <-> ~ failing c.
Proof. unfold is_success. rewrite <- failing_iff. destruct (is_failure c); cbn; intuition congruence. Qed.
Lemma limited_iff c : is_rate_limit_signal c = true <-> rate_limited c.
Proof. destruct c as [[] s|[] s|]; cbn; try (split; intros; intuition discriminate); lia. Qed.
Lemma good_iff c : good c = negb (is_failure c || is_rate_limit_signal c).
Proof. destruct c as [[] s|[] s|]; reflexivity. Qed.

(** ** Failures in a row *)
Definition trailing (cs : list (N * class)) : N :=
  fold_left (fun a x => if is_failure (snd x) then a + 1 else 0) cs 0.
Lemma trailing_snoc cs x : trailing (cs ++ [x]) = if is_failure (snd x) then trailing cs + 1 else 0.
Proof. unfold trailing. now rewrite fold_left_app. Qed.
Lemma in_a_row_0 cs : in_a_row 0 cs.
Proof. exists cs, []. rewrite app_nil_r. auto. Qed.
Lemma in_a_row_snoc n cs x : 0 < n -> (in_a_row n (cs ++ [x]) <-> is_failure (snd x) = true /\ in_a_row (n - 1) cs).
Proof.
  intros Hn. split.
  - intros (b & l & E & Hl & F). destruct l as [|y l] using rev_ind; [cbn in Hl; lia|]. clear IHl.
    rewrite app_assoc in E. apply app_inj_tail in E as [-> ->]. apply Forall_app in F as [F1 F2].
    apply Forall_inv in F2. split; [now apply failing_iff|].
    exists b, l. rewrite app_length in Hl. cbn [length] in Hl. repeat split; auto. lia.
  - intros [Hf (b & l & -> & Hl & F)]. exists b, (l ++ [x]). rewrite app_assoc. split; [reflexivity|].
    rewrite app_length. cbn [length]. split; [lia|]. apply Forall_app. split; [exact F|].
    constructor; [now apply failing_iff|constructor].
Qed.
Lemma in_a_row_iff n cs : in_a_row n cs <-> n <= trailing cs.
Proof.
  revert n. induction cs as [|x cs IH] using rev_ind; intros n.
  - unfold trailing. cbn. split.
    + intros (b & l & E & Hl & _). symmetry in E. apply app_eq_nil in E as [-> ->]. cbn in Hl. lia.
    + intros H. assert (n = 0) as -> by lia. apply in_a_row_0.
  - destruct (N.eq_dec n 0) as [->|Hn]; [split; [lia|intros; apply in_a_row_0]|].
    rewrite in_a_row_snoc by lia. rewrite IH, trailing_snoc. destruct (is_failure (snd x)); lia.
Qed.

(** ** The consecutive-failures breaker *)
Theorem consecutive_history im bo cap max t0 es : valid bo -> clock t0 es ->
  exists s,
    history (trips_consecutive max) recovers_consecutive (pause (bo_min bo) (bo_max bo))
      (w_log (run im bo cap (consecutive max) t0 es)) s /\
    w_gate (run im bo cap (consecutive max) t0 es) = gate_of s.
Proof.
  intros Hb Hc.
  apply run_history with (I := fun _ cs s => s = trailing cs /\ (max = 0 \/ s < max)) (J := fun _ => True); auto.
  - intros t. cbn. unfold trailing. cbn. split; [reflexivity|lia].
  - intros s t _. cbn. unfold trailing. cbn. split; [reflexivity|lia].
  - intros t cs s now c s' b [-> Hm] _ _. cbn [consecutive k_observe]. unfold is_success, trips_consecutive.
    rewrite in_a_row_iff, trailing_snoc. cbn [snd].
    destruct (is_failure c); cbn [negb]; intros E; injection E as <- <-; (split; [exact Logic.I|]); split; intros; lia.
  - intros c. cbn [consecutive k_probe]. apply success_iff.
Qed.

(** ** The unified breaker *)
Lemma width_pos window : 0 < N.max window 10000000 / 10.
Proof. apply N.div_str_pos. lia. Qed.

Lemma window_trips bp window m t h d : 0 < bp <= 10000 ->
  WindowProofs.inv t (N.max window 10000000 / 10) h
    (WindowSpec.slice t (N.max window 10000000 / 10) (WindowSpec.last_time t h)) d ->
  WindowModel.should_trip d m (WindowModel.as_fraction bp) = true <->
  low_rate bp window m t (WindowSpec.last_time t h) h.
Proof.
  intros Hb I. unfold WindowModel.should_trip, low_rate.
  rewrite (WindowProofs.totals_spec _ _ _ _ _ _ I eq_refl).
  pose proof (WindowProofs.counts_bounds t (N.max window 10000000 / 10) (WindowSpec.last_time t h) h) as B.
  set (r := WindowSpec.responses _ _ _ _) in *. set (s := WindowSpec.successes _ _ _ _) in *. clearbody r s.
  destruct (r =? 0) eqn:E; [lia|].
  rewrite WindowFloatProofs.ratio_exact by lia. rewrite andb_true_iff, N.leb_le, N.ltb_lt. lia.
Qed.

Lemma outcomes_snoc cs now c : outcomes (cs ++ [(now, c)]) = outcomes cs ++ [(now, good c)].
Proof. unfold outcomes. now rewrite map_app. Qed.

Section Unified.
  Variables max bp window m : N.
  Hypothesis Hmax : max <= 18446744073709551615.
  Hypothesis Hbp : bp <= 10000.
  Let width := N.max window 10000000 / 10.
  Definition WI (t : N) (cs : list (N * class)) (w : option WindowModel.window) : Prop :=
    match w with
    | Some d => 0 < bp /\ WindowProofs.inv t width (outcomes cs)
                            (WindowSpec.slice t width (WindowSpec.last_time t (outcomes cs))) d
    | None => bp = 0
    end.
  Definition WJ (w : option WindowModel.window) : Prop :=
    match w with
    | Some d => 0 < bp /\ length (WindowModel.wd_buckets d) = 10%nat /\ WindowModel.wd_width d = width
    | None => bp = 0
    end.
  Definition UI (t : N) (cs : list (N * class)) (s : open_state) : Prop :=
    (0 < max -> os_failures s = trailing cs /\ os_failures s < max) /\ WI t cs (os_window s).
  Definition UJ (s : open_state) : Prop := WJ (os_window s).

  Lemma WI_J t cs w : WI t cs w -> WJ w.
  Proof. destruct w; cbn; [|auto]. intros [H I]. destruct I. auto. Qed.
  Lemma slice_0 t : WindowSpec.slice t width (WindowSpec.last_time t (outcomes [])) = 0.
  Proof. unfold WindowSpec.slice, outcomes, WindowSpec.last_time. cbn [map last fst]. rewrite N.sub_diag. apply N.div_0_l.
    pose proof (width_pos window). unfold width. lia. Qed.

  Lemma WI_record t cs w now c : WI t cs w -> timed t cs now -> now < 2 ^ 64 ->
    WI t (cs ++ [(now, c)]) (option_map (fun w => WindowModel.record w (good c) now) w).
  Proof.
    intros H [To Tl] Hn. destruct w as [d|]; cbn [option_map WI] in *; [|exact H]. destruct H as [H I]. split; [exact H|].
    rewrite outcomes_snoc, WindowProofs.last_app_time. cbn [fst].
    pose proof (width_pos window) as Hw. fold width in Hw.
    apply (WindowProofs.record_inv t width (outcomes cs) _ d (now, good c) Hw I); cbn [fst]; [|exact Hn].
    pose proof (WindowProofs.last_time_ge t _ To). unfold WindowSpec.slice.
    pose proof (N.mul_div_le (WindowSpec.last_time t (outcomes cs) - t) width ltac:(lia)). lia.
  Qed.

  Theorem unified_history im bo cap t0 es : valid bo -> clock t0 es ->
    exists s,
      history (trips_unified max bp window m) recovers_unified (pause (bo_min bo) (bo_max bo))
        (w_log (run im bo cap (unified max bp window m) t0 es)) s /\
      w_gate (run im bo cap (unified max bp window m) t0 es) = gate_of s.
  Proof.
    intros Hb Hc. apply run_history with (I := UI) (J := UJ); auto.
    - intros t. cbn [unified k_init]. split; cbn [os_failures os_window].
      + intros H. unfold trailing. cbn. lia.
      + destruct (0 <? bp) eqn:E; cbn [WI]; [|lia]. split; [lia|]. rewrite slice_0. apply WindowProofs.new_inv.
    - intros s t Hj. cbn [unified k_reset]. split; cbn [os_failures os_window].
      + intros H. unfold trailing. cbn. lia.
      + unfold UJ in Hj. destruct (os_window s) as [d|]; cbn [option_map WI WJ] in *; [|exact Hj].
        destruct Hj as (H1 & H2 & H3). split; [exact H1|]. rewrite slice_0. now apply WindowProofs.reset_inv.
    - intros t cs s now c s' b [Hf Hw] Ht Hn E. cbn [unified k_observe] in E. unfold observe_unified in E.
      injection E as E1 E2. rewrite <- good_iff in E1, E2.
      pose proof (WI_record t cs (os_window s) now c Hw Ht Hn) as Hw'.
      set (w' := option_map _ _) in *. clearbody w'.
      set (f' := if 0 <? max then _ else _) in *.
      assert (Hf' : 0 < max -> f' = trailing (cs ++ [(now, c)])).
      { intros Hp. specialize (Hf Hp). unfold f'. rewrite trailing_snoc. cbn [snd].
        replace (0 <? max) with true by lia. unfold is_success, usize_max. destruct (is_failure c); cbn [negb]; lia. }
      clearbody f'.
      assert (T : b = true <-> trips_unified max bp window m t (cs ++ [(now, c)])).
      { rewrite <- E2. unfold should_trip, trips_unified. cbn [os_failures os_window].
        rewrite in_a_row_iff.
        assert (Tw : match w' with Some w => WindowModel.should_trip w m (WindowModel.as_fraction bp) | None => false end = true <->
                     0 < bp /\ low_rate bp window m t (WindowSpec.last_time t (outcomes (cs ++ [(now, c)]))) (outcomes (cs ++ [(now, c)]))).
        { destruct w' as [d|]; cbn [WI] in Hw'; [|lia]. destruct Hw' as [H1 H2]. rewrite window_trips; [|lia|exact H2]. tauto. }
        destruct (negb (max =? 0) && (max <=? f')) eqn:E.
        - split; [intros _; left; lia|reflexivity].
        - rewrite Tw. split; [now right|]. intros [[H1 H2]|H]; [|exact H]. specialize (Hf' H1). lia. }
      subst s'. split; [now apply WI_J with t (cs ++ [(now, c)])|]. split; [apply T|].
      intros Hb'. split; [intros H; apply T in H; congruence|].
      split; cbn [os_failures os_window]; [|exact Hw'].
      intros Hp. specialize (Hf' Hp). split; [exact Hf'|].
      destruct (N.lt_ge_cases f' max) as [|H]; [assumption|]. exfalso.
      assert (b = true); [|congruence]. apply T. left. split; [exact Hp|]. apply in_a_row_iff. lia.
    - intros c. cbn [unified k_probe]. unfold recovers_unified. rewrite <- limited_iff, <- success_iff.
      destruct (is_rate_limit_signal c); intuition congruence.
  Qed.
End Unified.

(** ** What follows for clients, from any history *)
Section Clients.
  Variable trips : N -> list (N * class) -> Prop.
  Variable recovers : class -> Prop.
  Variable pz : N -> N.
  Let hist := history trips recovers pz.

  Lemma snoc_cases (a : list entry) x b l e : a ++ x :: b = l ++ [e] ->
    (b = [] /\ l = a /\ e = x) \/ exists b', b = b' ++ [e] /\ l = a ++ x :: b'.
  Proof.
    destruct b as [|y b] using rev_ind; [intros H; apply app_inj_tail in H as [-> ->]; auto|]. clear IHb.
    rewrite app_comm_cons, app_assoc. intros H. apply app_inj_tail in H as [<- ->]. right. now exists b.
  Qed.

  Lemma quiet_snoc b e : quiet (b ++ [e]) -> quiet b /\ is_gate e = false.
  Proof.
    intros H. split; [|apply H; apply in_or_app; right; now left].
    intros x Hx. apply H. apply in_or_app. now left.
  Qed.

  (** After the gate was last set to [g], the status is one for [g]. *)
  Lemma last_gate l s : hist l s -> forall a g t b, l = a ++ Set_gate g t :: b -> quiet b ->
    match g with
    | Open => (exists cs, s = Flowing t cs)
    | Shut => (exists n, s = Blocked n t) /\ admits b = 0%nat
    | Limited _ => exists n, s = Trial n false /\ admits b = 0%nat \/ s = Trial n true /\ admits b = 1%nat
    end.
  Proof.
    induction 1; intros a g t' b E Hq.
    1:{ destruct a as [|? [|]]; [|discriminate E|discriminate E]. injection E as <- <- <-. now exists []. }
    all: try match type of E with _ ++ [?x; ?y] = _ => change [x; y] with ([x] ++ [y]) in E; rewrite app_assoc in E end.
    all: symmetry in E; apply snoc_cases in E as [(-> & <- & Eg)|(b' & -> & El)]; try discriminate Eg.
    all: try (injection Eg as <- <-).
    all: try (apply quiet_snoc in Hq as [Hq He]; try discriminate He; specialize (IHhistory _ _ _ _ El Hq)).
    all: unfold admits in *; rewrite ?filter_app, ?app_length; cbn [filter is_admit length app] in *; rewrite ?Nat.add_0_r.
    all: try exact IHhistory.
    all: try (now eexists).
    all: try (now (eexists; left)).
    all: try (destruct g; repeat match goal with
      | H : exists _, _ |- _ => destruct H
      | H : _ /\ _ |- _ => destruct H
      | H : _ \/ _ |- _ => destruct H
      | H : Flowing _ _ = Flowing _ _ |- _ => injection H as ? ?; subst
      | H : Blocked _ _ = Blocked _ _ |- _ => injection H as ? ?; subst
      | H : Trial _ _ = Trial _ _ |- _ => injection H as ? ?; subst
      end; try discriminate; eauto 6; fail).
    - split; [now eexists|reflexivity].
    - destruct g as [|k|]; [destruct IHhistory; discriminate| |destruct IHhistory as [[? ?] _]; discriminate].
      destruct IHhistory as [m [[E Ha]|[E Ha]]]; [|discriminate E]. exists m. right. injection E as ->.
      split; [reflexivity|]. lia.
    - split; [now eexists|reflexivity].
  Qed.

  Lemma times_shut_snoc l e : times_shut (l ++ [e]) =
    match e with Set_gate Open _ => 0 | Set_gate Shut _ => times_shut l + 1 | _ => times_shut l end.
  Proof. unfold times_shut. now rewrite fold_left_app. Qed.
  Lemma times_shut_status l s : hist l s ->
    times_shut l = match s with Flowing _ _ => 0 | Blocked n _ => n + 1 | Trial n _ => n + 1 end.
  Proof.
    induction 1; [reflexivity|..].
    all: try match goal with |- times_shut (_ ++ [?x; ?y]) = _ =>
      change [x; y] with ([x] ++ [y]); rewrite app_assoc end.
    all: rewrite ?times_shut_snoc; lia.
  Qed.
  Lemma times_shut_quiet l b : quiet b -> times_shut (l ++ b) = times_shut l.
  Proof.
    induction b as [|e b IH] using rev_ind; intros Hq; [now rewrite app_nil_r|].
    apply quiet_snoc in Hq as [Hq He]. rewrite app_assoc, times_shut_snoc, IH by exact Hq. now destruct e.
  Qed.

  Lemma gates l s : hist l s -> forall a g t b g' t' c,
    l = a ++ Set_gate g t :: b ++ Set_gate g' t' :: c -> quiet b -> gate_rule pz a g t b g' t'.
  Proof.
    induction 1; intros a g t1 b g' t2 c' E Hq.
    1:{ destruct a as [|? [|]]; [|discriminate E|discriminate E]. injection E as _ _ E. destruct b; discriminate E. }
    all: rewrite app_comm_cons, app_assoc in E.
    all: try match type of E with _ ++ [?x; ?y] = _ => change [x; y] with ([x] ++ [y]) in E; rewrite app_assoc in E end.
    all: symmetry in E; apply snoc_cases in E as [(-> & El & Eg)|(b' & -> & El)]; try discriminate Eg.
    all: try (injection Eg as <- <-).
    all: try (symmetry in El; apply snoc_cases in El as [(_ & _ & Eg)|(b'' & -> & El)]; try discriminate Eg).
    all: try (apply IHhistory with (c := b'); [rewrite El, <- app_assoc; reflexivity|exact Hq]).
    all: try (apply IHhistory with (c := b''); [rewrite El, <- app_assoc; reflexivity|exact Hq]).
    - apply quiet_snoc in Hq as [Hq _]. pose proof (last_gate _ _ H _ _ _ _ El Hq) as L.
      destruct g as [|k|]; cbn [gate_rule]; [reflexivity|destruct L as [? [[? ?]|[? ?]]]; discriminate|].
      destruct L as [[? ?] _]; discriminate.
    - pose proof (last_gate _ _ H _ _ _ _ El Hq) as L.
      destruct g as [|k|]; cbn [gate_rule]; [destruct L; discriminate|destruct L as [? [[? ?]|[? ?]]]; discriminate|].
      destruct L as [[m Lm] La]. injection Lm as <- <-. split; [reflexivity|]. split; [exact La|].
      pose proof (times_shut_status _ _ H) as T. cbn in T. rewrite El in T.
      change (a ++ Set_gate Shut t :: b) with (a ++ [Set_gate Shut t] ++ b) in T.
      rewrite app_assoc, times_shut_quiet, times_shut_snoc in T by exact Hq.
      replace (times_shut a) with n by lia. exact H0.
    - apply quiet_snoc in Hq as [Hq _]. pose proof (last_gate _ _ H _ _ _ _ El Hq) as L.
      destruct g as [|k|]; cbn [gate_rule]; [destruct L; discriminate| |destruct L as [[? ?] _]; discriminate].
      split; [now left|]. unfold admits in *. rewrite filter_app, app_length. cbn [filter is_admit length].
      destruct L as [? [[? ?]|[? ?]]]; lia.
    - apply quiet_snoc in Hq as [Hq _]. pose proof (last_gate _ _ H _ _ _ _ El Hq) as L.
      destruct g as [|k|]; cbn [gate_rule]; [destruct L; discriminate| |destruct L as [[? ?] _]; discriminate].
      split; [now right|]. unfold admits in *. rewrite filter_app, app_length. cbn [filter is_admit length].
      destruct L as [? [[? ?]|[? ?]]]; lia.
  Qed.
End Clients.
