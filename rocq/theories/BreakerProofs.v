From Coq Require Import List Arith NArith ZArith Bool Lia ZifyBool ZifyNat ZifyN.
From Verif Require Import BreakerModel BreakerSpec.
From Verif Require Import BackoffModel BackoffSpec BackoffProofs.
From Verif Require WindowModel WindowSpec WindowProofs WindowFloatProofs.
Import ListNotations.
Open Scope N_scope.

Lemma last_cons_time t x h : WindowSpec.last_time t (x :: h) = WindowSpec.last_time (fst x) h.
Proof.
  unfold WindowSpec.last_time. revert x. induction h as [|y h IH]; intros x; [reflexivity|].
  change (last (x :: y :: h) (t, true)) with (last (y :: h) (t, true)).
  rewrite IH. change (last (y :: h) (fst x, true)) with (match h with [] => y | _ => last h (fst x, true) end).
  destruct h as [|z h]; [reflexivity|]. specialize (IH y). f_equal.
  clear. revert z. induction h as [|a h IH]; intros z; [reflexivity|]. apply (IH a).
Qed.
Lemma ordered_snoc t h s : WindowSpec.ordered t h -> WindowSpec.last_time t h <= fst s ->
  WindowSpec.ordered t (h ++ [s]).
Proof.
  revert t. induction h as [|x h IH]; intros t; cbn [app WindowSpec.ordered].
  - unfold WindowSpec.last_time. cbn. auto.
  - rewrite last_cons_time. intros [H1 H2] H3. auto.
Qed.

(** ** Any kind that trips and recovers as specified *)
Section Generic.
  Variable k : kind.
  Variable trips : N -> list (N * class) -> Prop.
  Variable recovers : class -> Prop.
  Variable I : N -> list (N * class) -> k_state k -> Prop.
  Variable J : k_state k -> Prop.
  Definition timed (t : N) (cs : list (N * class)) (now : N) : Prop :=
    WindowSpec.ordered t (outcomes cs) /\ WindowSpec.last_time t (outcomes cs) <= now.
  Hypothesis I_init : forall t, I t [] (k_init k t).
  Hypothesis I_reset : forall s t, J s -> I t [] (k_reset k s t).
  Hypothesis I_observe : forall t cs s now c s' b, I t cs s -> timed t cs now -> now < 2 ^ 64 ->
    k_observe k s now c = (s', b) ->
    J s' /\ (b = true -> trips t (cs ++ [(now, c)])) /\
    (b = false -> ~ trips t (cs ++ [(now, c)]) /\ I t (cs ++ [(now, c)]) s').
  Hypothesis probe_iff : forall c, k_probe k c = true <-> recovers c.

  Variable im : N.
  Variable bo : backoff.
  Variable cap : nat.
  Hypothesis Hbo : valid bo.
  Let hist := history trips recovers (pause (bo_min bo) (bo_max bo)).

  Definition fits (now : N) (p : phase (k_state k)) (s : status) : Prop :=
    match p, s with
    | Returned, _ => True
    | Opened st, Flowing t cs => I t cs st /\ timed t cs now
    | Waiting st b, Blocked n t => J st /\ BackoffProofs.inv bo t b /\ st_iterations b = N.min n u32max /\ t <= now /\
        (u32max <= n -> st_sleep b = None)
    | Probing st b, Trial n _ => J st /\ st_iterations b = N.min (n + 1) u32max /\ st_sleep b = None
    | _, _ => False
    end.
  Definition good_world (now : N) (w : world k) : Prop :=
    exists s, hist (w_log w) s /\ w_gate w = gate_of s /\ fits now (w_phase w) s.

  Lemma timed_mono t cs a b : a <= b -> timed t cs a -> timed t cs b.
  Proof. unfold timed. intros H [H1 H2]. split; [exact H1|lia]. Qed.
  Lemma fits_mono p s a b : a <= b -> fits a p s -> fits b p s.
  Proof.
    intros H. destruct p, s; cbn [fits]; auto.
    - intros [H1 H2]. split; [exact H1|]. now apply timed_mono with a.
    - intros (H1 & H2 & H3 & H4 & H5). repeat split; auto. lia.
  Qed.
  Lemma timed_app t cs now c : timed t cs now -> timed t (cs ++ [(now, c)]) now.
  Proof.
    unfold timed, outcomes. intros [H1 H2]. rewrite map_app. cbn [map fst snd].
    rewrite WindowProofs.last_app_time. cbn [fst]. split; [|lia].
    now apply ordered_snoc.
  Qed.

  Lemma take_good now w : now < 2 ^ 64 -> good_world now w -> good_world now (take k w now).
  Proof.
    intros Hn (s & Hh & Hg & Hf). unfold take. destruct (w_queue w) as [|[id c] q]; [now exists s|].
    destruct (w_phase w) as [st|st b|st b|] eqn:Ep; cbn [fits] in Hf; destruct s as [t cs|n t|n u]; try destruct Hf; try (now exists (Flowing t cs); rewrite Ep || exists (Blocked n t); rewrite Ep).
    - destruct (k_observe k st now c) as [s' b] eqn:Eo.
      destruct (I_observe _ _ _ _ _ _ _ H H0 Hn Eo) as (Hj & Ht & Hf). destruct b.
      + exists (Blocked 0 now). cbn [w_log w_gate w_phase gate_of fits]. rewrite <- app_assoc. cbn [app].
        split; [|split; [reflexivity|]].
        * apply H_trip with t cs; auto.
        * split; [exact Hj|]. split; [intros d Hd; discriminate Hd|]. split; [reflexivity|]. split; [lia|reflexivity].
      + destruct (Hf eq_refl) as [Hnt HI]. exists (Flowing t (cs ++ [(now, c)])).
        cbn [w_log w_gate w_phase gate_of fits].
        split; [now apply H_flow|]. split; [exact Hg|]. split; [exact HI|]. now apply timed_app.
    - exists (Blocked n t). cbn [w_log w_gate w_phase gate_of fits]. split; [now apply H_discard|]. split; [exact Hg|]. auto.
    - destruct H0 as [Hi Hs]. destruct (k_probe k c) eqn:E.
      + exists (Flowing now []). cbn [w_log w_gate w_phase gate_of fits]. rewrite <- app_assoc. cbn [app].
        split; [apply H_recover with n u; [exact Hh|now apply probe_iff]|]. split; [reflexivity|].
        split; [now apply I_reset|]. unfold timed, outcomes, WindowSpec.last_time. cbn. split; [exact Logic.I|lia].
      + exists (Blocked (n + 1) now). cbn [w_log w_gate w_phase gate_of fits]. rewrite <- app_assoc. cbn [app].
        split; [apply H_again with u; [exact Hh|rewrite <- probe_iff, E; discriminate]|]. split; [reflexivity|].
        split; [exact H|]. split; [intros d Hd; congruence|]. split; [exact Hi|]. split; [lia|auto].
    - exists (Flowing t cs). rewrite Ep. now cbn.
    - exists (Blocked n t). rewrite Ep. now cbn.
    - exists (Trial n u). rewrite Ep. now cbn.
  Qed.

  Lemma pause_le n t d now : (n < u32max -> t + plain_delay (bo_min bo) (bo_max bo) (N.min n u32max) <= d) ->
    t <= now -> d <= now -> t + pause (bo_min bo) (bo_max bo) n <= now.
  Proof.
    intros H H1 H2. unfold pause. change (2 ^ 32 - 1) with u32max. destruct (n <? u32max) eqn:E; [|lia].
    rewrite N.min_l in H by lia. lia.
  Qed.

  Lemma timer_good i w : good_world (in_now i) w ->
    match timer im bo k w i with
    | Some w' => good_world (in_now i) w'
    | None => good_world (in_now i) (arm im bo k w i)
    end.
  Proof.
    intros (s & Hh & Hg & Hf). unfold timer, arm. destruct (w_phase w) as [st|st b|st b|] eqn:Ep.
    1,3,4: exists s; rewrite Ep; auto.
    destruct s as [t cs|n t|n u]; try destruct Hf. cbn [fits] in H0. destruct H0 as (Hi & Hn & Ht & Hs).
    destruct (poll_next im bo b i) as [o b'] eqn:E. pose proof (poll_step _ _ _ _ _ _ Hbo E) as P.
    destruct o; cbn [snd].
    - destruct P as (Pn & d & Pd & Plt & Ps). exists (Blocked n t). cbn [w_log w_gate w_phase fits].
      split; [exact Hh|]. split; [exact Hg|]. split; [exact H|].
      split.
      { intros d' Hd'. rewrite Pn. assert (d' = d) by congruence. subst d'. destruct Ps as [Ps|[Ps1 Ps2]]; [now apply Hi|lia]. }
      split; [congruence|]. split; [exact Ht|].
      intros Hu. specialize (Hs Hu). unfold poll_next in E. rewrite Hs in E.
      replace (st_iterations b =? u32max) with true in E by (rewrite Hn; lia). discriminate E.
    - destruct P as (Pn & Pd & d & Ps & Ple). exists (Trial n false). cbn [w_log w_gate w_phase fits gate_of].
      split; [apply H_trial with t; [exact Hh|]|].
      + apply pause_le with d; [|lia|lia]. intros Hlt. rewrite <- Hn. destruct Ps as [Ps|[Ps1 Ps2]]; [now apply Hi|lia].
      + split; [reflexivity|]. split; [exact H|]. split; [|exact Pd]. rewrite Pn, Hn.
        destruct (N.le_gt_cases u32max n); [|lia]. exfalso. specialize (Hs H0).
        unfold poll_next in E. rewrite Hs in E. replace (st_iterations b =? u32max) with true in E by (rewrite Hn; lia).
        discriminate E.
    - destruct P as (-> & Pd & Pu). exists (Trial n false). cbn [w_log w_gate w_phase fits gate_of].
      split; [apply H_trial with t; [exact Hh|]|].
      + apply pause_le with t; [|lia|lia]. intros Hlt. lia.
      + split; [reflexivity|]. split; [exact H|]. split; [|exact Pd]. lia.
    - exists (Blocked n t). cbn. auto.
  Qed.

  Lemma step_good now w e : good_world now w ->
    (forall i f, e = Run i f -> now <= in_now i < 2 ^ 64) ->
    good_world (match e with Run i _ => in_now i | _ => now end) (step im bo cap k w e).
  Proof.
    intros G He. destruct e as [|id c|id|i f|]; cbn [step].
    - destruct G as (s & Hh & Hg & Hf). unfold send. rewrite Hg.
      destruct s as [t cs|n t|n u]; cbn [gate_of].
      + exists (Flowing t cs). cbn [w_log w_gate w_phase]. split; [now apply H_admit|]. now split.
      + now exists (Blocked n t).
      + destruct u; cbn [N.eqb].
        * now exists (Trial n true).
        * exists (Trial n true). cbn [w_log w_gate w_phase]. split; [now apply H_probe|]. split; [reflexivity|].
          destruct (w_phase w); exact Hf.
    - destruct G as (s & Hh & Hg & Hf). unfold respond. destruct (mem id (w_flight w)); [|now exists s].
      destruct (Nat.ltb _ _); exists s; cbn [w_log w_gate w_phase]; auto. split; [now apply H_lost_class|auto].
    - destruct G as (s & Hh & Hg & Hf). unfold cancel. destruct (mem id (w_flight w)); [|now exists s].
      exists s; cbn [w_log w_gate w_phase]. split; [now apply H_abandoned|auto].
    - specialize (He i f eq_refl). assert (G' : good_world (in_now i) w).
      { destruct G as (s & Hh & Hg & Hf). exists s. split; [exact Hh|]. split; [exact Hg|].
        apply fits_mono with now; [lia|exact Hf]. }
      unfold run_task. destruct (_ || _); [|apply take_good; [lia|exact G']].
      pose proof (timer_good i w G') as T. destruct (timer im bo k w i); [exact T|]. apply take_good; [lia|exact T].
    - destruct G as (s & Hh & Hg & Hf). exists s. cbn [w_log w_gate w_phase fits]. auto.
  Qed.

  Theorem run_history t0 es : clock t0 es ->
    exists s, hist (w_log (run im bo cap k t0 es)) s /\ w_gate (run im bo cap k t0 es) = gate_of s.
  Proof.
    intros Hc. assert (G : good_world t0 (start k t0)).
    { exists (Flowing t0 []). cbn. split; [constructor|]. split; [reflexivity|]. split; [apply I_init|].
      unfold timed, outcomes, WindowSpec.last_time. cbn. split; [exact Logic.I|lia]. }
    enough (E : exists now, good_world now (run im bo cap k t0 es)) by (destruct E as (? & s & H1 & H2 & _); now exists s).
    unfold run. revert t0 Hc G. generalize (start k). intros st t0. generalize (st t0). clear st. revert t0.
    induction es as [|e es IH]; intros t w Hc G; cbn [fold_left]; [now exists t|].
    pose proof (step_good t w e G) as G'.
    destruct e; cbn [clock] in Hc; try (apply (IH t); [exact Hc|apply G'; intros; discriminate]).
    destruct Hc as [H1 H2]. apply (IH (in_now i)); [exact H2|]. apply G'. intros j g E. now injection E as <- <-.
  Qed.
End Generic.
