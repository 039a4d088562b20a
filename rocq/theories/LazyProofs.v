(** Proofs of C152 *)
From Coq Require Import List Arith Bool Lia.
From Verif Require Import LazyModel LazySpec.
Import ListNotations.

Section Lazy.
Context {T : Type}.
Implicit Types (w : world T) (l : list (event T)).

Lemma run_snoc (t : T) ops o : run t (ops ++ [o]) = step (run t ops) o.
Proof. unfold run. rewrite fold_left_app. reflexivity. Qed.
Lemma handles_snoc ops o : handles (ops ++ [o]) = grown (handles ops) o.
Proof. unfold handles. rewrite fold_left_app. reflexivity. Qed.
Lemma set_length hs h s : List.length (set_inner hs h s) = List.length hs.
Proof. revert h. induction hs as [|x hs IH]; intros [|h]; cbn; auto. Qed.
Lemma set_same hs : forall h s, h < List.length hs -> nth_error (set_inner hs h s) h = Some (Some s).
Proof. induction hs as [|x hs IH]; intros [|h] s L; cbn in *; try lia; [reflexivity|apply IH; lia]. Qed.
Lemma set_other hs : forall h s i, i <> h -> nth_error (set_inner hs h s) i = nth_error hs i.
Proof. induction hs as [|x hs IH]; intros [|h] s [|i] D; cbn; try reflexivity; [congruence|apply IH; congruence]. Qed.

(** What is true of every history: [Q] of the three phases *)
Definition good (t : T) (n : nat) w : Prop :=
  List.length (w_handles w) = n /\
  match w_shared w with
  | Uninit t' => t' = t /\ Forall (fun x => x = None) (w_handles w) /\ Forall (fun e => exists h, e = Handle_panics h) (w_log w)
  | Service s => s = 0 /\ Forall (fun x => x = None \/ x = Some 0) (w_handles w) /\
      exists before after, w_log w = before ++ Made t 0 :: after /\ Forall (fun e => exists h, e = Handle_panics h) before /\
        Forall (fun e => exists h, e = Polled h 0 \/ e = Called h 0 \/ e = Handle_panics h) after
  | Invalid => Forall (fun x => x = None) (w_handles w) /\
      exists before after, w_log w = before ++ Making_panics :: after /\ Forall (fun e => exists h, e = Handle_panics h) before /\
        Forall (fun e => exists h, e = Handle_panics h) after
  end.
Lemma made_none l : Forall (fun e => exists h, e = Handle_panics h) l -> made l = 0.
Proof. induction 1 as [|e l (h & ->) _ IH]; [reflexivity|exact IH]. Qed.
Lemma set_forall hs h : Forall (fun x => x = None \/ x = Some 0) hs -> Forall (fun x => x = None \/ x = Some 0) (set_inner hs h 0).
Proof. intros F. revert h. induction F as [|x hs X F IH]; intros [|h]; cbn; constructor; auto. Qed.
Lemma nth_forall {A} (P : A -> Prop) (l : list A) i x : Forall P l -> nth_error l i = Some x -> P x.
Proof. intros F E. rewrite Forall_forall in F. apply F. exact (nth_error_In _ _ E). Qed.
Lemma snoc_forall {A} (P : A -> Prop) (l : list A) x : Forall P l -> P x -> Forall P (l ++ [x]).
Proof. intros F X. apply Forall_app. split; [exact F|constructor; [exact X|constructor]]. Qed.

Lemma good_step t n w o : good t n w -> good t (grown n o) (step w o).
Proof.
  intros (L & G). destruct o as [h|h panics|h]; cbn [step grown].
  - unfold clone. destruct (nth_error (w_handles w) h) as [x|] eqn:E.
    + assert (h < n) as H by (rewrite <- L; apply nth_error_Some; congruence). apply Nat.ltb_lt in H. rewrite H.
      split; [cbn; rewrite app_length, L; cbn; lia|]. cbn [w_shared w_handles w_log]. destruct (w_shared w) as [t'|s|].
      * destruct G as (A & B & C). split; [exact A|]. split; [apply snoc_forall; [exact B|exact (nth_forall _ _ _ _ B E)]|exact C].
      * destruct G as (A & B & C). split; [exact A|]. split; [apply snoc_forall; [exact B|exact (nth_forall _ _ _ _ B E)]|exact C].
      * destruct G as (B & C). split; [apply snoc_forall; [exact B|exact (nth_forall _ _ _ _ B E)]|exact C].
    + apply nth_error_None in E. rewrite L in E. apply Nat.ltb_ge in E. rewrite E. split; assumption.
  - unfold poll_ready. destruct (nth_error (w_handles w) h) as [[s|]|] eqn:E; [| |split; assumption].
    + split; [exact L|]. cbn [w_shared w_handles w_log]. destruct (w_shared w) as [t'|s'|].
      * destruct G as (_ & B & _). discriminate (nth_forall _ _ _ _ B E).
      * destruct G as (A & B & b & a & C & D & F). split; [exact A|]. split; [exact B|]. exists b, (a ++ [Polled h s]).
        split; [rewrite C, <- app_assoc; reflexivity|]. split; [exact D|]. apply snoc_forall; [exact F|].
        destruct (nth_forall _ _ _ _ B E) as [X|[= ->]]; [discriminate|]. exists h. auto.
      * destruct G as (B & _). discriminate (nth_forall _ _ _ _ B E).
    + destruct (w_shared w) as [t'|s'|] eqn:S.
      * destruct G as (-> & B & C). destruct panics.
        -- split; [exact L|]. cbn [w_shared w_handles w_log]. split; [exact B|]. exists (w_log w), []. split; [reflexivity|]. split; [exact C|constructor].
        -- cbv zeta. rewrite (made_none _ C). split; [cbn; rewrite set_length; exact L|]. cbn [w_shared w_handles w_log]. split; [reflexivity|].
           split; [apply set_forall; apply (Forall_impl _ (fun x X => or_introl X) B)|]. exists (w_log w), [Polled h 0]. split; [reflexivity|]. split; [exact C|].
           constructor; [exists h; auto|constructor].
      * destruct G as (-> & B & b & a & C & D & F). split; [cbn; rewrite set_length; exact L|]. cbn [w_shared w_handles w_log]. split; [reflexivity|].
        split; [apply set_forall; exact B|]. exists b, (a ++ [Polled h 0]). split; [rewrite C, <- app_assoc; reflexivity|]. split; [exact D|].
        apply snoc_forall; [exact F|exists h; auto].
      * destruct G as (B & b & a & C & D & F). split; [exact L|]. cbn [w_shared w_handles w_log]. split; [exact B|]. exists b, (a ++ [Handle_panics h]).
        split; [rewrite C, <- app_assoc; reflexivity|]. split; [exact D|]. apply snoc_forall; [exact F|exists h; reflexivity].
  - unfold call. destruct (nth_error (w_handles w) h) as [[s|]|] eqn:E; [| |split; assumption].
    + split; [exact L|]. cbn [w_shared w_handles w_log]. destruct (w_shared w) as [t'|s'|].
      * destruct G as (_ & B & _). discriminate (nth_forall _ _ _ _ B E).
      * destruct G as (A & B & b & a & C & D & F). split; [exact A|]. split; [exact B|]. exists b, (a ++ [Called h s]).
        split; [rewrite C, <- app_assoc; reflexivity|]. split; [exact D|]. apply snoc_forall; [exact F|].
        destruct (nth_forall _ _ _ _ B E) as [X|[= ->]]; [discriminate|]. exists h. auto.
      * destruct G as (B & _). discriminate (nth_forall _ _ _ _ B E).
    + split; [exact L|]. cbn [w_shared w_handles w_log]. destruct (w_shared w) as [t'|s'|].
      * destruct G as (A & B & C). split; [exact A|]. split; [exact B|]. apply snoc_forall; [exact C|exists h; reflexivity].
      * destruct G as (A & B & b & a & C & D & F). split; [exact A|]. split; [exact B|]. exists b, (a ++ [Handle_panics h]).
        split; [rewrite C, <- app_assoc; reflexivity|]. split; [exact D|]. apply snoc_forall; [exact F|exists h; auto].
      * destruct G as (B & b & a & C & D & F). split; [exact B|]. exists b, (a ++ [Handle_panics h]).
        split; [rewrite C, <- app_assoc; reflexivity|]. split; [exact D|]. apply snoc_forall; [exact F|exists h; reflexivity].
Qed.
Lemma good_run t ops : good t (handles ops) (run t ops).
Proof.
  induction ops as [|o ops IH] using rev_ind; [|rewrite run_snoc, handles_snoc; apply good_step; exact IH].
  split; [reflexivity|]. cbn. split; [reflexivity|]. split; [constructor; [reflexivity|constructor]|constructor].
Qed.

(** ** What is built *)
Lemma panics_builds l : Forall (fun e => exists h, e = Handle_panics h) l -> filter builds l = [].
Proof. induction 1 as [|e l (h & ->) _ IH]; [reflexivity|exact IH]. Qed.
Lemma uses_builds l : Forall (fun e => exists h, e = Polled h 0 \/ e = Called h 0 \/ e = Handle_panics h) l -> filter builds l = [].
Proof. induction 1 as [|e l (h & [->|[->| ->]]) _ IH]; [reflexivity|exact IH|exact IH|exact IH]. Qed.
Lemma once (t : T) ops : let l := w_log (run t ops) in
  (filter builds l = [] \/ filter builds l = [Made t 0] \/ filter builds l = [Making_panics]) /\
  (forall before after h s, l = before ++ Polled h s :: after \/ l = before ++ Called h s :: after -> s = 0 /\ In (Made t 0) before).
Proof.
  cbv zeta. destruct (good_run t ops) as (_ & G). destruct (w_shared (run t ops)) as [t'|s|].
  - destruct G as (_ & _ & C). split; [left; apply panics_builds; exact C|]. intros b a h s E. exfalso. rewrite Forall_forall in C.
    destruct E as [E|E]; rewrite E in C; [destruct (C (Polled h s) (in_elt _ _ _)) as (x & X)|destruct (C (Called h s) (in_elt _ _ _)) as (x & X)]; discriminate X.
  - destruct G as (_ & _ & b & a & E & B & A). split.
    + right. left. rewrite E, filter_app. cbn [filter builds]. rewrite (panics_builds _ B), (uses_builds _ A). reflexivity.
    + intros b' a' h s' E'. assert (exists e, w_log (run t ops) = b' ++ e :: a' /\ (e = Polled h s' \/ e = Called h s')) as (e & Ee & Ke)
        by (destruct E' as [E'|E']; eexists; (split; [exact E'|auto])). clear E'.
      assert (In (Made t 0) b' /\ In e a) as (I & J).
      { rewrite E in Ee. clear - Ee B Ke. revert b' Ee. induction b as [|x b IH]; intros [|y b'] Ee; cbn in Ee.
        - injection Ee as <- _. destruct Ke; discriminate.
        - injection Ee as <- ->. split; [left; reflexivity|apply in_elt].
        - injection Ee as -> _. inversion B as [|? ? (k & K) _]. destruct Ke; congruence.
        - injection Ee as -> Ee. inversion B; subst. destruct (IH H2 b' Ee) as (I & J). split; [right; exact I|exact J]. }
      split; [|exact I]. rewrite Forall_forall in A. destruct (A e J) as (k & K). destruct Ke as [-> | ->]; destruct K as [K|[K|K]]; congruence.
  - destruct G as (_ & b & a & E & B & A). split.
    + right. right. rewrite E, filter_app. cbn [filter builds]. rewrite (panics_builds _ B), (panics_builds _ A). reflexivity.
    + intros b' a' h s' E'. exfalso. assert (exists e, In e (w_log (run t ops)) /\ (e = Polled h s' \/ e = Called h s')) as (e & I & Ke)
        by (destruct E' as [E'|E']; eexists; (split; [rewrite E'; apply in_elt|auto])). clear E'. rewrite E in I. apply in_app_iff in I. rewrite Forall_forall in A, B.
      destruct I as [I|[I|I]]; [destruct (B e I) as (k & K)| |destruct (A e I) as (k & K)]; destruct Ke; congruence.
Qed.

(** ** When *)
Lemma unused_snoc ops o : forall n, unused n (ops ++ [o]) <-> unused n ops /\ ~ polls_one (fold_left grown ops n) o.
Proof. induction ops as [|x ops IH]; intros n; cbn [app unused fold_left]; [tauto|]. rewrite IH. tauto. Qed.
Lemma lazily (t : T) ops : filter builds (w_log (run t ops)) = [] <-> unused 1 ops.
Proof.
  assert ((exists t', w_shared (run t ops) = Uninit t') <-> unused 1 ops) as U.
  { induction ops as [|o ops IH] using rev_ind; [split; [intros _; exact I|intros _; exists t; reflexivity]|].
    rewrite run_snoc, unused_snoc, <- IH. fold (handles ops). destruct (good_run t ops) as (L & G).
    destruct o as [h|h panics|h]; cbn [step].
    - unfold clone. assert (~ polls_one (handles ops) (Clone h)) by (intros (? & ? & ? & _); discriminate). destruct (nth_error _ h); cbn [w_shared]; tauto.
    - unfold poll_ready. destruct (nth_error (w_handles (run t ops)) h) as [[s|]|] eqn:E.
      + cbn [w_shared]. split; [|tauto]. intros (t' & S). exfalso. rewrite S in G. destruct G as (_ & B & _). discriminate (nth_forall _ _ _ _ B E).
      + assert (polls_one (handles ops) (Poll h panics)) as P by (exists h, panics; split; [reflexivity|]; rewrite <- L; apply nth_error_Some; congruence).
        split; [|tauto]. intros (t' & S). exfalso. destruct (w_shared (run t ops)); [destruct panics| |]; discriminate S.
      + assert (~ polls_one (handles ops) (Poll h panics)) as P.
        { intros (h' & p' & [= <- <-] & Q). apply nth_error_None in E. lia. } tauto.
    - unfold call. assert (~ polls_one (handles ops) (Call h)) by (intros (? & ? & ? & _); discriminate). destruct (nth_error _ h) as [[s|]|]; cbn [w_shared]; tauto. }
  rewrite <- U. destruct (good_run t ops) as (_ & G). destruct (w_shared (run t ops)) as [t'|s|].
  - destruct G as (_ & _ & C). split; [intros _; exists t'; reflexivity|intros _; apply panics_builds; exact C].
  - destruct G as (_ & _ & b & a & E & _). split; [|intros (? & X); discriminate X]. rewrite E, filter_app. cbn [filter builds]. intros X. apply app_eq_nil in X as [_ X]. discriminate X.
  - destruct G as (_ & b & a & E & _). split; [|intros (? & X); discriminate X]. rewrite E, filter_app. cbn [filter builds]. intros X. apply app_eq_nil in X as [_ X]. discriminate X.
Qed.

(** ** Readiness *)
Lemma calm_valid (t : T) ops : calm ops -> w_shared (run t ops) <> Invalid.
Proof.
  induction ops as [|o ops IH] using rev_ind; [discriminate|]. intros C. rewrite run_snoc.
  assert (calm ops) as C' by (intros h I; apply (C h); apply in_app_iff; left; exact I). specialize (IH C').
  destruct o as [h|h panics|h]; cbn [step].
  - unfold clone. destruct (nth_error _ h); exact IH.
  - unfold poll_ready. destruct (nth_error _ h) as [[s|]|]; [exact IH| |exact IH]. destruct panics.
    + exfalso. apply (C h). apply in_app_iff. right. left. reflexivity.
    + destruct (w_shared (run t ops)); [discriminate|discriminate|congruence].
  - unfold call. destruct (nth_error _ h) as [[s|]|]; exact IH.
Qed.
Lemma kept (t : T) ops h : nth_error (w_handles (run t ops)) h = Some (Some 0) -> forall more, nth_error (w_handles (run t (ops ++ more))) h = Some (Some 0).
Proof.
  intros H more. induction more as [|o more IH] using rev_ind; [rewrite app_nil_r; exact H|]. rewrite app_assoc, run_snoc. set (w := run t (ops ++ more)) in *.
  assert (h < List.length (w_handles w)) as Q by (apply nth_error_Some; congruence).
  destruct o as [i|i panics|i]; cbn [step].
  - unfold clone. destruct (nth_error (w_handles w) i); [|exact IH]. cbn [w_handles]. rewrite nth_error_app1; assumption.
  - unfold poll_ready. destruct (nth_error (w_handles w) i) as [[s|]|] eqn:E; [exact IH| |exact IH].
    assert (h <> i) as D by congruence. destruct (w_shared w); [destruct panics| |]; cbn [w_handles]; try exact IH; rewrite set_other by exact D; exact IH.
  - unfold call. destruct (nth_error (w_handles w) i) as [[s|]|]; exact IH.
Qed.
Lemma ready (t : T) ops h : calm ops -> h < handles ops ->
  (exists l, w_log (run t (ops ++ [Poll h false])) = w_log (run t ops) ++ l ++ [Polled h 0] /\ (l = [] \/ l = [Made t 0])) /\
  (forall more, exists l, w_log (run t (ops ++ Poll h false :: more ++ [Call h])) = l ++ [Called h 0]).
Proof.
  intros C H. destruct (good_run t ops) as (L & G). pose proof (calm_valid t ops C) as V.
  assert (nth_error (w_handles (run t ops)) h <> None) as N by (apply nth_error_Some; lia).
  assert ((exists l, w_log (run t (ops ++ [Poll h false])) = w_log (run t ops) ++ l ++ [Polled h 0] /\ (l = [] \/ l = [Made t 0])) /\
    nth_error (w_handles (run t (ops ++ [Poll h false]))) h = Some (Some 0)) as (A & B).
  { rewrite run_snoc. cbn [step]. unfold poll_ready. destruct (nth_error (w_handles (run t ops)) h) as [[s|]|] eqn:E; [| |congruence].
    - cbn [w_log w_handles]. assert (s = 0) as ->.
      { destruct (w_shared (run t ops)) as [t'|s'|]; [destruct G as (_ & F & _)|destruct G as (_ & F & _)|congruence];
          pose proof (nth_forall _ _ _ _ F E) as X; [discriminate X|destruct X as [X|X]; congruence]. }
      split; [exists []; auto|exact E].
    - destruct (w_shared (run t ops)) as [t'|s'|]; [| |congruence].
      + destruct G as (-> & F & M). cbv zeta. rewrite (made_none _ M). cbn [w_log w_handles]. split; [exists [Made t 0]; auto|apply set_same; lia].
      + destruct G as (-> & F & _). cbn [w_log w_handles]. split; [exists []; auto|apply set_same; lia]. }
  split; [exact A|]. intros more. replace (ops ++ Poll h false :: more ++ [Call h]) with ((ops ++ [Poll h false] ++ more) ++ [Call h]) by (rewrite <- !app_assoc; reflexivity).
  rewrite run_snoc. cbn [step]. unfold call. rewrite app_assoc, (kept t _ h B more). cbn [w_log]. eexists. reflexivity.
Qed.

(** ** Panics *)
Lemma broken (t : T) ops h : In Making_panics (w_log (run t ops)) -> h < handles ops -> forall panics,
  w_log (run t (ops ++ [Poll h panics])) = w_log (run t ops) ++ [Handle_panics h].
Proof.
  intros I H panics. destruct (good_run t ops) as (L & G). rewrite run_snoc. cbn [step]. unfold poll_ready.
  assert (nth_error (w_handles (run t ops)) h <> None) as N by (apply nth_error_Some; lia).
  destruct (w_shared (run t ops)) as [t'|s|].
  - destruct G as (_ & _ & C). rewrite Forall_forall in C. destruct (C _ I) as (x & X). discriminate X.
  - destruct G as (_ & _ & b & a & E & B & A). exfalso. rewrite E in I. apply in_app_iff in I. rewrite Forall_forall in A, B.
    destruct I as [I|[I|I]]; [destruct (B _ I) as (x & X); discriminate X|discriminate I|destruct (A _ I) as (x & [X|[X|X]]); discriminate X].
  - destruct G as (B & _). destruct (nth_error (w_handles (run t ops)) h) as [x|] eqn:E; [|congruence]. rewrite (nth_forall _ _ _ _ B E). reflexivity.
Qed.
End Lazy.
