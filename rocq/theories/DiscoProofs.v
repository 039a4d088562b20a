(** Proofs about the cache of discoveries. *)
From Coq Require Import List Arith NArith Bool Lia.
From Verif Require Import DiscoModel DiscoSpec.
Import ListNotations.

Section Idle.
  Variable idle : N.

  Lemma run_snoc h : forall s e, run idle s (h ++ [e]) = match run idle s h with Some v => step idle v e | None => None end.
  Proof. induction h as [|x h IH]; intros s e; cbn [app run]; [destruct (step idle s e); reflexivity|]. destruct (step idle s x); [apply IH|reflexivity]. Qed.
  Lemma set_length {A} (l : list A) : forall i x, length (set l i x) = length l.
  Proof. induction l as [|y l IH]; intros [|i] x; cbn; auto. Qed.
  Lemma nth_set {A} (l : list A) : forall i x j, nth_error (set l i x) j =
    if i =? j then match nth_error l i with Some _ => Some x | None => None end else nth_error l j.
  Proof. induction l as [|y l IH]; intros [|i] x [|j]; cbn; auto. destruct (i =? j); reflexivity. Qed.
  Lemma find_remove k k' l : find_entry k (remove_entry k' l) = if k' =? k then None else find_entry k l.
  Proof.
    unfold find_entry, remove_entry. induction l as [|[j e] l IH]; cbn [filter find fst]; [destruct (k' =? k); reflexivity|].
    destruct (j =? k') eqn:E; cbn [negb].
    - apply Nat.eqb_eq in E. subst j. rewrite IH. destruct (k' =? k) eqn:F; [reflexivity|]. reflexivity.
    - cbn [find fst]. destruct (j =? k) eqn:F; [|exact IH]. apply Nat.eqb_eq in F. subst j. rewrite Nat.eqb_sym in E. rewrite E. reflexivity.
  Qed.
  Lemma find_touch k t n l : find_entry k (map (fun e : nat * entry => if e_thunk (snd e) =? t then (fst e, Entry t n) else e) l) =
    option_map (fun e => if e_thunk e =? t then Entry t n else e) (find_entry k l).
  Proof.
    unfold find_entry. induction l as [|[j e] l IH]; [reflexivity|]. cbn [map find fst snd].
    destruct (e_thunk e =? t) eqn:E; cbn [fst]; (destruct (j =? k); [cbn [option_map snd]; rewrite E; reflexivity|exact IH]).
  Qed.
  Lemma find_cons k j e l : find_entry k ((j, e) :: l) = if j =? k then Some e else find_entry k l.
  Proof. unfold find_entry. cbn [find fst]. destruct (j =? k); reflexivity. Qed.
  Lemma news_snoc h e : news (h ++ [e]) = news h ++ news [e].
  Proof. apply flat_map_app. Qed.
  Lemma evictions_snoc h e : evictions (h ++ [e]) = evictions h ++ evictions [e].
  Proof. apply flat_map_app. Qed.
  Lemma clock_app a b : clock (a ++ b) = (clock a + clock b)%N.
  Proof. unfold clock. induction a as [|e a IH]; [reflexivity|]. cbn [app fold_right]. rewrite IH. destruct e; lia. Qed.
  Lemma count_app k a b : count k (a ++ b) = count k a + count k b.
  Proof. unfold count. rewrite filter_app, app_length. reflexivity. Qed.

  Record inv (h : list event) (s : state) : Prop := {
    i_now : now s = clock h;
    i_length : length (services s) = length (news h);
    (* the discovery of an entry is of its key *)
    i_entry : forall k e, find_entry k (entries s) = Some e -> exists a, nth_error (thunks s) (e_thunk e) = Some (Thunk k a);
    (* the discovery of a service is of its key, and the entry stays while it is there *)
    i_service : forall i x k, nth_error (services s) i = Some x -> nth_error (news h) i = Some k ->
      (exists a, nth_error (thunks s) (s_thunk x) = Some (Thunk k a)) /\
      (s_dropped x = false -> exists e, find_entry k (entries s) = Some e /\ e_thunk e = s_thunk x);
    (* what it was made from was answered *)
    i_made : forall i x v, nth_error (services s) i = Some x -> s_phase x = Made v -> In (Answers (s_thunk x) (Found v)) h;
    i_broke : forall i x v, nth_error (services s) i = Some x -> s_phase x = Broke v -> In (Answers (s_thunk x) (Failed v)) h;
    i_answer : forall t k a, nth_error (thunks s) t = Some (Thunk k (Some a)) -> In (Answers t a) h;
    i_lookups : forall k, count k (lookups s) = count k (evictions h) + match find_entry k (entries s) with Some _ => 1 | None => 0 end;
    (* the last drop *)
    i_last : forall k e, find_entry k (entries s) = Some e -> (e_last e <= clock h)%N /\
      forall a b i x, h = a ++ Drops i :: b -> nth_error (services s) i = Some x -> s_thunk x = e_thunk e -> (clock a <= e_last e)%N
  }.

  Lemma snoc_split {A} (h : list A) e a x b : h ++ [e] = a ++ x :: b -> (b = [] /\ a = h /\ x = e) \/ exists b', b = b' ++ [e] /\ h = a ++ x :: b'.
  Proof.
    destruct b as [|y b _] using rev_ind; intros H.
    - left. apply app_inj_tail in H as [-> ->]. auto.
    - right. exists b. change (x :: b ++ [y]) with ((x :: b) ++ [y]) in H. rewrite app_assoc in H. apply app_inj_tail in H as [-> ->]. auto.
  Qed.
  Lemma invariant : forall h s, run idle init h = Some s -> inv h s.
  Proof.
    induction h as [|e h IH] using rev_ind; intros s H.
    - injection H as <-. split; cbn; try reflexivity; try (intros; discriminate).
      + intros i x k Hx. destruct i; discriminate.
      + intros i x v Hx. destruct i; discriminate.
      + intros i x v Hx. destruct i; discriminate.
      + intros t k a Hx. destruct t; discriminate.
    - rewrite run_snoc in H. destruct (run idle init h) as [v|] eqn:R; [|discriminate].
      destruct (IH v eq_refl) as [I1 I2 I3 I4 I5 I6 I7 I8 I9]. clear IH.
      destruct e as [d|k|t a|i|i|k]; cbn [step] in H.
      + injection H as <-. assert (Hn : news (h ++ [Ticks d]) = news h) by (rewrite news_snoc; apply app_nil_r).
        assert (He : evictions (h ++ [Ticks d]) = evictions h) by (rewrite evictions_snoc; apply app_nil_r).
        split; cbn [now entries thunks services]; rewrite ?Hn, ?He; try assumption.
        * rewrite clock_app, I1. cbn. lia.
        * intros i x w Hx Hp. apply in_app_iff. left. eauto.
        * intros i x w Hx Hp. apply in_app_iff. left. eauto.
        * intros t k a Hx. apply in_app_iff. left. eauto.
        * intros k e He'. destruct (I9 k e He') as [L1 L2]. split; [rewrite clock_app; lia|]. intros a b i x Eh Hx Ht.
          apply snoc_split in Eh as [(_ & _ & Eh)|(b' & _ & Eh)]; [discriminate|]. eapply L2; eassumption.
      + injection H as <-. assert (Hn : news (h ++ [New k]) = news h ++ [k]) by (rewrite news_snoc; reflexivity).
        assert (He : evictions (h ++ [New k]) = evictions h) by (rewrite evictions_snoc; apply app_nil_r).
        assert (Hc : clock (h ++ [New k]) = clock h) by (rewrite clock_app; cbn; lia).
        unfold new_service. destruct (find_entry k (entries v)) as [e|] eqn:E.
        * split; cbn [now entries thunks services]; rewrite ?Hn, ?He, ?Hc; try assumption.
          -- rewrite !app_length, I2. reflexivity.
          -- intros i x j Hx Hj. destruct (Nat.lt_ge_cases i (length (services v))) as [L|L].
             ++ rewrite nth_error_app1 in Hx by exact L. rewrite nth_error_app1 in Hj by lia. eauto.
             ++ rewrite nth_error_app2 in Hx by exact L. rewrite nth_error_app2 in Hj by lia. rewrite <- I2 in Hj.
                destruct (i - length (services v)) as [|m]; [|destruct m; discriminate]. cbn in Hx, Hj. injection Hx as <-. injection Hj as <-.
                cbn [s_thunk]. split; [apply I3; exact E|]. intros _. eauto.
          -- intros i x w Hx Hp. apply in_app_iff. left. destruct (Nat.lt_ge_cases i (length (services v))) as [L|L].
             ++ rewrite nth_error_app1 in Hx by exact L. eauto.
             ++ rewrite nth_error_app2 in Hx by exact L. destruct (i - length (services v)) as [|m]; [|destruct m; discriminate]. cbn in Hx. injection Hx as <-. discriminate.
          -- intros i x w Hx Hp. apply in_app_iff. left. destruct (Nat.lt_ge_cases i (length (services v))) as [L|L].
             ++ rewrite nth_error_app1 in Hx by exact L. eauto.
             ++ rewrite nth_error_app2 in Hx by exact L. destruct (i - length (services v)) as [|m]; [|destruct m; discriminate]. cbn in Hx. injection Hx as <-. discriminate.
          -- intros t j a Hx. apply in_app_iff. left. eauto.
          -- intros j e' He'. destruct (I9 j e' He') as [L1 L2]. split; [exact L1|]. intros a b i x Eh Hx Ht.
             apply snoc_split in Eh as [(_ & _ & Eh)|(b' & _ & Eh)]; [discriminate|].
             assert (L : i < length (services v)).
             { (* a service that was dropped was there *)
               rewrite I2. clear - R Eh. subst h. revert v R. induction b' as [|y b' IH] using rev_ind; intros v R.
               - rewrite run_snoc in R. destruct (run idle init a) as [u|] eqn:Ra; [|discriminate]. cbn [step] in R.
                 destruct (nth_error (services u) i) as [[t p [|]]|] eqn:E; try discriminate.
                 assert (Lu : i < length (services u)) by (apply nth_error_Some; congruence).
                 rewrite news_snoc. rewrite app_length. cbn. 
                 assert (K : length (services u) = length (news a)).
                 { clear - Ra. revert u Ra. induction a as [|z a IH] using rev_ind; intros u Ra; [injection Ra as <-; reflexivity|].
                   rewrite run_snoc in Ra. destruct (run idle init a) as [w|]; [|discriminate]. specialize (IH w eq_refl). rewrite news_snoc, app_length, <- IH.
                   destruct z; cbn [step] in Ra; unfold new_service in Ra;
                   repeat match type of Ra with context [match ?m with _ => _ end] => destruct m eqn:?; try discriminate end;
                   injection Ra as <-; cbn [services news flat_map app length]; rewrite ?set_length, ?app_length; cbn; lia. }
                 lia.
               - change (Drops i :: b' ++ [y]) with ((Drops i :: b') ++ [y]) in R. rewrite app_assoc, run_snoc in R.
                 destruct (run idle init (a ++ Drops i :: b')) as [u|] eqn:Ra; [|discriminate]. specialize (IH u eq_refl).
                 change (Drops i :: b' ++ [y]) with ((Drops i :: b') ++ [y]). rewrite app_assoc, news_snoc, app_length. lia. }
             rewrite nth_error_app1 in Hx by exact L. eapply L2; eassumption.
        * split; cbn [now entries thunks services]; rewrite ?Hn, ?He, ?Hc; try assumption.
          -- rewrite !app_length, I2. reflexivity.
          -- intros j e. rewrite find_cons. destruct (k =? j) eqn:Ej.
             ++ apply Nat.eqb_eq in Ej. subst j. intros He'. injection He' as <-. cbn [e_thunk]. exists None. rewrite nth_error_app2, Nat.sub_diag by lia. reflexivity.
             ++ intros He'. destruct (I3 j e He') as (a & Ha). exists a. rewrite nth_error_app1; [exact Ha|]. apply nth_error_Some. congruence.
          -- intros i x j Hx Hj. destruct (Nat.lt_ge_cases i (length (services v))) as [L|L].
             ++ rewrite nth_error_app1 in Hx by exact L. rewrite nth_error_app1 in Hj by lia. destruct (I4 i x j Hx Hj) as [(a & Ha) K]. split.
                ** exists a. rewrite nth_error_app1; [exact Ha|]. apply nth_error_Some. congruence.
                ** intros D. destruct (K D) as (e & He' & Ht). exists e. rewrite find_cons. destruct (k =? j) eqn:Ej; [apply Nat.eqb_eq in Ej; congruence|]. auto.
             ++ rewrite nth_error_app2 in Hx by exact L. rewrite nth_error_app2 in Hj by lia. rewrite <- I2 in Hj.
                destruct (i - length (services v)) as [|m]; [|destruct m; discriminate]. cbn in Hx, Hj. injection Hx as <-. injection Hj as <-.
                cbn [s_thunk]. split; [exists None; rewrite nth_error_app2, Nat.sub_diag by lia; reflexivity|].
                intros _. eexists. rewrite find_cons, Nat.eqb_refl. split; reflexivity.
          -- intros i x w Hx Hp. apply in_app_iff. left. destruct (Nat.lt_ge_cases i (length (services v))) as [L|L].
             ++ rewrite nth_error_app1 in Hx by exact L. eauto.
             ++ rewrite nth_error_app2 in Hx by exact L. destruct (i - length (services v)) as [|m]; [|destruct m; discriminate]. cbn in Hx. injection Hx as <-. discriminate.
          -- intros i x w Hx Hp. apply in_app_iff. left. destruct (Nat.lt_ge_cases i (length (services v))) as [L|L].
             ++ rewrite nth_error_app1 in Hx by exact L. eauto.
             ++ rewrite nth_error_app2 in Hx by exact L. destruct (i - length (services v)) as [|m]; [|destruct m; discriminate]. cbn in Hx. injection Hx as <-. discriminate.
          -- intros t j a Hx. apply in_app_iff. left. destruct (Nat.lt_ge_cases t (length (thunks v))) as [L|L].
             ++ rewrite nth_error_app1 in Hx by exact L. eauto.
             ++ rewrite nth_error_app2 in Hx by exact L. destruct (t - length (thunks v)) as [|m]; [|destruct m; discriminate]. discriminate.
          -- intros j. unfold lookups in *. cbn [thunks]. rewrite map_app, count_app, I8. rewrite find_cons. cbn [map t_key]. unfold count at 2. cbn [filter].
             destruct (k =? j) eqn:Ej.
             ++ apply Nat.eqb_eq in Ej. subst j. rewrite Nat.eqb_refl, E. cbn. lia.
             ++ rewrite Nat.eqb_sym in Ej. rewrite Ej. cbn. lia.
          -- intros j e. rewrite find_cons. destruct (k =? j) eqn:Ej.
             ++ intros He'. injection He' as <-. cbn [e_last e_thunk]. split; [lia|]. intros a b i x Eh _ _.
                apply snoc_split in Eh as [(_ & _ & Eh)|(b' & _ & Eh)]; [discriminate|]. rewrite Eh, clock_app in I1. lia.
             ++ intros He'. destruct (I9 j e He') as [L1 L2]. split; [exact L1|]. intros a b i x Eh Hx Ht.
                apply snoc_split in Eh as [(_ & _ & Eh)|(b' & _ & Eh)]; [discriminate|].
                destruct (Nat.lt_ge_cases i (length (services v))) as [L|L]; [rewrite nth_error_app1 in Hx by exact L; eapply L2; eassumption|].
                rewrite nth_error_app2 in Hx by exact L. destruct (i - length (services v)) as [|m]; [|destruct m; discriminate]. cbn in Hx. injection Hx as <-. cbn [s_thunk] in Ht.
                destruct (I3 j e He') as (a' & Ha). rewrite <- Ht in Ha. assert (length (thunks v) < length (thunks v)) by (apply nth_error_Some; congruence). lia.
      + destruct (nth_error (thunks v) t) as [[k [|]]|] eqn:Et; try discriminate.
        destruct (find_entry k (entries v)) as [e|] eqn:Ee; [|discriminate]. destruct (e_thunk e =? t) eqn:Ek; [|discriminate]. injection H as <-.
        assert (Hn : news (h ++ [Answers t a]) = news h) by (rewrite news_snoc; apply app_nil_r).
        assert (He : evictions (h ++ [Answers t a]) = evictions h) by (rewrite evictions_snoc; apply app_nil_r).
        assert (Hc : clock (h ++ [Answers t a]) = clock h) by (rewrite clock_app; cbn; lia).
        assert (Ht : forall u j, (exists b, nth_error (thunks v) u = Some (Thunk j b)) -> exists b, nth_error (set (thunks v) t (Thunk k (Some a))) u = Some (Thunk j b)).
        { intros u j (b & Hb). rewrite nth_set, Et. destruct (t =? u) eqn:Eu; [|eauto]. apply Nat.eqb_eq in Eu. subst u. rewrite Et in Hb. injection Hb as -> <-. eauto. }
        split; cbn [now entries thunks services]; rewrite ?Hn, ?He, ?Hc; try assumption.
        * intros j e' He'. apply Ht. eauto.
        * intros i x j Hx Hj. destruct (I4 i x j Hx Hj) as [K1 K2]. split; [apply Ht; exact K1|exact K2].
        * intros i x w Hx Hp. apply in_app_iff. left. eauto.
        * intros i x w Hx Hp. apply in_app_iff. left. eauto.
        * intros u j b. rewrite nth_set, Et. destruct (t =? u) eqn:Eu.
          -- apply Nat.eqb_eq in Eu. subst u. intros Hx. injection Hx as <- <-. apply in_app_iff. right. left. reflexivity.
          -- intros Hx. apply in_app_iff. left. eauto.
        * intros j. rewrite <- I8. unfold lookups. cbn [thunks]. f_equal. clear - Et. revert t Et.
          induction (thunks v) as [|y l IH]; intros [|t] Et; cbn in *; try discriminate; [injection Et as ->; reflexivity|]. f_equal. apply IH. exact Et.
        * intros j e' He'. destruct (I9 j e' He') as [L1 L2]. split; [exact L1|]. intros a' b i x Eh Hx Hxt.
          apply snoc_split in Eh as [(_ & _ & Eh)|(b' & _ & Eh)]; [discriminate|]. eapply L2; eassumption.
      + destruct (nth_error (services v) i) as [[t p [|]]|] eqn:Es; try discriminate.
        destruct (nth_error (thunks v) t) as [[k oa]|] eqn:Et; [|discriminate]. injection H as <-. cbn [t_answer].
        assert (Hn : news (h ++ [Polls i]) = news h) by (rewrite news_snoc; apply app_nil_r).
        assert (He : evictions (h ++ [Polls i]) = evictions h) by (rewrite evictions_snoc; apply app_nil_r).
        assert (Hc : clock (h ++ [Polls i]) = clock h) by (rewrite clock_app; cbn; lia).
        split; cbn [now entries thunks services]; rewrite ?Hn, ?He, ?Hc; try assumption.
        * rewrite set_length. exact I2.
        * intros j x k' Hx Hk. rewrite nth_set, Es in Hx. destruct (i =? j) eqn:Ej; [|eauto]. apply Nat.eqb_eq in Ej. subst j. injection Hx as <-. cbn [s_thunk s_dropped].
          exact (I4 i _ k' Es Hk).
        * intros j x w Hx Hp. apply in_app_iff. left. rewrite nth_set, Es in Hx. destruct (i =? j) eqn:Ej; [|eauto]. injection Hx as <-. cbn [s_thunk s_phase] in *.
          unfold poll in Hp. destruct p as [|w'|w'].
          -- destruct oa as [[w'|w']|]; try discriminate. injection Hp as ->. eapply I7. exact Et.
          -- injection Hp as ->. exact (I5 i _ w Es eq_refl).
          -- discriminate.
        * intros j x w Hx Hp. apply in_app_iff. left. rewrite nth_set, Es in Hx. destruct (i =? j) eqn:Ej; [|eauto]. injection Hx as <-. cbn [s_thunk s_phase] in *.
          unfold poll in Hp. destruct p as [|w'|w'].
          -- destruct oa as [[w'|w']|]; try discriminate. injection Hp as ->. eapply I7. exact Et.
          -- discriminate.
          -- injection Hp as ->. exact (I6 i _ w Es eq_refl).
        * intros u j b Hx. apply in_app_iff. left. eauto.
        * intros j e' He'. destruct (I9 j e' He') as [L1 L2]. split; [exact L1|]. intros a' b i' x Eh Hx Hxt.
          apply snoc_split in Eh as [(_ & _ & Eh)|(b' & _ & Eh)]; [discriminate|]. rewrite nth_set, Es in Hx. destruct (i =? i') eqn:Ei; [|eapply L2; eassumption].
          apply Nat.eqb_eq in Ei. subst i'. injection Hx as <-. eapply L2; [exact Eh|exact Es|exact Hxt].
      + destruct (nth_error (services v) i) as [[t p [|]]|] eqn:Es; try discriminate. injection H as <-.
        assert (Hn : news (h ++ [Drops i]) = news h) by (rewrite news_snoc; apply app_nil_r).
        assert (He : evictions (h ++ [Drops i]) = evictions h) by (rewrite evictions_snoc; apply app_nil_r).
        assert (Hc : clock (h ++ [Drops i]) = clock h) by (rewrite clock_app; cbn; lia).
        split; cbn [now entries thunks services]; rewrite ?Hn, ?He, ?Hc; try assumption.
        * rewrite set_length. exact I2.
        * intros j e. rewrite find_touch. destruct (find_entry j (entries v)) as [e0|] eqn:E0; [|discriminate]. cbn [option_map]. intros Heq. injection Heq as <-.
          destruct (e_thunk e0 =? t) eqn:Ek; [|exact (I3 j e0 E0)]. apply Nat.eqb_eq in Ek. cbn [e_thunk]. rewrite <- Ek. exact (I3 j e0 E0).
        * intros j x k' Hx Hk. rewrite nth_set, Es in Hx. rewrite find_touch.
          assert (Hx' : exists x0, nth_error (services v) j = Some x0 /\ s_thunk x0 = s_thunk x /\ (s_dropped x = false -> s_dropped x0 = false)).
          { destruct (i =? j) eqn:Ej; [|eauto]. apply Nat.eqb_eq in Ej. subst j. injection Hx as <-. eexists. split; [exact Es|]. split; [reflexivity|discriminate]. }
          destruct Hx' as (x0 & Hx0 & Ht0 & Hd0). destruct (I4 j x0 k' Hx0 Hk) as [K1 K2]. rewrite <- Ht0. split; [exact K1|].
          intros D. destruct (K2 (Hd0 D)) as (e0 & He0 & Hte). rewrite He0. cbn [option_map]. eexists. split; [reflexivity|].
          destruct (e_thunk e0 =? t) eqn:Ek; [|exact Hte]. apply Nat.eqb_eq in Ek. cbn [e_thunk]. congruence.
        * intros j x w Hx Hp. apply in_app_iff. left. rewrite nth_set, Es in Hx. destruct (i =? j) eqn:Ej; [|eauto]. injection Hx as <-. cbn [s_thunk s_phase] in *. exact (I5 i _ w Es Hp).
        * intros j x w Hx Hp. apply in_app_iff. left. rewrite nth_set, Es in Hx. destruct (i =? j) eqn:Ej; [|eauto]. injection Hx as <-. cbn [s_thunk s_phase] in *. exact (I6 i _ w Es Hp).
        * intros u j b Hx. apply in_app_iff. left. eauto.
        * intros j. rewrite I8, find_touch. destruct (find_entry j (entries v)); reflexivity.
        * intros j e. rewrite find_touch. destruct (find_entry j (entries v)) as [e0|] eqn:E0; [|discriminate]. cbn [option_map]. intros Heq. injection Heq as <-.
          destruct (I9 j e0 E0) as [L1 L2]. destruct (e_thunk e0 =? t) eqn:Ek.
          -- cbn [e_last e_thunk]. rewrite I1. split; [lia|]. intros a b i' x Eh Hx Hxt.
             apply snoc_split in Eh as [(_ & -> & _)|(b' & _ & Eh)]; [lia|]. rewrite Eh, clock_app. lia.
          -- split; [exact L1|]. intros a b i' x Eh Hx Hxt. rewrite nth_set, Es in Hx.
             apply snoc_split in Eh as [(_ & -> & Eh)|(b' & _ & Eh)].
             ++ injection Eh as ->. rewrite Nat.eqb_refl in Hx. injection Hx as <-. cbn [s_thunk] in Hxt. subst t. rewrite Nat.eqb_refl in Ek. discriminate.
             ++ destruct (i =? i') eqn:Ei; [|eapply L2; eassumption].
                injection Hx as <-. cbn [s_thunk] in Hxt. subst t. rewrite Nat.eqb_refl in Ek. discriminate.
      + destruct (find_entry k (entries v)) as [e|] eqn:Ee; [|discriminate]. destruct (_ && _) eqn:G; [|discriminate]. injection H as <-.
        apply andb_true_iff in G as [G1 G2]. apply negb_true_iff in G2.
        assert (Hn : news (h ++ [Evicts k]) = news h) by (rewrite news_snoc; apply app_nil_r).
        assert (He : evictions (h ++ [Evicts k]) = evictions h ++ [k]) by (rewrite evictions_snoc; reflexivity).
        assert (Hc : clock (h ++ [Evicts k]) = clock h) by (rewrite clock_app; cbn; lia).
        split; cbn [now entries thunks services]; rewrite ?Hn, ?He, ?Hc; try assumption.
        * intros j e'. rewrite find_remove. destruct (k =? j); [discriminate|]. apply I3.
        * intros i x j Hx Hj. destruct (I4 i x j Hx Hj) as [K1 K2]. split; [exact K1|]. intros D. destruct (K2 D) as (e' & He' & Ht).
          rewrite find_remove. destruct (k =? j) eqn:Ej; [|eauto]. exfalso. apply Nat.eqb_eq in Ej. subst j.
          assert (e' = e) by congruence. subst e'.
          assert (existsb (holds (e_thunk e)) (services v) = true); [|congruence]. apply existsb_exists. exists x. split; [eapply nth_error_In; exact Hx|].
          unfold holds. rewrite Ht, Nat.eqb_refl, D. reflexivity.
        * intros i x w Hx Hp. apply in_app_iff. left. eauto.
        * intros i x w Hx Hp. apply in_app_iff. left. eauto.
        * intros u j b Hx. apply in_app_iff. left. eauto.
        * intros j. specialize (I8 j). unfold lookups in *. cbn [thunks]. rewrite I8, count_app, find_remove. unfold count at 3. cbn [filter]. rewrite (Nat.eqb_sym j k).
          destruct (k =? j) eqn:Ej; [apply Nat.eqb_eq in Ej; subst j; rewrite Ee|]; cbn; lia.
        * intros j e'. rewrite find_remove. destruct (k =? j); [discriminate|]. intros He'. destruct (I9 j e' He') as [L1 L2]. split; [exact L1|].
          intros a b i x Eh Hx Hxt. apply snoc_split in Eh as [(_ & _ & Eh)|(b' & _ & Eh)]; [discriminate|]. eapply L2; eassumption.
  Qed.

  Theorem own_answer h s i x k : run idle init h = Some s -> nth_error (services s) i = Some x -> nth_error (news h) i = Some k ->
    nth_error (lookups s) (s_thunk x) = Some k /\
    (forall v, s_phase x = Made v -> In (Answers (s_thunk x) (Found v)) h) /\
    (forall e, s_phase x = Broke e -> In (Answers (s_thunk x) (Failed e)) h).
  Proof.
    intros R Hx Hk. destruct (invariant h s R) as [I1 I2 I3 I4 I5 I6 I7 I8 I9]. split.
    - destruct (I4 i x k Hx Hk) as [(a & Ha) _]. unfold lookups. rewrite nth_error_map, Ha. reflexivity.
    - split; eauto.
  Qed.
  Theorem shared h s i j k x y : run idle init h = Some s -> in_use h s k i x -> in_use h s k j y -> s_thunk x = s_thunk y.
  Proof.
    intros R (N1 & S1 & D1) (N2 & S2 & D2). destruct (invariant h s R) as [I1 I2 I3 I4 I5 I6 I7 I8 I9].
    destruct (I4 i x k S1 N1) as [_ K1]. destruct (I4 j y k S2 N2) as [_ K2]. destruct (K1 D1) as (e1 & E1 & T1). destruct (K2 D2) as (e2 & E2 & T2). congruence.
  Qed.
  Theorem one_lookup h s k : run idle init h = Some s -> (count k (lookups s) <= S (count k (evictions h)))%nat.
  Proof. intros R. rewrite (i_lookups _ _ (invariant h s R)). destruct (find_entry k (entries s)); lia. Qed.
  Theorem evicted h s k : run idle init (h ++ [Evicts k]) = Some s ->
    (forall v i x, run idle init h = Some v -> ~ in_use h v k i x) /\
    exists v t, run idle init h = Some v /\ nth_error (lookups v) t = Some k /\
    forall a b i x, h = a ++ Drops i :: b -> nth_error (services v) i = Some x -> s_thunk x = t -> (idle <= clock b)%N.
  Proof.
    intros R. rewrite run_snoc in R. destruct (run idle init h) as [v|] eqn:Rh; [|discriminate]. cbn [step] in R.
    destruct (find_entry k (entries v)) as [e|] eqn:Ee; [|discriminate]. destruct (_ && _) eqn:G; [|discriminate].
    apply andb_true_iff in G as [G1 G2]. apply negb_true_iff in G2. apply N.leb_le in G1.
    destruct (invariant h v Rh) as [I1 I2 I3 I4 I5 I6 I7 I8 I9]. split.
    - intros v' i x E (N1 & S1 & D1). injection E as <-. destruct (I4 i x k S1 N1) as [_ K1]. destruct (K1 D1) as (e1 & E1 & T1).
      assert (e1 = e) by congruence. subst e1.
      assert (existsb (holds (e_thunk e)) (services v) = true); [|congruence]. apply existsb_exists. exists x. split; [eapply nth_error_In; exact S1|].
      unfold holds. rewrite T1, Nat.eqb_refl, D1. reflexivity.
    - exists v, (e_thunk e). split; [reflexivity|]. destruct (I3 k e Ee) as (a & Ha). split; [unfold lookups; rewrite nth_error_map, Ha; reflexivity|].
      intros a' b i x Eh Hx Ht. destruct (I9 k e Ee) as [L1 L2]. specialize (L2 a' b i x Eh Hx Ht). rewrite I1 in G1. rewrite Eh in G1.
      rewrite clock_app in G1. unfold clock in G1 at 2. cbn [fold_right] in G1. fold (clock b) in G1. lia.
  Qed.

  (** A failure is remembered *)
  Fixpoint retries (n i : nat) : list event :=
    match n with 0 => [] | S n => [Ticks (idle - 1); New 0; Polls i; Drops i] ++ retries n (S i) end.
  Lemma run_app a : forall s b, run idle s (a ++ b) = match run idle s a with Some v => run idle v b | None => None end.
  Proof. induction a as [|x a IH]; intros s b; cbn [app run]; [reflexivity|]. destruct (step idle s x); [apply IH|reflexivity]. Qed.
  Definition broken : service := Service 0 (Broke 7) true.
  Lemma set_last {A} (l : list A) x y : set (l ++ [x]) (length l) y = l ++ [y].
  Proof. induction l as [|z l IH]; [reflexivity|]. cbn. now rewrite IH. Qed.
  Lemma nth_last {A} (l : list A) x : nth_error (l ++ [x]) (length l) = Some x.
  Proof. rewrite nth_error_app2, Nat.sub_diag by lia. reflexivity. Qed.
  Lemma one_more t l : run idle (State t [(0, Entry 0 t)] [Thunk 0 (Some (Failed 7))] l) [Ticks (idle - 1); New 0; Polls (length l); Drops (length l)] =
    Some (State (t + (idle - 1)) [(0, Entry 0 (t + (idle - 1)))] [Thunk 0 (Some (Failed 7))] (l ++ [broken])).
  Proof.
    assert (E : forall t', new_service (State t' [(0, Entry 0 t)] [Thunk 0 (Some (Failed 7))] l) 0 =
      State t' [(0, Entry 0 t)] [Thunk 0 (Some (Failed 7))] (l ++ [Service 0 Waits false])) by reflexivity.
    cbn [run step now entries thunks services]. rewrite E. cbn [now entries thunks services]. rewrite nth_last. cbn [nth_error t_answer poll services].
    rewrite set_last, nth_last. cbn [map snd fst e_thunk Nat.eqb now entries thunks services]. rewrite set_last. reflexivity.
  Qed.
  Lemma retry n : forall t m, exists t', run idle (State t [(0, Entry 0 t)] [Thunk 0 (Some (Failed 7))] (repeat broken m)) (retries n m) =
    Some (State t' [(0, Entry 0 t')] [Thunk 0 (Some (Failed 7))] (repeat broken (m + n))).
  Proof.
    induction n as [|n IH]; intros t m; cbn [retries]; [exists t; rewrite Nat.add_0_r; reflexivity|].
    pose proof (one_more t (repeat broken m)) as O. rewrite repeat_length in O.
    rewrite run_app, O.
    replace (repeat broken m ++ [broken]) with (repeat broken (S m)).
    2:{ change [broken] with (repeat broken 1). rewrite <- repeat_app, Nat.add_1_r. reflexivity. }
    destruct (IH (t + (idle - 1))%N (S m)) as (t' & E). exists t'. replace (m + S n) with (S m + n) by lia. exact E.
  Qed.
  Lemma retries_clock n : forall i, clock (retries n i) = (N.of_nat n * (idle - 1))%N.
  Proof.
    induction n as [|n IH]; intros i; [reflexivity|]. cbn [retries]. rewrite clock_app, IH. rewrite Nat2N.inj_succ.
    replace (clock [Ticks (idle - 1); New 0; Polls i; Drops i]) with (idle - 1)%N by (cbn [clock fold_right]; lia). lia.
  Qed.
  Theorem remembered n : exists h s, run idle init h = Some s /\ lookups s = [0] /\ clock h = (N.of_nat n * (idle - 1))%N /\
    news h = repeat 0 (S n) /\ services s = repeat (Service 0 (Broke 7) true) (S n).
  Proof.
    destruct (retry n 0 1) as (t' & E). exists ([New 0; Answers 0 (Failed 7); Polls 0; Drops 0] ++ retries n 1).
    eexists. split; [rewrite run_app; cbn; exact E|]. split; [reflexivity|]. split; [|split; [|reflexivity]].
    - rewrite clock_app, retries_clock. reflexivity.
    - cbn [repeat]. change (news ([New 0; Answers 0 (Failed 7); Polls 0; Drops 0] ++ retries n 1)) with (0 :: news (retries n 1)). f_equal.
      clear. generalize 1. induction n as [|n IH]; intros i; [reflexivity|]. cbn [retries repeat]. 
      change (news ([Ticks (idle - 1); New 0; Polls i; Drops i] ++ retries n (S i))) with (0 :: news (retries n (S i))). f_equal. apply IH.
  Qed.

  (** A key whose entry is gone is looked up anew *)
  Theorem anew h s k : run idle init (h ++ [Evicts k; New k]) = Some s ->
    exists v, run idle init h = Some v /\ lookups s = lookups v ++ [k].
  Proof.
    intros R. change [Evicts k; New k] with ([Evicts k] ++ [New k]) in R. rewrite app_assoc, run_snoc, run_snoc in R.
    destruct (run idle init h) as [v|]; [|discriminate]. exists v. split; [reflexivity|]. cbn [step] in R.
    destruct (find_entry k (entries v)) as [e|] eqn:Ee; [|discriminate]. destruct (_ && _); [|discriminate]. cbn [step] in R. injection R as <-.
    unfold new_service. cbn [entries thunks now services]. rewrite find_remove, Nat.eqb_refl. unfold lookups. cbn [thunks]. apply map_app.
  Qed.
End Idle.
