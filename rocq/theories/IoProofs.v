From Coq Require Import List NArith ZArith Bool Lia ZifyBool ZifyNat ZifyN.
From Verif Require Import Bytes BytesProofs IoModel IoSpec.
Import ListNotations.
Open Scope N_scope.

Lemma take_drop n s : take n s ++ drop n s = s.
Proof. apply firstn_skipn. Qed.
Lemma take_nil n s : take n s = [] -> n = 0 \/ s = [].
Proof. unfold take. destruct (N.to_nat n) eqn:E; [lia|]. destruct s; auto. discriminate. Qed.
Lemma len_nil s : len s = 0 <-> s = [].
Proof. unfold len. destruct s; cbn; split; intros; try easy; lia. Qed.
Lemma len_app a b : len (a ++ b) = len a + len b.
Proof. unfold len. rewrite app_length. lia. Qed.
Lemma drop_all n s : len s <= n -> drop n s = [].
Proof. intros H. unfold drop, len in *. apply skipn_all2. lia. Qed.
Lemma len_take n s : len (take n s) = N.min n (len s).
Proof. unfold take, len. rewrite firstn_length. lia. Qed.
Lemma len_drop n s : len (drop n s) = len s - n.
Proof. unfold drop, len. rewrite skipn_length. lia. Qed.
Lemma take_all n s : len s <= n -> take n s = s.
Proof. intros H. unfold take, len in *. apply firstn_all2. lia. Qed.
Lemma take_app_len a b : take (len a) (a ++ b) = a.
Proof.
  unfold take, len. rewrite Nat2N.id, firstn_app, Nat.sub_diag, firstn_all. cbn. apply app_nil_r.
Qed.
Lemma drop_app_len a b : drop (len a) (a ++ b) = b.
Proof. unfold drop, len. rewrite Nat2N.id, skipn_app, Nat.sub_diag, skipn_all. reflexivity. Qed.
Lemma take_app_le n a b : n <= len a -> take n (a ++ b) = take n a.
Proof.
  intros H. unfold take, len in *. rewrite firstn_app.
  replace (N.to_nat n - length a)%nat with 0%nat by lia. cbn. apply app_nil_r.
Qed.
Lemma drop_app_le n a b : n <= len a -> drop n (a ++ b) = drop n a ++ b.
Proof.
  intros H. unfold drop, len in *. rewrite skipn_app.
  replace (N.to_nat n - length a)%nat with 0%nat by lia. reflexivity.
Qed.

Lemma poll_read_contents i n a r i' : poll_read i n a = (r, i') ->
  match r with
  | Got b => b ++ contents i' = contents i /\ len b <= n
  | _ => contents i' = contents i
  end.
Proof.
  revert r i'; induction i as [s|p inner IH]; intros r i'; cbn [poll_read].
  - destruct a as [k| |]; intros H; injection H as <- <-; [|easy|easy]. cbn [contents].
    split; [apply take_drop|]. rewrite len_take. lia.
  - destruct (len p =? 0) eqn:E.
    + destruct (poll_read inner n a) as [r0 i0] eqn:Ep. intros H; injection H as <- <-.
      specialize (IH _ _ eq_refl). assert (p = []) by (apply len_nil; lia). subst p. exact IH.
    + intros H; injection H as <- <-. cbn [contents]. split.
      * destruct (len p =? N.min n (len p)) eqn:El.
        -- rewrite take_all by lia. reflexivity.
        -- rewrite app_assoc, take_drop. reflexivity.
      * rewrite len_take. lia.
Qed.

Theorem reads_conserve l : forall i b i', reads i l = (b, i') -> b ++ contents i' = contents i.
Proof.
  induction l as [|[n a] l IH]; intros i b i'; cbn [reads].
  - intros H; injection H as <- <-. reflexivity.
  - destruct (poll_read i n a) as [r i1] eqn:E. destruct (reads i1 l) as [b1 i2] eqn:E2.
    intros H; injection H as <- <-. apply poll_read_contents in E. apply IH in E2.
    destruct r as [x| |].
    + destruct E as [E _]. now rewrite <- app_assoc, E2.
    + congruence.
    + congruence.
Qed.

(** A read that has room and data available delivers nothing only at the end. *)
Theorem read_progress i n k b i' : 0 < n -> 0 < k ->
  poll_read i n (AReady k) = (Got b, i') -> (b = [] <-> contents i = []).
Proof.
  intros Hn Hk. revert b i'; induction i as [s|p inner IH]; intros b i'; cbn [poll_read].
  - intros H; injection H as <- <-. cbn [contents]. split.
    + intros H. apply take_nil in H as [H|H]; [lia|easy].
    + intros ->. unfold take. now rewrite firstn_nil.
  - destruct (len p =? 0) eqn:E.
    + destruct (poll_read inner n (AReady k)) as [r0 i0] eqn:Ep. intros H; injection H as -> <-.
      specialize (IH _ _ eq_refl). assert (p = []) by (apply len_nil; lia). subst p. exact IH.
    + intros H; injection H as <- <-. cbn [contents]. split.
      * intros H. apply take_nil in H as [H|H]; [lia|]. subst p. discriminate.
      * intros H. apply app_eq_nil in H as [-> _]. discriminate.
Qed.

(** The prefix comes first, also when the socket is pending or failing. *)
Theorem prefix_first p inner n a r i' : p <> [] -> 0 < n ->
  poll_read (Prefixed p inner) n a = (r, i') ->
  exists b, r = Got b /\ b <> [] /\ exists rest, p = b ++ rest /\ i' = Prefixed rest inner.
Proof.
  intros Hp Hn. cbn [poll_read]. destruct (len p =? 0) eqn:E.
  - exfalso. apply Hp. apply len_nil. lia.
  - intros H; injection H as <- <-. eexists. split; [reflexivity|]. split.
    + intros H. apply take_nil in H as [H|H]; [lia|contradiction].
    + exists (if len p =? N.min n (len p) then [] else drop (N.min n (len p)) p). split; [|reflexivity].
      destruct (len p =? N.min n (len p)) eqn:El.
      * rewrite take_all by lia. now rewrite app_nil_r.
      * now rewrite take_drop.
Qed.

Theorem peek_same p inner n a : p <> [] -> fst (poll_read (Prefixed p inner) n a) = Got (peek p n) /\ len (peek p n) = N.min n (len p) /\ exists rest, p = peek p n ++ rest.
Proof.
  intros Hp. cbn [poll_read]. destruct (len p =? 0) eqn:E; [apply N.eqb_eq, len_nil in E; contradiction|]. cbn [fst]. unfold peek. rewrite (N.min_comm (len p) n). split; [reflexivity|].
  split; [rewrite len_take; lia|]. exists (drop (N.min n (len p)) p). symmetry. apply take_drop.
Qed.

Lemma read_buf_spec i nk b i' : read_buf i nk = (b, i') ->
  b ++ contents i' = contents i /\ (b = [] <-> contents i = []).
Proof.
  unfold read_buf. destruct (poll_read i _ _) as [r j] eqn:E.
  assert (Hr : exists x, r = Got x).
  { clear -E. revert r j E; induction i as [s|p inner IH]; intros r j; cbn [poll_read].
    - intros H; injection H as <- _; eauto.
    - destruct (len p =? 0); [|intros H; injection H as <- _; eauto].
      destruct (poll_read inner _ _) as [r0 i0]. intros H; injection H as <- _. eauto. }
  destruct Hr as [x ->]. intros H; injection H as <- <-.
  pose proof (poll_read_contents _ _ _ _ _ E) as [H1 _].
  split; [exact H1|]. eapply read_progress; [| |exact E]; lia.
Qed.
