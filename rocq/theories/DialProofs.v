(** Proofs about connections to servers. *)
From Coq Require Import List NArith Bool Lia.
From Verif Require Import AuthzModel AcceptModel AcceptSpec AcceptProofs DialModel DialSpec.
Import ListNotations.
Open Scope N_scope.

Section Dial.
  Context {E : Type}.
  Lemma through_done (ss : list (stage E)) : forall t d r, through t ss = Some (d, r) <-> exists n, done ss n r /\ d = t + n.
  Proof.
    induction ss as [|[[x|] [e|]] ss IH]; intros t d r; cbn [through].
    - split; [intros H; injection H as <- <-; exists 0; split; [constructor|lia]|]. intros (n & H & ->). inversion H; subst. rewrite N.add_0_r. reflexivity.
    - split; [intros H; injection H as <- <-; exists x; split; [constructor|reflexivity]|]. intros (n & H & ->). inversion H; subst. reflexivity.
    - rewrite IH. split.
      + intros (n & H & ->). exists (x + n). split; [constructor; exact H|lia].
      + intros (n & H & ->). inversion H as [| |x' ss' n' r' H']; subst. exists n'. split; [exact H'|lia].
    - split; [discriminate|]. intros (n & H & _). inversion H.
    - split; [discriminate|]. intros (n & H & _). inversion H.
  Qed.
  Lemma timed limit t a (ss : list (stage E)) : exists d r,
    timeout limit t a (match through t ss with Some (d, e) => Some (d, option_map Because e) | None => None end) = Outcome (t + d) a r /\ within limit ss d r.
  Proof.
    unfold timeout. destruct (through t ss) as [[d e]|] eqn:Th.
    - assert (Th' := Th). apply through_done in Th' as (n & Hn & ->). destruct (t + n <=? t + limit) eqn:L.
      + apply N.leb_le in L. exists n, (option_map Because e). split; [reflexivity|]. destruct e; cbn [option_map]; [apply Wi_fails|apply Wi_done]; try assumption; lia.
      + apply N.leb_gt in L. exists limit, (Some (Connect_timeout limit)). split; [reflexivity|]. apply Wi_late. intros d' r' Hd.
        assert (E1 : through t ss = Some (t + d', r')) by (apply through_done; eauto). rewrite Th in E1. injection E1 as E1 _. lia.
    - exists limit, (Some (Connect_timeout limit)). split; [reflexivity|]. apply Wi_late. intros d' r' Hd.
      assert (E1 : through t ss = Some (t + d', r')) by (apply through_done; eauto). congruence.
  Qed.
  Lemma loopback_inv i : loopback i -> match i with V4 a => exists x, x < 2 ^ 24 /\ a = 127 * 2 ^ 24 + x | V6 a => a = 1 end.
  Proof. intros H. destruct H as [x L|]; [exists x; split; [exact L|reflexivity]|reflexivity]. Qed.
  Lemma loopback_iff i : is_loopback i = true <-> loopback i.
  Proof.
    destruct i as [a|a]; cbn [is_loopback]; rewrite N.eqb_eq; split.
    - rewrite N.shiftr_div_pow2. intros H. pose proof (N.div_mod a (2 ^ 24)) as D. rewrite H, (N.mul_comm (2 ^ 24) 127) in D. rewrite D by discriminate. constructor. apply N.mod_lt. discriminate.
    - intros H. apply loopback_inv in H as (x & L & ->). rewrite N.shiftr_div_pow2. symmetry. apply (N.div_unique _ _ _ x); [exact L|]. rewrite N.mul_comm. reflexivity.
    - intros ->. constructor.
    - intros H. apply loopback_inv in H. exact H.
  Qed.
  Theorem outbound limit net tls header a t : exists d r,
    ((loopback (fst a) /\ d = 0 /\ r = Some Connection_refused /\ @connect_outbound E limit net tls header a t = Outcome (t + d) None r) \/
     (~ loopback (fst a) /\ within limit [net a; tls; header] d r /\ connect_outbound limit net tls header a t = Outcome (t + d) (Some a) r)).
  Proof.
    unfold connect_outbound, prevent_loopback. destruct (is_loopback (fst a)) eqn:L.
    - exists 0, (Some Connection_refused). left. split; [apply loopback_iff; exact L|]. split; [reflexivity|]. split; [reflexivity|]. unfold timeout.
      assert (G : (t <=? t + limit) = true) by (apply N.leb_le; lia). rewrite G, N.add_0_r. reflexivity.
    - destruct (timed limit t (Some a) [net a; tls; header]) as (d & r & Eq & W). exists d, r. right. split; [rewrite <- loopback_iff; congruence|]. split; [exact W|exact Eq].
  Qed.
  Theorem inbound limit port net a t : exists d r,
    ((snd a = port /\ d = 0 /\ r = Some (Loop port) /\ @connect_inbound E limit port net a t = Outcome (t + d) None r) \/
     (snd a <> port /\ within limit [net a] d r /\ connect_inbound limit port net a t = Outcome (t + d) (Some a) r)).
  Proof.
    unfold connect_inbound. destruct (snd a =? port) eqn:P.
    - apply N.eqb_eq in P. exists 0, (Some (Loop port)). left. rewrite N.add_0_r. auto.
    - apply N.eqb_neq in P. destruct (timed limit t (Some a) [net a]) as (d & r & Eq & W). exists d, r. right. auto.
  Qed.
  Theorem ends_by limit net tls header a t : t <= o_at (@connect_outbound E limit net tls header a t) <= t + limit.
  Proof.
    destruct (outbound limit net tls header a t) as (d & r & [(_ & -> & _ & ->)|(_ & W & ->)]); cbn [o_at]; [lia|]. destruct W; lia.
  Qed.
  Theorem ends_by_in limit port net a t : t <= o_at (@connect_inbound E limit port net a t) <= t + limit.
  Proof.
    destruct (inbound limit port net a t) as (d & r & [(_ & -> & _ & ->)|(_ & W & ->)]); cbn [o_at]; [lia|]. destruct W; lia.
  Qed.
  Theorem never_loopback limit net tls header a t b : o_dialed (@connect_outbound E limit net tls header a t) = Some b -> b = a /\ ~ loopback (fst b).
  Proof.
    destruct (outbound limit net tls header a t) as (d & r & [(_ & _ & _ & ->)|(N & _ & ->)]); cbn [o_dialed]; intros H; [discriminate|]. injection H as <-. auto.
  Qed.
  Theorem never_loops limit port net a t b : o_dialed (@connect_inbound E limit port net a t) = Some b -> b = a /\ snd b <> port.
  Proof.
    destruct (inbound limit port net a t) as (d & r & [(_ & _ & _ & ->)|(N & _ & ->)]); cbn [o_dialed]; intros H; [discriminate|]. injection H as <-. auto.
  Qed.
End Dial.
