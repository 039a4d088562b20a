(** Proofs of C111-C113 *)
From Coq Require Import List Arith NArith ZArith Bool Lia ZifyBool ZifyNat ZifyN.
From Verif Require Import Bytes BytesProofs AuthzModel AuthzSpec AuthzProofs FilterModel TraceModel MtlsModel MtlsSpec
  MtlsProofs AdminProofs TapModel TapSpec.
Import ListNotations.
Open Scope N_scope.

(** ** Matches *)

Fixpoint every (P : wire -> Prop) (l : list (option wire)) : Prop :=
  match l with [] => True | None :: l => every P l | Some w :: l => P w /\ every P l end.
Lemma every_in : forall P l, every P l -> forall w, In (Some w) l -> P w.
Proof.
  intros P. induction l as [|[x|] l IH]; cbn; intros H w I; [easy| |].
  - destruct I as [E|I]; [injection E as <-; tauto|]. apply IH; tauto.
  - destruct I as [E|I]; [discriminate|]. now apply IH.
Qed.
Fixpoint wire_ind' (P : wire -> Prop)
  (Hall : forall l, (forall w, In (Some w) l -> P w) -> P (W_all l))
  (Hany : forall l, (forall w, In (Some w) l -> P w) -> P (W_any l))
  (Hnone : P (W_not None))
  (Hnot : forall w, P w -> P (W_not (Some w)))
  (Hs : forall t, P (W_source t)) (Hd : forall t, P (W_destination t))
  (Hdl : forall k v, P (W_dst_label k v)) (Hrl : forall k v, P (W_route_label k v))
  (Hh : forall h, P (W_http h)) (w : wire) {struct w} : P w :=
  let IH := wire_ind' P Hall Hany Hnone Hnot Hs Hd Hdl Hrl Hh in
  let IHl := fun l => every_in P l ((fix rec (l : list (option wire)) : every P l :=
    match l with
    | [] => I
    | Some w' :: l => conj (IH w') (rec l)
    | None :: l => rec l
    end) l) in
  match w with
  | W_all l => Hall l (IHl l)
  | W_any l => Hany l (IHl l)
  | W_not None => Hnone
  | W_not (Some w) => Hnot w (IH w)
  | W_source t => Hs t | W_destination t => Hd t
  | W_dst_label k v => Hdl k v | W_route_label k v => Hrl k v
  | W_http h => Hh h
  end.

Lemma label_of_inl : forall k v p, label_of k v = inl p -> p = (k, v) /\ k <> [] /\ v <> [].
Proof.
  intros [|a k] [|b v] p; cbn; try discriminate. intros E. injection E as <-. split; [reflexivity|]. split; discriminate.
Qed.
Lemma label_of_valid : forall k v, (exists p, label_of k v = inl p) <-> k <> [] /\ v <> [].
Proof.
  intros k v. split.
  - intros (p & E). apply label_of_inl in E. tauto.
  - intros [A B]. destruct k; [easy|]. destruct v; [easy|]. eexists. reflexivity.
Qed.

Lemma label_get_iff : forall l k v, NoDup (map fst l) -> label_get l k = Some v <-> In (k, v) l.
Proof.
  unfold label_get. induction l as [|[a b] l IH]; cbn; intros k v N; [split; [discriminate|tauto]|].
  inversion N as [|? ? N1 N2]; subst. destruct (beq a k) eqn:E.
  - apply beq_eq in E. subst a. cbn. split.
    + intros H. injection H as <-. now left.
    + intros [H|H]; [now injection H as <-|]. elim N1. apply in_map_iff. exists (k, v). auto.
  - rewrite IH by exact N2. split; [tauto|]. intros [H|H]; [|exact H]. injection H as -> ->.
    rewrite beq_refl in E. discriminate.
Qed.
Lemma label_matches_iff : forall l k v, NoDup (map fst l) -> label_matches k v l = true <-> In (k, v) l.
Proof.
  intros l k v N. rewrite <- (label_get_iff l k v N). unfold label_matches.
  destruct (label_get l k); [|easy]. rewrite beq_eq. split; congruence.
Qed.

Lemma string_iff : forall m s, matches_string m s = true <-> means_string m s.
Proof. intros [e|p] s; cbn; [apply beq_eq|apply starts_iff]. Qed.

Lemma find_first : forall {A} (f : A -> bool) l x, find f l = Some x <->
  f x = true /\ exists a b, l = a ++ x :: b /\ forall y, In y a -> f y = false.
Proof.
  intros A f. induction l as [|y l IH]; cbn; intros x.
  - split; [discriminate|]. intros (_ & [|] & b & E & _); discriminate.
  - destruct (f y) eqn:F.
    + split.
      * intros E. injection E as <-. split; [exact F|]. exists [], l. split; [reflexivity|]. intros ? [].
      * intros (Fx & [|z a] & b & E & H); injection E as -> ->; [reflexivity|].
        rewrite (H z (or_introl eq_refl)) in F. discriminate.
    + rewrite IH. split.
      * intros (Fx & a & b & -> & H). split; [exact Fx|]. exists (y :: a), b. split; [reflexivity|].
        intros z [<-|I]; auto.
      * intros (Fx & [|z a] & b & E & H); injection E as -> ->; [congruence|].
        split; [exact Fx|]. exists a, b. split; [reflexivity|]. intros w I. apply H. now right.
Qed.

Lemma to_str_id : forall a b, to_str a = Some b -> b = a.
Proof. unfold to_str. intros a b. destruct (forallb _ a); [congruence|discriminate]. Qed.

Lemma authority_iff : forall v a, authority_of v = Some a <-> has_authority v a.
Proof.
  intros v a. unfold authority_of, has_authority, TraceModel.hm_get. destruct (v_uri_authority v) as [u|].
  - split; [tauto|]. intros [H|[H _]]; congruence.
  - split.
    + intros H. right. split; [reflexivity|]. destruct (find _ _) as [[n x]|] eqn:F; cbn in H; [|discriminate].
      pose proof (to_str_id _ _ H) as ->. apply find_first in F. destruct F as (F & b & c & E & N). cbn in F.
      apply beq_eq in F. subst n. split; [exact H|]. exists b, c. split; [exact E|].
      intros h I C. specialize (N h I). rewrite C, beq_refl in N. discriminate.
    + intros [H|(_ & T & b & c & E & N)]; [discriminate|].
      assert (F : find (fun h => beq (fst h) HOST) (v_headers v) = Some (HOST, a)).
      { apply find_first. split; [apply beq_refl|]. exists b, c. split; [exact E|].
        intros h I. specialize (N h I). destruct (beq (fst h) HOST) eqn:B; [|reflexivity]. now apply beq_eq in B. }
      rewrite F. exact T.
Qed.

Lemma scheme_eqb_iff : forall s t, scheme_eqb s t = true <->
  match s with Other o => exists o', t = Other o' /\ lowers o = lowers o' | _ => t = s end.
Proof.
  intros s t. destruct s as [| |o]; destruct t as [| |o']; cbn.
  9:{ unfold eq_ignore_case. rewrite beq_eq. split; [intros H; eauto|]. intros (? & E & H). now injection E as ->. }
  all: split; intros H; try reflexivity; try discriminate H; destruct H as (? & H & _); discriminate H.
Qed.

Lemma tcp_iff : forall t m a, tcp_of (Some t) = inl m -> tcp_wf (Some t) -> ip_wf (fst a) ->
  (tcp_matches m a = true <-> means_tcp t a).
Proof.
  intros [lo hi|i len] m a; cbn [tcp_of means_tcp tcp_wf].
  - intros E _ _. unfold within.
    destruct (lo =? 0) eqn:L, (hi =? 0) eqn:H;
      repeat match type of E with context [if ?b then _ else _] => destruct b eqn:? end; try discriminate E;
      injection E as <-; cbn [tcp_matches]; lia.
  - unfold net_of_mask. intros E Wt Wa.
    destruct (len =? 0) eqn:L0; [discriminate E|]. destruct (u8_max <? len); [discriminate E|].
    destruct i as [[n|n]|]; [| |discriminate E].
    + destruct (32 <? len) eqn:L; [discriminate E|]. injection E as <-. cbn [tcp_matches].
      apply net_contains_iff; [|exact Wa]. cbn. split; [exact Wt|]. lia.
    + destruct (128 <? len) eqn:L; [discriminate E|]. injection E as <-. cbn [tcp_matches].
      apply net_contains_iff; [|exact Wa]. cbn. split; [exact Wt|]. lia.
Qed.
Lemma tcp_valid : forall t, (exists m, tcp_of t = inl m) <-> exists t', t = Some t' /\ valid_tcp t'.
Proof.
  intros [t|].
  2:{ split; [intros (m & E); discriminate|intros (t & E & _); discriminate]. }
  transitivity (valid_tcp t).
  2:{ split; [intros H; exists t; auto|intros (t' & E & H); now injection E as ->]. }
  destruct t as [lo hi|i len]; cbn [tcp_of valid_tcp].
  - unfold u16_max. change (2 ^ 16) with 65536. destruct (lo =? 0) eqn:L, (hi =? 0) eqn:H;
      repeat match goal with |- context [if ?b then _ else _] => destruct b eqn:? end;
      (split; [intros (m & E); try discriminate E; lia|intros V; try (exfalso; lia); eexists; reflexivity]).
  - unfold net_of_mask, u8_max. split.
    + intros (m & E). destruct (len =? 0) eqn:L0; [discriminate E|].
      destruct (255 <? len); [discriminate E|]. split; [lia|]. destruct i as [[n|n]|]; [| |discriminate E].
      * destruct (32 <? len) eqn:L; [discriminate E|]. eexists. split; [reflexivity|]. cbn. lia.
      * destruct (128 <? len) eqn:L; [discriminate E|]. eexists. split; [reflexivity|]. cbn. lia.
    + intros (L1 & i' & -> & L2). assert (L0 : (len =? 0) = false) by lia. rewrite L0.
      destruct i' as [n|n].
      * assert (A : (255 <? len) = false) by lia. assert (B : (32 <? len) = false) by lia. rewrite A, B. eexists. reflexivity.
      * assert (A : (255 <? len) = false) by lia. assert (B : (128 <? len) = false) by lia. rewrite A, B. eexists. reflexivity.
Qed.

Section Library.
Variable scheme_ok : bytes -> bool.
Variable method_of : w_method -> option bytes.

Lemma http_iff : forall h m v, http_of scheme_ok method_of (Some h) = inl m ->
  (http_matches m v = true <-> means_http method_of h v).
Proof using.
  intros [[s|]|[w|]|[s|]|[s|]] m v E; cbn in E; try discriminate E.
  - destruct s as [n|s]; cbn [means_http means_scheme].
    + destruct (Z.eqb_spec n 0) as [N0|N0]; [|destruct (Z.eqb_spec n 1) as [N1|N1]; [|discriminate E]];
        injection E as <-; cbn [http_matches]; rewrite scheme_eqb_iff; fold (scheme_of v).
      * split; [intros H; left; auto|]. intros [[_ H]|[H _]]; [exact H|lia].
      * split; [intros H; right; auto|]. intros [[H _]|[_ H]]; [lia|exact H].
    + unfold scheme_from_str in E. destruct (beq s HTTP) eqn:B.
      * injection E as <-. cbn [http_matches]. rewrite scheme_eqb_iff. fold (scheme_of v). apply beq_eq in B.
        split; [intros H; left; auto|]. intros [[_ H]|[[H _]|(H & _)]]; [exact H| |contradiction].
        subst s. discriminate H.
      * assert (B' : s <> HTTP) by (intros ->; rewrite beq_refl in B; discriminate).
        destruct (beq s HTTPS) eqn:C.
        -- injection E as <-. cbn [http_matches]. rewrite scheme_eqb_iff. fold (scheme_of v). apply beq_eq in C.
           split; [intros H; right; left; auto|]. intros [[H _]|[[_ H]|(_ & H & _)]]; [contradiction|exact H|contradiction].
        -- assert (C' : s <> HTTPS) by (intros ->; rewrite beq_refl in C; discriminate).
           destruct (scheme_ok s); [|discriminate E]. injection E as <-. cbn [http_matches].
           rewrite scheme_eqb_iff. fold (scheme_of v). split.
           ++ intros H. right. right. split; [exact B'|]. split; [exact C'|exact H].
           ++ intros [[H _]|[[H _]|(_ & _ & H)]]; [contradiction|contradiction|exact H].
  - destruct (method_of w) as [x|] eqn:M; [|discriminate E]. injection E as <-. cbn [http_matches means_http].
    rewrite M, beq_eq. split; congruence.
  - injection E as <-. cbn [http_matches means_http]. split.
    + destruct (authority_of v) as [a|] eqn:A; [|discriminate]. intros H. exists a. split; [now apply authority_iff|].
      now apply string_iff.
    + intros (a & A & H). apply authority_iff in A. rewrite A. now apply string_iff.
  - injection E as <-. cbn [http_matches means_http]. apply string_iff.
Qed.
Lemma http_valid : forall h, (exists m, http_of scheme_ok method_of h = inl m) <->
  exists h', h = Some h' /\ valid_http scheme_ok method_of h'.
Proof using.
  intros [h|].
  2:{ split; [intros (m & E); discriminate|intros (t & E & _); discriminate]. }
  transitivity (valid_http scheme_ok method_of h).
  2:{ split; [intros H; exists h; auto|intros (t' & E & H); now injection E as ->]. }
  destruct h as [[s|]|[w|]|[s|]|[s|]]; cbn;
    try (split; [intros (m & E); discriminate|tauto]); try (split; [discriminate|eexists; reflexivity]).
  - destruct s as [n|s].
    + destruct (Z.eqb_spec n 0) as [N0|N0]; [split; [auto|eexists; reflexivity]|].
      destruct (Z.eqb_spec n 1) as [N1|N1]; [split; [auto|eexists; reflexivity]|].
      split; [intros (m & E); discriminate|lia].
    + unfold scheme_from_str. destruct (beq s HTTP) eqn:B.
      { apply beq_eq in B. split; [auto|eexists; reflexivity]. }
      destruct (beq s HTTPS) eqn:C.
      { apply beq_eq in C. split; [auto|eexists; reflexivity]. }
      destruct (scheme_ok s).
      { split; [auto|eexists; reflexivity]. }
      split; [intros (m & E); discriminate|]. intros [->|[->|H]]; [discriminate B|discriminate C|discriminate H].
  - destruct (method_of w) as [x|]; split.
    + intros _. discriminate.
    + intros _. eexists. reflexivity.
    + intros (m & E). discriminate E.
    + congruence.
Qed.

Lemma of_wire_iff : forall w, wire_wf w -> forall m v, view_wf v -> of_wire scheme_ok method_of w = inl m ->
  (matches m v = true <-> means method_of w v).
Proof using.
  induction w as [l IH|l IH| |w IH|t|t|k x|k x|h] using wire_ind'; intros W m v V E; cbn [of_wire] in E.
  - set (seq := (fix from_seq (l : list (option wire)) : list match_ + invalid := _)) in E.
    destruct (seq l) as [ms|] eqn:S; [|discriminate E]. injection E as <-. cbn [matches means wire_wf] in *.
    revert ms S. induction l as [|[w|] l IHl]; intros ms S; cbn in S.
    + injection S as <-. split; auto.
    + destruct (of_wire scheme_ok method_of w) as [m|] eqn:O; [|discriminate S].
      fold seq in S. destruct (seq l) as [ms'|] eqn:S'; [|discriminate S]. injection S as <-. cbn [forallb].
      rewrite andb_true_iff, (IHl (fun w' I => IH w' (or_intror I)) (proj2 W) ms' eq_refl).
      rewrite (IH w (or_introl eq_refl) (proj1 W) m v V O). reflexivity.
    + apply (IHl (fun w' I => IH w' (or_intror I)) W ms S).
  - set (seq := (fix from_seq (l : list (option wire)) : list match_ + invalid := _)) in E.
    destruct (seq l) as [ms|] eqn:S; [|discriminate E]. injection E as <-. cbn [matches means wire_wf] in *.
    revert ms S. induction l as [|[w|] l IHl]; intros ms S; cbn in S.
    + injection S as <-. split; [discriminate|intros []].
    + destruct (of_wire scheme_ok method_of w) as [m|] eqn:O; [|discriminate S].
      fold seq in S. destruct (seq l) as [ms'|] eqn:S'; [|discriminate S]. injection S as <-. cbn [existsb].
      rewrite orb_true_iff, (IHl (fun w' I => IH w' (or_intror I)) (proj2 W) ms' eq_refl).
      rewrite (IH w (or_introl eq_refl) (proj1 W) m v V O). reflexivity.
    + apply (IHl (fun w' I => IH w' (or_intror I)) W ms S).
  - discriminate E.
  - destruct (of_wire scheme_ok method_of w) as [m'|] eqn:O; [|discriminate E]. injection E as <-. cbn [matches means wire_wf] in *.
    rewrite negb_true_iff, <- not_true_iff_false, (IH W m' v V eq_refl). reflexivity.
  - destruct (tcp_of t) as [m'|] eqn:O; [|discriminate E]. injection E as <-. cbn [matches means].
    destruct t as [t|]; [|discriminate O]. split.
    + destruct (v_src v) as [a|] eqn:A; [|discriminate]. intros H. exists t, a. split; [reflexivity|]. split; [reflexivity|].
      apply (tcp_iff t m' a O W); [exact (proj1 V a A)|exact H].
    + intros (t' & a & Et & A & H). injection Et as <-. rewrite A.
      apply (tcp_iff t m' a O W); [exact (proj1 V a A)|exact H].
  - destruct (tcp_of t) as [m'|] eqn:O; [|discriminate E]. injection E as <-. cbn [matches means].
    destruct t as [t|]; [|discriminate O]. split.
    + destruct (v_dst v) as [a|] eqn:A; [|discriminate]. intros H. exists t, a. split; [reflexivity|]. split; [reflexivity|].
      apply (tcp_iff t m' a O W); [exact (proj1 (proj2 V) a A)|exact H].
    + intros (t' & a & Et & A & H). injection Et as <-. rewrite A.
      apply (tcp_iff t m' a O W); [exact (proj1 (proj2 V) a A)|exact H].
  - destruct (label_of k x) as [p|] eqn:O; [|discriminate E]. apply label_of_inl in O. destruct O as (-> & _).
    injection E as <-. cbn [matches means]. unfold labelled. destruct V as (_ & _ & V & _).
    destruct (v_dst_labels v) as [l|]; cbn in V.
    + rewrite (label_matches_iff l k x V). split; [intros I; exists l; auto|]. intros (l' & El & I). now injection El as ->.
    + split; [discriminate|]. intros (l' & El & I). discriminate.
  - destruct (label_of k x) as [p|] eqn:O; [|discriminate E]. apply label_of_inl in O. destruct O as (-> & _).
    injection E as <-. cbn [matches means]. unfold labelled. destruct V as (_ & _ & _ & V).
    destruct (v_route_labels v) as [l|]; cbn in V.
    + rewrite (label_matches_iff l k x V). split; [intros I; exists l; auto|]. intros (l' & El & I). now injection El as ->.
    + split; [discriminate|]. intros (l' & El & I). discriminate.
  - destruct (http_of scheme_ok method_of h) as [m'|] eqn:O; [|discriminate E]. injection E as <-. cbn [matches means].
    destruct h as [h|]; [|discriminate O]. rewrite (http_iff h m' v O). split; [intros H; exists h; auto|].
    intros (h' & Eh & H). now injection Eh as ->.
Qed.

Lemma of_wire_valid : forall w, (exists m, of_wire scheme_ok method_of w = inl m) <-> valid scheme_ok method_of w.
Proof using.
  induction w as [l IH|l IH| |w IH|t|t|k x|k x|h] using wire_ind'; cbn [of_wire valid].
  - set (seq := (fix from_seq (l : list (option wire)) : list match_ + invalid := _)).
    transitivity (exists ms, seq l = inl ms).
    { destruct (seq l); split; intros (? & E); try discriminate E; eexists; reflexivity. }
    induction l as [|[w|] l IHl]; cbn; fold seq.
    + split; [auto|eexists; reflexivity].
    + rewrite <- (IHl (fun w' I => IH w' (or_intror I))), <- (IH w (or_introl eq_refl)).
      destruct (of_wire scheme_ok method_of w) as [m|].
      * destruct (seq l) as [ms|]; split; try (intros (? & E); discriminate E); try (intros [_ (? & E)]; discriminate E).
        -- intros _. split; eexists; reflexivity.
        -- intros _. eexists. reflexivity.
      * split; [intros (? & E); discriminate E|intros [(? & E) _]; discriminate E].
    + apply IHl. intros w' I. apply IH. now right.
  - set (seq := (fix from_seq (l : list (option wire)) : list match_ + invalid := _)).
    transitivity (exists ms, seq l = inl ms).
    { destruct (seq l); split; intros (? & E); try discriminate E; eexists; reflexivity. }
    induction l as [|[w|] l IHl]; cbn; fold seq.
    + split; [auto|eexists; reflexivity].
    + rewrite <- (IHl (fun w' I => IH w' (or_intror I))), <- (IH w (or_introl eq_refl)).
      destruct (of_wire scheme_ok method_of w) as [m|].
      * destruct (seq l) as [ms|]; split; try (intros (? & E); discriminate E); try (intros [_ (? & E)]; discriminate E).
        -- intros _. split; eexists; reflexivity.
        -- intros _. eexists. reflexivity.
      * split; [intros (? & E); discriminate E|intros [(? & E) _]; discriminate E].
    + apply IHl. intros w' I. apply IH. now right.
  - split; [intros (? & E); discriminate E|intros []].
  - rewrite <- IH. destruct (of_wire scheme_ok method_of w); split; intros (? & E); try discriminate E; eexists; reflexivity.
  - rewrite <- tcp_valid. destruct (tcp_of t); split; intros (? & E); try discriminate E; eexists; reflexivity.
  - rewrite <- tcp_valid. destruct (tcp_of t); split; intros (? & E); try discriminate E; eexists; reflexivity.
  - rewrite <- label_of_valid. destruct (label_of k x) as [[? ?]|]; split; intros (? & E); try discriminate E; eexists; reflexivity.
  - rewrite <- label_of_valid. destruct (label_of k x) as [[? ?]|]; split; intros (? & E); try discriminate E; eexists; reflexivity.
  - rewrite <- http_valid. destruct (http_of scheme_ok method_of h); split; intros (? & E); try discriminate E; eexists; reflexivity.
Qed.

Lemma selects_iff : forall w m v, wire_wf w -> view_wf v -> try_new scheme_ok method_of (Some w) = inl m ->
  (matches m v = true <-> means method_of w v).
Proof using. intros w m v W V E. exact (of_wire_iff w W m v V E). Qed.
Lemma accepts_match : forall w, (exists m, try_new scheme_ok method_of w = inl m) <->
  exists w', w = Some w' /\ valid scheme_ok method_of w'.
Proof using.
  intros [w|]; cbn.
  - rewrite of_wire_valid. split; [intros H; exists w; auto|]. intros (w' & E & H). now injection E as ->.
  - split; [intros (? & E); discriminate E|intros (? & E & _); discriminate E].
Qed.
End Library.
