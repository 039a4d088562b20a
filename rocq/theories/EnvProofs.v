(** Proofs of C84 to C89 *)
From Coq Require Import String List NArith ZArith QArith Bool Lia ZifyBool ZifyN.
From Verif Require Import Bytes BytesProofs NameModel NameSpec NameProofs EndpointModel DnsModel DnsSpec DnsProofs EnvModel EnvSpec.
From Verif Require AuthzModel PolicyStoreModel PolicyStoreSpec PolicyStoreProofs WatchModel RetrySpec RetryParseProofs ProfileModel ProfileSpec ProfileProofs ReqMetricsProofs.
Import ListNotations.
Open Scope N_scope.

(** ** Texts *)

Lemma space_iff c : ProfileModel.is_space c = true <-> blank c.
Proof. unfold ProfileModel.is_space, blank. lia. Qed.
Lemma space_false c : ProfileModel.is_space c = false <-> ~ blank c.
Proof. rewrite <- space_iff. destruct (ProfileModel.is_space c); intuition congruence. Qed.
Lemma blanks_in w : blanks w <-> forall c, In c w -> ProfileModel.is_space c = true.
Proof. unfold blanks. rewrite Forall_forall. split; intros H c I; apply space_iff, H, I. Qed.
Lemma bare_trim r t : bare r t <-> t = ProfileModel.trim r.
Proof.
  rewrite <- ProfileProofs.stripped_trim. unfold bare, ProfileSpec.stripped. split; intros (a & b & E & A & B & F & L); exists a, b.
  - rewrite blanks_in in A, B. repeat split; trivial; intros c x Q; apply space_false; [exact (F c x Q)|exact (L c x Q)].
  - rewrite !blanks_in. repeat split; trivial; intros c x Q; apply space_false; [exact (F c x Q)|exact (L c x Q)].
Qed.

Lemma bool_iff s b : parse_bool s = Some b <-> truth s b.
Proof.
  unfold parse_bool, truth. destruct (beq s (bs "true")) eqn:T.
  - apply beq_eq in T as ->. split; [intros H; injection H as <-; auto|]. intros [[_ ->]|[H _]]; [reflexivity|discriminate].
  - apply beq_neq in T. destruct (beq s (bs "false")) eqn:F.
    + apply beq_eq in F as ->. split; [intros H; injection H as <-; auto|]. intros [[H _]|[_ ->]]; [discriminate|reflexivity].
    + apply beq_neq in F. split; [discriminate|]. intros [[H _]|[H _]]; contradiction.
Qed.
Lemma counts_iff max s n : parse_uint max s = Some n <-> counts max s n.
Proof.
  unfold counts. split.
  - intros H. assert (n <= max) as L by (apply parse_uint_some in H as (d & _ & _ & _ & _ & L); exact L).
    split; [apply (RetryParseProofs.number_iff max s n L); exact H|exact L].
  - intros [H L]. apply (RetryParseProofs.number_iff max s n L). exact H.
Qed.

(** *** Durations *)
Lemma span_digits_spec s : forall d t, span_digits s = (d, t) <->
  s = d ++ t /\ forallb is_digit d = true /\ (forall c r, t = c :: r -> is_digit c = false).
Proof.
  induction s as [|c s IH]; intros d t; cbn [span_digits].
  - split.
    + intros H; injection H as <- <-. repeat split. discriminate.
    + intros (E & _ & _). symmetry in E. apply app_eq_nil in E as [-> ->]. reflexivity.
  - destruct (is_digit c) eqn:D.
    + destruct (span_digits s) as [d' t'] eqn:Sp. destruct (proj1 (IH d' t') eq_refl) as (E & F & G). split.
      * intros H; injection H as <- <-. cbn [app forallb]. rewrite D, F, E. auto.
      * intros (E' & F' & G'). destruct d as [|x d]; cbn [app] in E'.
        -- subst t. rewrite (G' c s eq_refl) in D. discriminate.
        -- injection E' as <- E'. cbn [forallb] in F'. apply andb_true_iff in F' as [_ F'].
           assert ((d', t') = (d, t)) as Q by (apply (IH d t); auto). injection Q as -> ->. reflexivity.
    + split.
      * intros H; injection H as <- <-. repeat split. intros x r Q. injection Q as <- _. exact D.
      * intros (E & F & _). destruct d as [|x d]; cbn [app] in E.
        -- subst t. reflexivity.
        -- injection E as <- _. cbn [forallb] in F. rewrite D in F. discriminate.
Qed.
Lemma trim_end_iff s t : trim_blanks_end s = t <->
  (exists w, s = t ++ w /\ blanks w) /\ (forall c r, t = r ++ [c] -> ~ blank c).
Proof.
  unfold trim_blanks_end. split.
  - intros <-. destruct (ProfileProofs.drop_spaces_spec (rev s)) as (a & E & A & B). split.
    + exists (rev a). split.
      * rewrite <- rev_app_distr, <- E, rev_involutive. reflexivity.
      * apply blanks_in. intros c I. apply A, in_rev, I.
    + intros c r Q. apply space_false, (B c (rev r)). rewrite <- (rev_involutive (ProfileModel.drop_spaces (rev s))), Q, rev_app_distr. reflexivity.
  - intros [(w & -> & W) L]. rewrite rev_app_distr, ProfileProofs.drop_spaces_app; [apply rev_involutive| |].
    + intros c I. apply blanks_in with (w := w); [exact W|]. apply in_rev. exact I.
    + intros c r Q. apply space_false, (L c (rev r)). rewrite <- (rev_involutive t), Q. reflexivity.
Qed.
Lemma digit_not_blank c : is_digit c = true -> ~ blank c.
Proof. unfold is_digit, blank. lia. Qed.
Lemma unit_cases u k : unit_of u k -> (forall c r, u = c :: r -> is_digit c = false) /\ (forall c r, u = r ++ [c] -> ~ blank c) /\ u <> [].
Proof.
  assert (L : forall (x : N) (l : bytes) c r, x :: l = r ++ [c] -> c = last (x :: l) 0) by (intros x l c r ->; rewrite last_last; reflexivity).
  intros [| | | |]; (repeat split; [intros c r E; injection E as <- _; reflexivity|intros c r E; apply L in E; subst c; cbv [blank last]; cbn; lia|discriminate]).
Qed.
Lemma blank_not_digit c : blank c -> is_digit c = false.
Proof. unfold is_digit, blank. lia. Qed.

(** A text, as the function takes it apart *)
Definition parts (s d u : bytes) : Prop :=
  span_digits (ProfileModel.drop_spaces s) = (d, snd (span_digits (ProfileModel.drop_spaces s))) /\
  trim_blanks_end (snd (span_digits (ProfileModel.drop_spaces s))) = u.
Lemma parts_of w1 d u w2 : blanks w1 -> blanks w2 -> d <> [] -> forallb is_digit d = true ->
  (forall c r, u = c :: r -> is_digit c = false) -> (forall c r, u = r ++ [c] -> ~ blank c) -> parts (w1 ++ d ++ u ++ w2) d u.
Proof.
  intros W1 W2 NE D U1 U2. unfold parts. rewrite ProfileProofs.drop_spaces_app.
  - assert (span_digits (d ++ u ++ w2) = (d, u ++ w2)) as ->.
    { apply span_digits_spec. split; [reflexivity|]. split; [exact D|]. intros c r E.
      destruct u as [|x u]; cbn [app] in E; [|injection E as <- _; apply (U1 x u eq_refl)].
      subst w2. inversion W2; subst. apply blank_not_digit. assumption. }
    cbn [snd]. split; [reflexivity|]. apply trim_end_iff. split; [exists w2; auto|exact U2].
  - apply blanks_in, W1.
  - intros c r E. destruct d as [|x d]; [contradiction|]. injection E as <- _. cbn [forallb] in D. apply andb_true_iff in D as [D _].
    apply space_false, digit_not_blank, D.
Qed.
Lemma parts_back s d u : parts s d u -> exists w1 w2, s = w1 ++ d ++ u ++ w2 /\ blanks w1 /\ blanks w2 /\ forallb is_digit d = true.
Proof.
  unfold parts. destruct (span_digits (ProfileModel.drop_spaces s)) as [d' t] eqn:Sp. cbn [snd]. intros [E T]. injection E as ->.
  apply span_digits_spec in Sp as (E & D & _). apply trim_end_iff in T as [(w2 & -> & W2) _].
  destruct (ProfileProofs.drop_spaces_spec s) as (w1 & E1 & W1 & _). exists w1, w2. rewrite <- E. repeat split; trivial. apply blanks_in, W1.
Qed.
Lemma parts_fun s : exists d u, parts s d u.
Proof. unfold parts. destruct (span_digits (ProfileModel.drop_spaces s)) as [d t]. cbn [snd]. eauto. Qed.

Lemma wrap_wrap n a b : wrapping_mul (wrapping_mul n a) b = wrapping_mul n (a * b).
Proof. unfold wrapping_mul. rewrite N.mul_mod_idemp_l by discriminate. f_equal. lia. Qed.
Lemma wrap_secs n a : wrapping_mul n a * 1000000000 = (n * (a * 1000000000)) mod all_seconds.
Proof.
  unfold wrapping_mul, all_seconds. change (u64_max + 1) with 18446744073709551616. rewrite N.mul_assoc.
  rewrite N.mul_mod_distr_r by discriminate. reflexivity.
Qed.

Lemma written_parts s n k : written s n k -> exists d u, parts s d u /\ d <> [] /\ forallb is_digit d = true /\ n = dec_value 0 d /\ (unit_of u k \/ (u = [] /\ n = 0 /\ k = 0)).
Proof.
  intros (w1 & d & u & w2 & -> & W1 & W2 & D & -> & U). apply RetryParseProofs.digits_iff in D as [NE D]. rewrite RetryParseProofs.decimal_dec in *.
  exists d, u. split; [|auto]. apply parts_of; trivial.
  - destruct U as [U|(-> & _)]; [apply (unit_cases u k U)|discriminate].
  - destruct U as [U|(-> & _)]; [apply (unit_cases u k U)|intros c r E; destruct r; discriminate].
Qed.
Lemma parts_written s d u n k : parts s d u -> d <> [] -> n = dec_value 0 d -> (unit_of u k \/ (u = [] /\ n = 0 /\ k = 0)) -> written s n k.
Proof.
  intros P NE -> U. destruct (parts_back s d u P) as (w1 & w2 & E & W1 & W2 & D).
  exists w1, d, u, w2. rewrite RetryParseProofs.digits_iff, RetryParseProofs.decimal_dec. auto 9.
Qed.
Lemma written_unique s n k n' k' : written s n k -> written s n' k' -> n = n' /\ k = k'.
Proof.
  intros W W'. apply written_parts in W as (d & u & (P1 & P2) & _ & _ & -> & U), W' as (d' & u' & (P1' & P2') & _ & _ & -> & U').
  rewrite P1 in P1'. injection P1' as ->. rewrite P2 in P2'. subst u'. split; [reflexivity|].
  destruct U as [U|(-> & _ & ->)].
  - destruct U' as [U'|(-> & _)]; [|apply unit_cases in U as (_ & _ & U); contradiction].
    destruct U; inversion U'; reflexivity.
  - destruct U' as [U'|(_ & _ & ->)]; [apply unit_cases in U' as (_ & _ & U'); contradiction|reflexivity].
Qed.
Lemma digits_uint max d : d <> [] -> forallb is_digit d = true -> parse_uint max d = (if dec_value 0 d <=? max then Some (dec_value 0 d) else None).
Proof.
  intros NE D. destruct (dec_value 0 d <=? max) eqn:L.
  - apply N.leb_le in L. apply parse_uint_some. exists d. auto.
  - apply N.leb_gt in L. destruct (parse_uint max d) as [n|] eqn:E; [|reflexivity]. exfalso.
    apply parse_uint_some in E as (d' & [->|E] & _ & _ & -> & L'); [lia|]. subst d. cbn [forallb] in D. discriminate.
Qed.

Lemma parse_duration_parts s d u : parts s d u -> parse_duration s =
  match d with
  | [] => None
  | _ =>
      match parse_uint u64_max d with
      | None => None
      | Some magnitude =>
          if beq u [] then if magnitude =? 0 then Some 0 else None
          else if beq u (bs "ms"%string) then Some (magnitude * 1000000)
          else if beq u (bs "s"%string) then Some (magnitude * 1000000000)
          else if beq u (bs "m"%string) then Some (wrapping_mul magnitude 60 * 1000000000)
          else if beq u (bs "h"%string) then Some (wrapping_mul (wrapping_mul magnitude 60) 60 * 1000000000)
          else if beq u (bs "d"%string) then
            Some (wrapping_mul (wrapping_mul (wrapping_mul magnitude 60) 60) 24 * 1000000000)
          else None
      end
  end.
Proof.
  unfold parts, parse_duration. destruct (span_digits (ProfileModel.drop_spaces s)) as [d' t]. cbn [snd]. intros [E <-].
  injection E as ->. reflexivity.
Qed.
Lemma duration_iff s v : parse_duration s = Some v <-> lasts s v.
Proof.
  destruct (parts_fun s) as (d & u & P). rewrite (parse_duration_parts s d u P). unfold lasts.
  destruct d as [|c d'].
  { split; [discriminate|]. intros (n & k & W & _). apply written_parts in W as (d & u' & (P1 & _) & NE & _). destruct P as [P _]. rewrite P in P1. congruence. }
  remember (c :: d') as d eqn:Ed. assert (d <> []) as NE by (subst; discriminate). clear Ed.
  destruct (parts_back s d u P) as (_ & _ & _ & _ & _ & D). rewrite (digits_uint u64_max d NE D).
  pose proof (fun k => parts_written s d u (dec_value 0 d) k P NE eq_refl) as W.
  assert (WN : forall n k, written s n k -> n = dec_value 0 d /\ (unit_of u k \/ u = [] /\ n = 0 /\ k = 0)).
  { intros n k Q. apply written_parts in Q as (d1 & u1 & (P1 & P2) & _ & _ & E & U). destruct P as [Q1 Q2].
    rewrite Q1 in P1. injection P1 as <-. rewrite Q2 in P2. subst u1. auto. }
  remember (dec_value 0 d) as n eqn:En. clear En.
  destruct (n <=? u64_max) eqn:L.
  2:{ split; [discriminate|]. intros (n' & k & Q & L' & _). apply WN in Q as [-> _]. apply N.leb_gt in L. lia. }
  apply N.leb_le in L.
  assert (Z : forall k v', unit_of u k -> v' = (n * k) mod all_seconds ->
    (Some v' = Some v <-> exists n0 k0, written s n0 k0 /\ n0 <= u64_max /\ v = (n0 * k0) mod all_seconds)).
  { intros k v' U ->. split.
    - intros H; injection H as <-. exists n, k. auto.
    - intros (n0 & k0 & Q & _ & ->). destruct (written_unique s n k n0 k0 (W k (or_introl U)) Q) as [<- <-]. reflexivity. }
  assert (Z0 : (forall k, ~ unit_of u k) -> u <> [] -> (None = Some v <-> exists n0 k0, written s n0 k0 /\ n0 <= u64_max /\ v = (n0 * k0) mod all_seconds)).
  { intros NU NE'. split; [discriminate|]. intros (n0 & k0 & Q & _). apply WN in Q as [_ [U|[U _]]]; [exfalso; exact (NU k0 U)|contradiction]. }
  destruct (beq u []) eqn:B0.
  { apply beq_eq in B0. destruct (n =? 0) eqn:En.
    - apply N.eqb_eq in En. split.
      + intros H; injection H as <-. exists n, 0. split; [apply W; auto|]. split; [exact L|rewrite N.mul_0_r; reflexivity].
      + intros (n0 & k0 & Q & _ & ->). apply WN in Q as [-> _]. rewrite En. reflexivity.
    - apply N.eqb_neq in En. split; [discriminate|]. intros (n0 & k0 & Q & _). apply WN in Q as [-> [U|(_ & U & _)]]; [|contradiction].
      apply unit_cases in U as (_ & _ & U). contradiction. }
  apply beq_neq in B0.
  destruct (beq u (bs "ms")) eqn:B1.
  { apply beq_eq in B1. apply (Z 1000000); [subst u; constructor|]. symmetry. apply N.mod_small. unfold all_seconds, u64_max in *. lia. }
  destruct (beq u (bs "s")) eqn:B2.
  { apply beq_eq in B2. apply (Z 1000000000); [subst u; constructor|]. symmetry. apply N.mod_small. unfold all_seconds, u64_max in *. lia. }
  destruct (beq u (bs "m")) eqn:B3.
  { apply beq_eq in B3. apply (Z (60 * 1000000000)); [subst u; constructor|]. apply wrap_secs. }
  destruct (beq u (bs "h")) eqn:B4.
  { apply beq_eq in B4. apply (Z (60 * 60 * 1000000000)); [subst u; constructor|]. rewrite wrap_wrap. apply wrap_secs. }
  destruct (beq u (bs "d")) eqn:B5.
  { apply beq_eq in B5. apply (Z (24 * 60 * 60 * 1000000000)); [subst u; constructor|]. rewrite !wrap_wrap. apply (wrap_secs n 86400). }
  apply beq_neq in B1, B2, B3, B4, B5. apply Z0; [|exact B0]. intros k U. destruct U; congruence.
Qed.
Lemma duration_exact s n k : written s n k -> n <= u64_max -> n * k < all_seconds -> parse_duration s = Some (n * k).
Proof. intros W L R. apply duration_iff. exists n, k. rewrite N.mod_small by exact R. auto. Qed.
Lemma duration_some s : (exists v, parse_duration s = Some v) <-> exists n k, written s n k /\ n <= u64_max.
Proof.
  split.
  - intros (v & H). apply duration_iff in H as (n & k & W & L & _). eauto.
  - intros (n & k & W & L). exists ((n * k) mod all_seconds). apply duration_iff. exists n, k. auto.
Qed.
Lemma duration_opt_iff s o : parse_duration_opt s = Some o <-> lasts_opt s o.
Proof.
  unfold parse_duration_opt, lasts_opt. destruct s as [|c s].
  - split; [intros H; injection H as <-; auto|]. intros [[_ ->]|[H _]]; [reflexivity|contradiction].
  - split.
    + destruct (parse_duration (c :: s)) as [v|] eqn:E; [|discriminate]. intros H; injection H as <-. right. split; [discriminate|].
      exists v. split; [reflexivity|]. apply duration_iff. exact E.
    + intros [[H _]|(_ & t & -> & H)]; [discriminate|]. apply duration_iff in H. rewrite H. reflexivity.
Qed.

(** *** Lists *)
Lemma kept_trim raw l : ProfileSpec.kept (fun r t => bare r t /\ t <> []) raw l <-> l = filter (fun i => negb (beq i [])) (map ProfileModel.trim raw).
Proof.
  split.
  - induction 1 as [|r t raw l [B NE] Q IH|r raw l N0 Q IH]; [reflexivity| |]; cbn [map filter].
    + apply bare_trim in B. subst t. destruct (beq (ProfileModel.trim r) []) eqn:E; [apply beq_eq in E; contradiction|]. cbn [negb]. f_equal. exact IH.
    + destruct (beq (ProfileModel.trim r) []) eqn:E; [exact IH|]. exfalso. apply beq_neq in E.
      apply (N0 (ProfileModel.trim r)). split; [apply bare_trim; reflexivity|exact E].
  - intros ->. induction raw as [|r raw IH]; cbn [map filter]; [constructor|]. destruct (beq (ProfileModel.trim r) []) eqn:E; cbn [negb].
    + apply beq_eq in E. apply ProfileSpec.Kept_skip; [|exact IH]. intros t [B NE]. apply bare_trim in B. congruence.
    + apply beq_neq in E. apply ProfileSpec.Kept_one; [|exact IH]. split; [apply bare_trim; reflexivity|exact E].
Qed.
Lemma items_elements s l : elements s l <-> l = items s.
Proof.
  unfold elements, items. split.
  - intros (raw & R & Q). rewrite (RetryParseProofs.split_items s raw R). apply kept_trim. exact Q.
  - intros ->. exists (split 44 s). split; [apply RetryParseProofs.items_split|]. apply kept_trim. reflexivity.
Qed.
Lemma all_of_iff {A B} (p : A -> option B) (M : A -> B -> Prop) : (forall t a, p t = Some a <-> M t a) ->
  forall ts l, all_of p ts = Some l <-> Forall2 M ts l.
Proof.
  intros H. induction ts as [|t ts IH]; intros l; cbn [all_of].
  - split; [intros E; injection E as <-; constructor|]. intros F. inversion F. reflexivity.
  - split.
    + destruct (p t) as [y|] eqn:E; [|discriminate]. destruct (all_of p ts) as [ys|] eqn:Es; [|discriminate].
      intros Q; injection Q as <-. constructor; [apply H, E|apply IH; reflexivity].
    + intros F. inversion F as [|x y ts' l' Q R]; subst. apply H in Q. rewrite Q. apply IH in R. rewrite R. reflexivity.
Qed.
Lemma list_iff {A} (p : bytes -> option A) (M : bytes -> A -> Prop) : (forall t a, p t = Some a <-> M t a) ->
  forall s l, all_of p (items s) = Some l <-> list_of M s l.
Proof.
  intros H s l. rewrite (all_of_iff p M H). unfold list_of. split.
  - intros F. exists (items s). split; [apply items_elements; reflexivity|exact F].
  - intros (ts & E & F). apply items_elements in E. subst ts. exact F.
Qed.
Lemma raw_iff {A} (p : bytes -> option A) (M : bytes -> A -> Prop) : (forall t a, p t = Some a <-> M t a) ->
  forall s l, all_of p (split 44 s) = Some l <-> exists ts, RetrySpec.items s ts /\ Forall2 M ts l.
Proof.
  intros H s l. rewrite (all_of_iff p M H). split.
  - intros F. exists (split 44 s). split; [apply RetryParseProofs.items_split|exact F].
  - intros (ts & E & F). rewrite (RetryParseProofs.split_items s ts E). exact F.
Qed.
Lemma port_range_iff t r : parse_port_range t = Some r <-> port_range t r.
Proof.
  unfold parse_port_range, port_range. destruct r as [lo hi]. cbn [fst snd]. change 65535 with u16_max.
  destruct (split_once 45 t) as [[a b]|] eqn:Sp.
  - apply split_once_some in Sp as [-> NA]. split.
    + destruct (parse_uint u16_max (ProfileModel.trim a)) as [x|] eqn:Ea; [|discriminate].
      destruct (parse_uint u16_max (ProfileModel.trim b)) as [y|] eqn:Eb; [|discriminate].
      destruct (y <? x) eqn:Lt; [discriminate|]. intros H; injection H as <- <-. right. apply N.ltb_ge in Lt.
      exists a, b, (ProfileModel.trim a), (ProfileModel.trim b). rewrite !bare_trim, <- !counts_iff. auto 9.
    + intros [(t' & N0 & _)|(a' & b' & ta & tb & E & NA' & Ba & Bb & Ca & Cb & Le)].
      * exfalso. apply N0. apply in_or_app. right. left. reflexivity.
      * cbn [app] in E. assert (split_once 45 (a ++ 45 :: b) = Some (a', b')) as Q by (apply split_once_some; auto).
        rewrite (proj2 (split_once_some 45 (a ++ 45 :: b) a b) (conj eq_refl NA)) in Q. injection Q as <- <-.
        apply bare_trim in Ba, Bb. subst ta tb. apply counts_iff in Ca, Cb. rewrite Ca, Cb. apply N.ltb_ge in Le. rewrite Le. reflexivity.
  - apply split_once_none in Sp. split.
    + destruct (parse_uint u16_max (ProfileModel.trim t)) as [x|] eqn:E; [|discriminate]. intros H; injection H as <- <-. left.
      exists (ProfileModel.trim t). rewrite bare_trim, <- counts_iff. auto.
    + intros [(t' & _ & B & C & ->)|(a & b & _ & _ & -> & _)].
      * apply bare_trim in B. subst t'. apply counts_iff in C. rewrite C. reflexivity.
      * exfalso. apply Sp. apply in_or_app. right. left. reflexivity.
Qed.
Lemma ports_iff s l : parse_port_range_set s = Some l <-> list_of port_range s l.
Proof. apply list_iff, port_range_iff. Qed.
Lemma suffix_iff t x : suffix_from_str t = Some x <-> suffix_text t x.
Proof.
  unfold suffix_from_str, suffix_text, dot. destruct (beq t [46]) eqn:E.
  - apply beq_eq in E. subst t. split; [intros H; injection H as <-; auto|]. intros [[_ ->]|[H _]]; [reflexivity|contradiction].
  - apply beq_neq in E. destruct (name_from_str t) as [n|] eqn:Nm.
    + apply name_from_str_spec in Nm as [D ->]. split; [intros H; injection H as <-; auto|]. intros [[H _]|(_ & _ & ->)]; [contradiction|reflexivity].
    + split; [discriminate|]. intros [[H _]|(_ & D & ->)]; [contradiction|]. exfalso.
      assert (name_from_str t = Some (lowers t)) as Q by (apply name_from_str_spec; auto). congruence.
Qed.
Lemma suffixes_iff s l : parse_dns_suffixes s = Some l <-> list_of suffix_text s l.
Proof. apply list_iff, suffix_iff. Qed.
Lemma labels_iff s b : parse_authority_labels s = Some b <-> labels_text s b.
Proof.
  unfold parse_authority_labels, labels_text. destruct (beq s []) eqn:E.
  - apply beq_eq in E. subst s. split; [intros H; injection H as <-; auto|]. intros [[_ ->]|[H _]]; [reflexivity|discriminate].
  - apply beq_neq in E. destruct (eq_ignore_case s (bs "unsafe")) eqn:U.
    + apply eq_ignore_case_iff in U. change (lowers (bs "unsafe")) with (bs "unsafe") in U. split; [intros H; injection H as <-; auto|].
      intros [[H _]|[_ ->]]; [contradiction|reflexivity].
    + split; [discriminate|]. intros [[H _]|[H _]]; [contradiction|]. exfalso. change (bs "unsafe") with (lowers (bs "unsafe")) in H.
      apply eq_ignore_case_iff in H. congruence.
Qed.

Lemma ends_dot s : ends_with [46] (lowers s) = true <-> exists r, s = r ++ [dot].
Proof.
  rewrite ends_with_iff. unfold dot, lowers. split.
  - intros (r & E). apply map_eq_app in E as (a & b & -> & _ & E). exists a. destruct b as [|x [|y b]]; try discriminate.
    cbn [map] in E. injection E as E. f_equal. f_equal. unfold lower in E. destruct ((65 <=? x) && (x <=? 90)) eqn:C; lia.
  - intros (r & ->). exists (map lower r). rewrite map_app. reflexivity.
Qed.
Section Texts.
Variable parse_v6 : bytes -> option (list N).
Variable parse_sock6 : bytes -> option sock.
Variable parse_net : bytes -> option AuthzModel.ipnet.
Variable url_parse : bytes -> option bytes.
Variable parse_f64 : bytes -> option f64.
Variable read_to_string : bytes -> option bytes.
Variable token_ok : bytes -> bool.
Variable documents_ok : bytes -> bool.

Lemma networks_iff s l : parse_networks parse_net s = Some l <-> list_of (net_text parse_net) s l.
Proof. apply list_iff. intros t a. reflexivity. Qed.
Lemma ip_iff t ip : parse_ip parse_v6 t = Some ip <-> ip_text parse_v6 t ip.
Proof.
  unfold parse_ip, ip_text. destruct (parse_v4 t) as [ip'|] eqn:E.
  - apply parse_v4_iff in E. split; [intros H; injection H as <-; auto|]. intros [H|[H _]]; [|exfalso; exact (H ip' E)].
    apply parse_v4_iff in E, H. congruence.
  - split.
    + intros H. right. split; [|exact H]. intros ip' H'. apply parse_v4_iff in H'. congruence.
    + intros [H|[_ H]]; [apply parse_v4_iff in H; congruence|exact H].
Qed.
Lemma ips_iff s l : parse_ip_set parse_v6 s = Some l <-> ips_text parse_v6 s l.
Proof. apply raw_iff, ip_iff. Qed.
Lemma v4_no_colon t ip : v4_text t ip -> ~ In 58 t.
Proof.
  intros (a & b & c & d & _ & _ & _ & _ & _ & ->). change (bs ".") with [46]. assert (forall n, ~ In 58 (to_dec n)) as N0 by (intros; apply dec_no; reflexivity).
  rewrite !in_app_iff. cbn [In]. intros [H|[[H|[]]|[H|[[H|[]]|[H|[[H|[]]|H]]]]]]; try discriminate; exact (N0 _ H).
Qed.
Lemma sock_iff s a : parse_sock parse_sock6 s = Some a <-> sock_text parse_sock6 s a.
Proof.
  assert (K4 : forall a, sock4_text s a <-> exists ip port, split_once 58 s = Some (ip, port) /\ parse_v4 ip = Some (s_ip a) /\ port <> [] /\ parse_digits u16_max 0 port = Some (s_port a)).
  { intros [ip p]. cbn [s_ip s_port]. unfold sock4_text. cbn [s_ip s_port]. change (bs ":") with [58]. split.
    - intros (t & d & V & D & -> & E & L). exists t, d. split; [apply split_once_some; split; [reflexivity|exact (v4_no_colon t ip V)]|].
      split; [apply parse_v4_iff, V|]. apply RetryParseProofs.digits_iff in D as [NE D]. split; [exact NE|].
      apply parse_digits_some; [discriminate|]. rewrite <- RetryParseProofs.decimal_dec. auto.
    - intros (t & d & Sp & V & NE & D). apply split_once_some in Sp as [-> _]. apply parse_v4_iff in V. exists t, d.
      apply parse_digits_some in D as (D & E & L); [|discriminate]. rewrite RetryParseProofs.digits_iff, RetryParseProofs.decimal_dec. auto 9. }
  unfold parse_sock, sock_text. destruct (split_once 58 s) as [[ip port]|] eqn:Sp.
  - destruct (parse_v4 ip) as [v|] eqn:V.
    + destruct port as [|x port].
      * assert (forall a', ~ sock4_text s a') as N0 by (intros a' Q; apply K4 in Q as (i & p & E & _ & NE & _); congruence).
        split; [auto|]. intros [H|[_ H]]; [exfalso; exact (N0 _ H)|exact H].
      * destruct (parse_digits u16_max 0 (x :: port)) as [n|] eqn:D.
        -- assert (sock4_text s (Sock v n)) as Q by (apply K4; exists ip, (x :: port); repeat split; trivial; discriminate).
           split; [intros H; injection H as <-; auto|]. intros [H|[H _]]; [|exfalso; exact (H _ Q)].
           apply K4 in H as (i & p & E & V' & _ & D'). injection E as <- <-. destruct a as [x1 x2]. cbn [s_ip s_port] in *. congruence.
        -- assert (forall a', ~ sock4_text s a') as N0 by (intros a' Q; apply K4 in Q as (i & p & E & _ & _ & D'); congruence).
           split; [auto|]. intros [H|[_ H]]; [exfalso; exact (N0 _ H)|exact H].
    + assert (forall a', ~ sock4_text s a') as N0 by (intros a' Q; apply K4 in Q as (i & p & E & V' & _); congruence).
      split; [auto|]. intros [H|[_ H]]; [exfalso; exact (N0 _ H)|exact H].
  - assert (forall a', ~ sock4_text s a') as N0 by (intros a' Q; apply K4 in Q as (i & p & E & _); discriminate).
    split; [auto|]. intros [H|[_ H]]; [exfalso; exact (N0 _ H)|exact H].
Qed.
Lemma name_iff s n : name_addr_from_str s = inl n <-> name_text s n.
Proof.
  rewrite name_addr_from_str_iff. unfold name_text. change (bs ":") with [58]. change 65535 with u16_max.
  split; intros (h & p & E & N0 & C & R); exists h, p; apply counts_iff in C; auto.
Qed.
Lemma addr_iff s a : parse_addr parse_sock6 s = Some a <-> addr_text parse_sock6 s a.
Proof.
  unfold parse_addr, addr_text. destruct (parse_sock parse_sock6 s) as [k|] eqn:E.
  - apply sock_iff in E. split; [intros H; injection H as <-; exact E|]. destruct a as [n|k'].
    + intros [N0 _]. exfalso. exact (N0 _ E).
    + intros H. apply sock_iff in E, H. congruence.
  - assert (forall k, ~ sock_text parse_sock6 s k) as N0 by (intros k H; apply sock_iff in H; congruence).
    split.
    + destruct (name_addr_from_str s) as [n|] eqn:Nm; [|discriminate]. intros H; injection H as <-. split; [exact N0|apply name_iff, Nm].
    + destruct a as [n|k]; [|intros H; exfalso; exact (N0 _ H)]. intros [_ H]. apply name_iff in H. rewrite H. reflexivity.
Qed.
Lemma socket_iff s a : parse_socket_addr parse_sock6 s = Some a <-> sock_text parse_sock6 s a.
Proof.
  unfold parse_socket_addr. split.
  - destruct (parse_addr parse_sock6 s) as [[n|k]|] eqn:E; try discriminate. intros H; injection H as <-. apply addr_iff in E. exact E.
  - intros H. assert (parse_addr parse_sock6 s = Some (Socket a)) as -> by (apply addr_iff; exact H). reflexivity.
Qed.
Lemma sockets_iff s l : parse_socket_addrs parse_sock6 s = Some l <-> socks_text parse_sock6 s l.
Proof.
  unfold parse_socket_addrs, socks_text. split.
  - destruct (2 <? List.length (split 44 s))%nat eqn:L; [discriminate|]. apply Nat.ltb_ge in L. intros H.
    apply (all_of_iff _ _ socket_iff) in H. exists (split 44 s). split; [apply RetryParseProofs.items_split|]. auto.
  - intros (ts & R & L & F). rewrite (RetryParseProofs.split_items s ts R). apply Nat.ltb_ge in L. rewrite L. apply (all_of_iff _ _ socket_iff), F.
Qed.
Lemma host_iff s n : parse_dns_name s = Some n <-> host_text s n.
Proof. apply name_from_str_spec. Qed.
Lemma identity_iff s i : parse_identity url_parse s = Some i <-> id_text url_parse s i.
Proof using url_parse. clear parse_v6 parse_sock6 parse_net parse_f64 read_to_string token_ok documents_ok.
  unfold parse_identity, AuthzModel.id_from_str, id_text.
  assert (U : option_map AuthzModel.Uri (url_parse s) = Some i <-> exists u, url_parse s = Some u /\ i = AuthzModel.Uri u).
  { destruct (url_parse s) as [u|]; cbn [option_map]; split.
    - intros H; injection H as <-. eauto.
    - intros (u' & E & ->). congruence.
    - discriminate.
    - intros (u & E & _). discriminate. }
  destruct (name_from_str s) as [n|] eqn:E.
  - apply name_from_str_spec in E as [D ->]. destruct (ends_with [46] (lowers s)) eqn:Dot.
    + apply ends_dot in Dot as (r & Dot). rewrite U. split.
      * intros H. right. split; [|exact H]. intros [_ N0]. exact (N0 r Dot).
      * intros [[[_ N0] _]|[_ H]]; [exfalso; exact (N0 r Dot)|exact H].
    + assert (forall r, s <> r ++ [dot]) as N0 by (intros r Q; assert (ends_with [46] (lowers s) = true) by (apply ends_dot; eauto); congruence).
      split; [intros H; injection H as <-; auto|]. intros [[_ ->]|[H _]]; [reflexivity|exfalso; apply H; auto].
  - assert (~ dns_name s) as N0 by (intros D; assert (name_from_str s = Some (lowers s)) by (apply name_from_str_spec; auto); congruence).
    rewrite U. split; [intros H; right; split; [tauto|exact H]|]. intros [[[H _] _]|[_ H]]; [contradiction|exact H].
Qed.
Lemma loopback_iff a : is_loopback a = true <-> loopback a.
Proof.
  destruct a as [n|[ip p]]; unfold is_loopback, loopback; cbn [s_ip].
  - unfold is_localhost. change LOCALHOST_DOT with (bs "localhost."). rewrite eq_ignore_case_iff. reflexivity.
  - change (repeat 0 15 ++ [1]) with [0; 0; 0; 0; 0; 0; 0; 0; 0; 0; 0; 0; 0; 0; 0; 1].
    destruct ip as [|a [|b [|c [|d [|x ip]]]]]; try (rewrite beq_eq; split; [intros H; right; exact H|intros [(x1 & y1 & z1 & H)|H]; [discriminate|exact H]]).
    rewrite N.eqb_eq. split; [intros ->; left; eauto|]. intros [(x & y & z & H)|H]; [congruence|discriminate].
Qed.
Lemma loopback_false a : is_loopback a = false <-> ~ loopback a.
Proof. rewrite <- loopback_iff. destruct (is_loopback a); intuition congruence. Qed.

(** ** Settings *)

Lemma bind_inl {A B} (r : result A) (k : A -> result B) c : bind r k = inl c <-> exists a, r = inl a /\ k a = inl c.
Proof.
  destruct r as [a|x]; cbn [bind]; split.
  - intros H. exists a. auto.
  - intros (a' & E & H). injection E as <-. exact H.
  - discriminate.
  - intros (a & E & _). discriminate.
Qed.
Lemma get_inl e name o : get e name = inl o <-> e name = Some o.
Proof. unfold get. destruct (e name); split; congruence. Qed.

Section Read.
Context {A : Type} (e : strings) (p : bytes -> option A) (M : bytes -> A -> Prop) (H : forall s a, p s = Some a <-> M s a).
Lemma opt_iff name o : parse e name p = inl o <-> optional e M name o.
Proof.
  unfold parse, optional, get. split.
  - destruct (e name) as [[s|]|] eqn:E; cbn [bind]; [| |discriminate].
    + destruct (p s) as [a|] eqn:P; [|discriminate]. intros Q; injection Q as <-. apply (Set_to e _ name None s (Some a)); [exact E|]. exists a. split; [reflexivity|apply H, P].
    + intros Q; injection Q as <-. apply Not_set. exact E.
  - intros [s o' E (a & -> & Q)|E]; rewrite E; cbn [bind]; [|reflexivity]. apply H in Q. rewrite Q. reflexivity.
Qed.
Lemma set_iff name d a : (exists o, parse e name p = inl o /\ a = or_default o d) <-> configured e M name d a.
Proof.
  split.
  - intros (o & E & ->). apply opt_iff in E. destruct E as [s o E (x & -> & Q)|E]; cbn [or_default]; [exact (Set_to e _ name d s x E Q)|exact (Not_set e _ name d E)].
  - intros [s a' E Q|E].
    + exists (Some a'). split; [|reflexivity]. apply opt_iff. apply (Set_to e _ name None s (Some a') E). eauto.
    + exists None. split; [|reflexivity]. apply opt_iff. apply Not_set, E.
Qed.
Lemma parse_set name d o : parse e name p = inl o -> configured e M name d (or_default o d).
Proof. intros E. apply set_iff. eauto. Qed.
Lemma ok_iff name : ok e M name <-> exists o, parse e name p = inl o.
Proof. unfold ok. split; intros (o & Q); exists o; apply opt_iff, Q. Qed.
End Read.

Lemma lasts_fun s a b : lasts s a -> lasts s b -> a = b.
Proof. intros X Y. apply duration_iff in X, Y. congruence. Qed.

Lemma flow_iff e base f : parse_flow_control e base = inl f <-> flow_control_of e base f.
Proof.
  unfold parse_flow_control, flow_control_of. rewrite bind_inl. split.
  - intros (o & E & K). apply (parse_set e _ _ bool_iff _ false) in E. destruct o as [[|]|]; cbn [or_default] in E.
    + injection K as <-. exists true, None, None. auto.
    + apply bind_inl in K as (st & Es & K). apply bind_inl in K as (co & Ec & K).
      apply (opt_iff e _ _ (counts_iff u32_max)) in Es, Ec. exists false, st, co. split; [exact E|]. right. repeat split; trivial.
      destruct st, co; injection K as <-; reflexivity.
    + apply bind_inl in K as (st & Es & K). apply bind_inl in K as (co & Ec & K).
      apply (opt_iff e _ _ (counts_iff u32_max)) in Es, Ec. exists false, st, co. split; [exact E|]. right. repeat split; trivial.
      destruct st, co; injection K as <-; reflexivity.
  - intros (ad & st & co & E & K). apply (set_iff e _ _ bool_iff) in E as (o & E & ->). exists o. split; [exact E|].
    destruct K as [[K ->]|(K & Es & Ec & F)].
    + destruct o as [[|]|]; [reflexivity|discriminate|discriminate].
    + apply (opt_iff e _ _ (counts_iff u32_max)) in Es, Ec.
      assert (bind (parse e (base ++ bs "_INITIAL_STREAM_WINDOW_SIZE"%string) (parse_number u32_max)) (fun s =>
              bind (parse e (base ++ bs "_INITIAL_CONNECTION_WINDOW_SIZE"%string) (parse_number u32_max)) (fun c =>
              match s, c with
              | Some s, Some c => inl (Fixed_windows s c)
              | _, _ => inl (Fixed_windows DEFAULT_STREAM_WINDOW DEFAULT_CONNECTION_WINDOW)
              end)) = inl f) as Q.
      { apply bind_inl. exists st. split; [exact Es|]. apply bind_inl. exists co. split; [exact Ec|]. destruct st, co; rewrite F; reflexivity. }
      destruct o as [[|]|]; [discriminate|exact Q|exact Q].
Qed.
Lemma keep_alive_iff e base k : parse_keep_alive e (base ++ bs "_KEEP_ALIVE"%string) = inl k <-> keep_alive_of e base k.
Proof.
  unfold parse_keep_alive, keep_alive_of. rewrite <- !app_assoc, bind_inl. split.
  - intros (t & Et & K). apply bind_inl in K as (i & Ei & K). apply (opt_iff e _ _ duration_iff) in Et, Ei. exists t, i. repeat split; trivial.
    destruct t, i; injection K as <-; reflexivity.
  - intros (t & i & Et & Ei & K). apply (opt_iff e _ _ duration_iff) in Et, Ei. exists t. split; [exact Et|]. rewrite Ei. cbn [bind].
    destruct t, i; rewrite K; reflexivity.
Qed.
Lemma try_new_iff min max j b : try_new min max j = Some b <-> b = Backoff min max j /\ sane b.
Proof.
  unfold try_new, sane. destruct (max <? min) eqn:A.
  { apply N.ltb_lt in A. split; [discriminate|]. intros [-> [L _]]. cbn in L. lia. }
  apply N.ltb_ge in A. destruct (max =? 0) eqn:B.
  { apply N.eqb_eq in B. split; [discriminate|]. intros [-> (_ & L & _)]. cbn in L. lia. }
  apply N.eqb_neq in B. destruct j as [|s|q].
  1,2: split; [discriminate|]; intros [-> (_ & _ & q & E & _)]; discriminate.
  destruct (Qle_bool 0 q) eqn:C; cbn [negb].
  2:{ split; [discriminate|]. intros [-> (_ & _ & q' & E & L & _)]. injection E as <-. apply Qle_bool_iff in L. congruence. }
  destruct (Qle_bool q 100) eqn:D; cbn [negb].
  2:{ split; [discriminate|]. intros [-> (_ & _ & q' & E & _ & L)]. injection E as <-. apply Qle_bool_iff in L. congruence. }
  apply Qle_bool_iff in C, D. split; [|intros [-> _]; reflexivity]. intros H; injection H as <-. cbn [bo_min bo_max bo_jitter].
  repeat split; [exact A|lia|]. exists q. auto.
Qed.
Lemma backoff_iff e base d b : parse_backoff parse_f64 e base d = inl b <-> backoff_of parse_f64 e (bs "LINKERD2_PROXY_"%string ++ base) d b.
Proof.
  unfold parse_backoff, backoff_of. cbv zeta. rewrite <- !app_assoc.
  assert (F64 : forall s a, parse_f64 s = Some a <-> number_text parse_f64 s a) by (intros; reflexivity). rewrite bind_inl. split.
  - intros (mn & E1 & K). apply bind_inl in K as (mx & E2 & K). apply bind_inl in K as (j & E3 & K).
    apply (opt_iff e _ _ duration_iff) in E1, E2. apply (opt_iff e _ _ F64) in E3. exists mn, mx, j. repeat (split; [assumption|]).
    destruct mn as [mn|], mx as [mx|]; try discriminate.
    + destruct (try_new mn mx (or_default j (Fin 0))) as [b'|] eqn:T; [|discriminate]. injection K as <-. apply try_new_iff in T as [-> Sn].
      right. destruct j; auto.
    + destruct j; [discriminate|]. injection K as <-. auto.
  - intros (mn & mx & j & E1 & E2 & E3 & K). apply (opt_iff e _ _ duration_iff) in E1, E2. apply (opt_iff e _ _ F64) in E3.
    exists mn. split; [exact E1|]. rewrite E2. cbn [bind]. rewrite E3. cbn [bind].
    destruct K as [(-> & -> & -> & ->)|(-> & -> & Sn & J)]; [reflexivity|].
    assert (try_new (bo_min b) (bo_max b) (or_default j (Fin 0)) = Some b) as ->; [|reflexivity].
    apply try_new_iff. split; [|exact Sn]. destruct b as [x y z]. cbn [bo_min bo_max bo_jitter] in *. rewrite J. destruct j; reflexivity.
Qed.
Lemma exceeds_iff (a b : option N) : match b with Some b => b <? or_default a 0 | None => false end = false <-> below a b.
Proof.
  unfold below. destruct b as [b|]; [|split; [discriminate|reflexivity]]. rewrite N.ltb_ge. destruct a as [a|]; cbn [or_default]; split.
  - intros L x y X Y. congruence.
  - intros Q. apply Q; reflexivity.
  - discriminate.
  - lia.
Qed.
Lemma limits_iff e l : mk_receive_limits e = inl l <-> limits_of e l /\ ordered l.
Proof.
  unfold mk_receive_limits, limits_of, ordered. split.
  - intros K. apply bind_inl in K as (a & Ea & K). apply bind_inl in K as (b & Eb & K). apply bind_inl in K as (c & Ec & K). cbv zeta in K.
    apply (parse_set e _ _ duration_opt_iff _ None) in Ea, Eb, Ec.
    remember (or_default a None) as a'. remember (or_default b None) as b'. remember (or_default c None) as c'.
    pose proof (exceeds_iff a' b') as X1. pose proof (exceeds_iff a' c') as X2. pose proof (exceeds_iff b' c') as X3.
    destruct (match b' with Some b => b <? or_default a' 0 | None => false end); [discriminate|].
    destruct (match c' with Some b => b <? or_default a' 0 | None => false end); [discriminate|].
    destruct (match c' with Some b => b <? or_default b' 0 | None => false end); [discriminate|].
    injection K as <-. cbn [WatchModel.initial WatchModel.idle WatchModel.lifetime]. tauto.
  - intros [(Ea & Eb & Ec) (X1 & X2 & X3)]. apply (set_iff e _ _ duration_opt_iff) in Ea as (a & Ea & A), Eb as (b & Eb & B), Ec as (c & Ec & C).
    rewrite Ea. cbn [bind]. rewrite Eb. cbn [bind]. rewrite Ec. cbn [bind]. rewrite <- A, <- B, <- C.
    apply exceeds_iff in X1, X2, X3. rewrite X1, X2, X3. destruct l; reflexivity.
Qed.
Lemma reached_iff e base a : parse_control_addr parse_sock6 e base = inl (Some a) <-> reached parse_sock6 e base a.
Proof.
  unfold parse_control_addr, reached. rewrite bind_inl. split.
  - intros (o & Eo & K). apply bind_inl in K as (n & En & K). apply (opt_iff e _ _ addr_iff) in Eo. apply (opt_iff e _ _ host_iff) in En.
    destruct Eo as [s o Es (ad & -> & T)|Eu]; [|destruct n; discriminate]. exists s, n. split; [exact Es|].
    destruct (is_loopback ad) eqn:L.
    + injection K as <-. cbn [ca_addr ca_identity]. apply loopback_iff in L. auto.
    + destruct n as [n|]; [|discriminate]. injection K as <-. cbn [ca_addr ca_identity]. apply loopback_false in L.
      split; [exact T|]. split; [exact En|]. right. repeat split; [exact L|discriminate].
  - intros (s & n & Es & T & En & K). exists (Some (ca_addr a)). split.
    + apply (opt_iff e _ _ addr_iff). apply (Set_to e _ _ None s); [exact Es|]. eauto.
    + apply (opt_iff e _ _ host_iff) in En. rewrite En. cbn [bind]. destruct a as [ad i]. cbn [ca_addr ca_identity] in *.
      destruct K as [[L ->]|(L & NE & ->)].
      * apply loopback_iff in L. rewrite L. reflexivity.
      * apply loopback_false in L. rewrite L. destruct n; [reflexivity|contradiction].
Qed.
Lemma unreached_iff e base : parse_control_addr parse_sock6 e base = inl None <-> e (base ++ bs "_ADDR"%string) = Some None /\ e (base ++ bs "_NAME"%string) = Some None.
Proof.
  unfold parse_control_addr. rewrite bind_inl. split.
  - intros (o & Eo & K). apply bind_inl in K as (n & En & K). apply (opt_iff e _ _ addr_iff) in Eo. apply (opt_iff e _ _ host_iff) in En.
    destruct Eo as [s o Es (ad & -> & T)|Eu]; [destruct (is_loopback ad); [discriminate|destruct n; discriminate]|].
    destruct En as [s n Es (x & -> & T)|En]; [discriminate|auto].
  - intros [Ea En]. exists None. unfold parse, get. rewrite Ea, En. auto.
Qed.

(** ** Identity *)
Lemma scheme_iff u : eq_ignore_case (scheme u) (bs "spiffe"%string) = true <-> spiffe u.
Proof.
  rewrite eq_ignore_case_iff. change (lowers (bs "spiffe")) with (bs "spiffe"). unfold scheme, spiffe. change (bs ":") with [58]. split.
  - destruct (split_once 58 u) as [[a b]|] eqn:E; [|discriminate]. apply split_once_some in E as [-> _]. intros H. exists a, b. auto.
  - intros (a & b & -> & H). assert (~ In 58 a) as N0.
    { intros I0. apply (in_map lower) in I0. change (map lower a) with (lowers a) in I0. rewrite H in I0. cbn in I0. repeat destruct I0 as [I0|I0]; try discriminate; contradiction. }
    rewrite (proj2 (split_once_some 58 (a ++ [58] ++ b) a b)); [exact H|]. auto.
Qed.
Lemma some_eq (s a : bytes) : Some s = Some a <-> s = a.
Proof. split; congruence. Qed.
Lemma spire_iff e o : parse_deprecated e (bs "LINKERD2_PROXY_IDENTITY_SPIRE_WORKLOAD_API_ADDRESS"%string)
    (bs "LINKERD2_PROXY_IDENTITY_SPIRE_SOCKET"%string) Some = inl o <-> spire_at e o.
Proof.
  unfold parse_deprecated, spire_at, parse, get. rewrite bind_inl.
  destruct (e (bs "LINKERD2_PROXY_IDENTITY_SPIRE_WORKLOAD_API_ADDRESS"%string)) as [[a|]|]; cbn [bind].
  - split.
    + intros (x & E & K). injection E as <-. injection K as <-. auto.
    + destruct o as [o|]; [|intros [? _]; discriminate]. intros [H|[H _]]; [|discriminate]. injection H as ->. exists (Some o). auto.
  - destruct (e (bs "LINKERD2_PROXY_IDENTITY_SPIRE_SOCKET"%string)) as [[b|]|]; cbn [bind].
    + split.
      * intros (x & E & K). injection E as <-. injection K as <-. auto.
      * destruct o as [o|]; [|intros [_ ?]; discriminate]. intros [H|[_ H]]; [discriminate|]. injection H as ->. exists None. auto.
    + split.
      * intros (x & E & K). injection E as <-. injection K as <-. auto.
      * destruct o as [o|]; [intros [H|[_ H]]; discriminate|]. intros _. exists None. auto.
    + split.
      * intros (x & E & K). injection E as <-. discriminate.
      * destruct o as [o|]; [intros [H|[_ H]]; discriminate|intros [_ H]; discriminate].
  - split; [intros (x & E & _); discriminate|]. destruct o as [o|]; [intros [H|[H _]]; discriminate|intros [H _]; discriminate].
Qed.
Lemma anchors_iff (s a : bytes) : match s with [] => None | _ => Some s end = Some a <-> a = s /\ s <> [].
Proof. destruct s; split; [discriminate|intros [_ H]; contradiction|intros H; injection H as <-; split; [reflexivity|discriminate]|intros [-> _]; reflexivity]. Qed.
Lemma opt_some {A} e (M : bytes -> A -> Prop) name a : optional e M name (Some a) <-> exists s, e name = Some (Some s) /\ M s a.
Proof.
  split.
  - intros Q. inversion Q as [s o E (x & X & R) Ho|]; subst. injection X as <-. eauto.
  - intros (s & E & R). apply (Set_to e _ name None s); [exact E|]. eauto.
Qed.
Lemma tls_iff e i n ta : parse_tls_params url_parse e = inl (i, n, ta) <-> identified url_parse e i n ta.
Proof.
  unfold parse_tls_params. split.
  - intros K. apply bind_inl in K as (local & El & K). cbv zeta in K. apply bind_inl in K as (dis & Ed & K). apply get_inl in El, Ed.
    destruct (match dis with Some (_ :: _) => true | _ => false end) eqn:Dis; [discriminate|].
    apply bind_inl in K as (t & Et & K). apply bind_inl in K as (x & Ex & K). apply bind_inl in K as (y & Ey & K).
    destruct t as [t|]; [|discriminate]. destruct x as [x|]; [|discriminate]. destruct y as [y|]; [|discriminate]. injection K as -> -> ->.
    apply (opt_iff e _ _ anchors_iff), opt_some in Et as (s0 & Et & -> & NE). apply (opt_iff e _ _ identity_iff), opt_some in Ex as (s1 & Ex & T1).
    apply (opt_iff e _ _ host_iff), opt_some in Ey as (s2 & Ey & T2). constructor.
    + exists s1, s2. split; [exact T1|]. split; [exact T2|]. destruct local as [l|]; cbn [fst snd] in Ex, Ey.
      * left. split; [exact Ex|]. congruence.
      * right. auto.
    + auto.
    + destruct dis as [[|c l]|]; [right; exact Ed|discriminate|left; exact Ed].
  - intros [(s & s' & T1 & T2 & Nm) [Et NE] Dis]. apply bind_inl.
    assert (X : forall n1 n2, e n1 = Some (Some s) -> e n2 = Some (Some s') ->
      (ta <- parse e (bs "LINKERD2_PROXY_IDENTITY_TRUST_ANCHORS"%string) (fun s => match s with [] => None | _ => Some s end) ;;
       id <- parse e n1 (parse_identity url_parse) ;; name <- parse e n2 parse_dns_name ;;
       match ta, id, name with Some ta, Some id, Some name => inl (id, name, ta) | _, _, _ => inr Invalid_env_var end) = inl (i, n, ta)).
    { intros n1 n2 E1 E2. apply bind_inl. exists (Some ta). split; [apply (opt_iff e _ _ anchors_iff), opt_some; eauto|].
      apply bind_inl. exists (Some i). split; [apply (opt_iff e _ _ identity_iff), opt_some; eauto|].
      apply bind_inl. exists (Some n). split; [apply (opt_iff e _ _ host_iff), opt_some; eauto|]. reflexivity. }
    destruct Nm as [[En ->]|(El & E1 & E2)].
    + exists (Some s). split; [apply get_inl, En|]. cbv zeta. cbn [fst snd].
      destruct Dis as [Dis|Dis]; (apply bind_inl; eexists; split; [apply get_inl, Dis|]; apply X; assumption).
    + exists None. split; [apply get_inl, El|]. cbv zeta. cbn [fst snd].
      destruct Dis as [Dis|Dis]; (apply bind_inl; eexists; split; [apply get_inl, Dis|]; apply X; assumption).
Qed.
Lemma token_iff (s a : bytes) : (if token_ok s then Some s else None) = Some a <-> a = s /\ token_ok s = true.
Proof. destruct (token_ok s); split; [intros H; injection H as <-; auto|intros [-> _]; reflexivity|discriminate|intros [_ H]; discriminate]. Qed.
Lemma linkerd_iff e a tok dir minr maxr :
  parse_linkerd_identity parse_sock6 token_ok documents_ok e = inl (a, tok, dir, minr, maxr) <->
  reached parse_sock6 e (bs "LINKERD2_PROXY_IDENTITY_SVC"%string) a /\
  e (bs "LINKERD2_PROXY_IDENTITY_DIR"%string) = Some (Some dir) /\ documents_ok dir = true /\
  e (bs "LINKERD2_PROXY_IDENTITY_TOKEN_FILE"%string) = Some (Some tok) /\ token_ok tok = true /\
  configured e lasts (bs "LINKERD2_PROXY_IDENTITY_MIN_REFRESH"%string) (10 * secs) minr /\
  configured e lasts (bs "LINKERD2_PROXY_IDENTITY_MAX_REFRESH"%string) (86400 * secs) maxr.
Proof.
  unfold parse_linkerd_identity. change (60 * 60 * 24 * secs) with (86400 * secs). split.
  - intros K. apply bind_inl in K as (c & Ec & K). apply bind_inl in K as (d & Ed & K). apply bind_inl in K as (t & Et & K).
    apply bind_inl in K as (m1 & E1 & K). apply bind_inl in K as (m2 & E2 & K).
    destruct c as [c|]; [|discriminate]. destruct d as [d|]; [|discriminate]. destruct t as [t|]; [|discriminate].
    destruct (documents_ok d) eqn:Doc; [|discriminate]. injection K as -> -> -> <- <-.
    apply reached_iff in Ec. apply (opt_iff e _ _ some_eq), opt_some in Ed as (s & Ed & ->). apply (opt_iff e _ _ token_iff), opt_some in Et as (s' & Et & -> & T).
    apply (parse_set e _ _ duration_iff _ (10 * secs)) in E1. apply (parse_set e _ _ duration_iff _ (86400 * secs)) in E2. auto 9.
  - intros (R & Ed & Doc & Et & T & E1 & E2). apply reached_iff in R. apply (set_iff e _ _ duration_iff) in E1 as (m1 & E1 & ->), E2 as (m2 & E2 & ->).
    rewrite R. cbn [bind]. apply bind_inl. exists (Some dir). split; [apply (opt_iff e _ _ some_eq), opt_some; eauto|].
    apply bind_inl. exists (Some tok). split; [apply (opt_iff e _ _ token_iff), opt_some; eauto|].
    rewrite E1. cbn [bind]. rewrite E2. cbn [bind]. rewrite Doc. reflexivity.
Qed.
Lemma spire_base : bs "LINKERD2_PROXY_LINKERD2_PROXY_IDENTITY_SPIRE"%string = bs "LINKERD2_PROXY_"%string ++ bs "LINKERD2_PROXY_IDENTITY_SPIRE"%string.
Proof. reflexivity. Qed.
Definition its_control (x : identity_config) (e : strings) (i : inbound_config) (o : outbound_config) : Prop :=
  match x with
  | Linkerd control _ _ _ _ _ _ _ => reached parse_sock6 e (bs "LINKERD2_PROXY_IDENTITY_SVC"%string) (ct_addr control) /\ control = control_for (ct_addr control) i o
  | Spire _ _ _ _ _ => True
  end.
Lemma mk_identity_iff e i o x : mk_identity parse_sock6 url_parse parse_f64 token_ok documents_ok e i o = inl x <->
  identity_of url_parse parse_f64 token_ok documents_ok e x /\ its_control x e i o.
Proof.
  unfold mk_identity. split.
  - intros K. apply bind_inl in K as ([[id n] ta] & Ep & K). apply tls_iff in Ep. apply bind_inl in K as (sp & Es & K). apply spire_iff in Es.
    destruct sp as [api|].
    + destruct id as [d|u]; [discriminate|]. destruct (eq_ignore_case (scheme u) (bs "spiffe"%string)) eqn:Sc; [|discriminate]. apply scheme_iff in Sc.
      apply bind_inl in K as (b & Eb & K). injection K as <-. apply backoff_iff in Eb. rewrite <- spire_base in Eb. split; [|exact I].
      apply From_spire; assumption.
    + destruct id as [d|u]; [|discriminate]. destruct (beq d n) eqn:B; [|discriminate]. apply beq_eq in B. subst d.
      apply bind_inl in K as ([[[[a tok] dir] m1] m2] & El & K). injection K as <-. apply linkerd_iff in El as (R & Ed & Doc & Et & T & E1 & E2).
      split; [apply From_linkerd; assumption|]. cbn [its_control control_for ct_addr]. auto.
  - intros [Id Co]. destruct Id as [c tok dir m1 m2 n ta Hi Hs Ed Doc Et T E1 E2|u n ta api b Hi Hs Sc Eb].
    + apply tls_iff in Hi. apply spire_iff in Hs. rewrite Hi. cbn [bind]. rewrite Hs. cbn [bind]. rewrite beq_refl.
      destruct Co as [R ->]. assert (parse_linkerd_identity parse_sock6 token_ok documents_ok e = inl (ct_addr c, tok, dir, m1, m2)) as ->.
      { apply linkerd_iff. auto 9. }
      cbn [bind]. reflexivity.
    + apply tls_iff in Hi. apply spire_iff in Hs. rewrite Hi. cbn [bind]. rewrite Hs. cbn [bind]. apply scheme_iff in Sc. rewrite Sc.
      apply bind_inl. exists b. split; [|reflexivity]. apply backoff_iff. rewrite <- spire_base. exact Eb.
Qed.

(** ** Attributes of traces *)
Lemma lines_spec s : text_lines s (lines s).
Proof.
  unfold lines. pose proof (split_join 10 s) as J. pose proof (split_nonempty 10 s) as NE. assert (forall x, In x (split 10 s) -> ~ In 10 x) as NS by (intros x; apply split_no_sep).
  revert s J NE NS. set (pf := fun s : bytes => split 10 s). enough (G : forall ps s, join 10 ps = s -> ps <> [] -> (forall x, In x ps -> ~ In 10 x) -> text_lines s (lines_of ps)) by (intros s J NE NS; exact (G _ s J NE NS)).
  clear pf. induction ps as [|p ps IH]; intros s J NE NS; [contradiction|]. destruct ps as [|q ps].
  - cbn [join] in J. subst s. cbn [lines_of]. destruct p as [|c p]; [constructor|]. apply L_last; [discriminate|apply NS; left; reflexivity].
  - change (lines_of (p :: q :: ps)) with ((match strip_suffix [13] p with Some x => x | None => p end) :: lines_of (q :: ps)).
    change (join 10 (p :: q :: ps)) with (p ++ [10] ++ join 10 (q :: ps)) in J. subst s.
    assert (text_lines (join 10 (q :: ps)) (lines_of (q :: ps))) as T by (apply IH; [reflexivity|discriminate|intros x I0; apply NS; right; exact I0]).
    assert (~ In 10 p) as NP by (apply NS; left; reflexivity).
    destruct (strip_suffix [13] p) as [x|] eqn:E.
    + apply strip_suffix_some in E. subst p. rewrite <- app_assoc. change ([13] ++ [10] ++ join 10 (q :: ps)) with ([13; 10] ++ join 10 (q :: ps)).
      apply L_crlf; [|exact T]. intros I0. apply NP, in_or_app. auto.
    + apply L_lf; [exact NP| |exact T]. intros r ->. assert (strip_suffix [13] (r ++ [13]) = Some r) by (apply strip_suffix_some; reflexivity). congruence.
Qed.
Lemma lines_of_cons p ps : ps <> [] -> lines_of (p :: ps) = (match strip_suffix [13] p with Some x => x | None => p end) :: lines_of ps.
Proof. destruct ps; [contradiction|reflexivity]. Qed.
Lemma lines_unique s ls : text_lines s ls -> ls = lines s.
Proof.
  unfold lines. induction 1 as [|l NE N0|l s ls N0 NR T IH|l s ls N0 T IH].
  - reflexivity.
  - rewrite split_none by exact N0. destruct l; [contradiction|reflexivity].
  - cbn [app]. rewrite split_app_sep by exact N0. rewrite lines_of_cons by apply split_nonempty. rewrite IH.
    destruct (strip_suffix [13] l) as [x|] eqn:E; [|reflexivity]. apply strip_suffix_some in E. exfalso. exact (NR x E).
  - change (l ++ [13; 10] ++ s) with (l ++ [13] ++ 10 :: s). rewrite app_assoc. rewrite split_app_sep.
    + rewrite lines_of_cons by apply split_nonempty. rewrite IH.
      assert (strip_suffix [13] (l ++ [13]) = Some l) as -> by (apply strip_suffix_some; reflexivity). reflexivity.
    + rewrite in_app_iff. intros [I0|[I0|[]]]; [exact (N0 I0)|discriminate].
Qed.
Lemma dwe_repeat c n s : (forall r, s <> c :: r) -> drop_while_eq c (repeat c n ++ s) = s.
Proof.
  intros H. induction n as [|n IH]; cbn [repeat app].
  - destruct s as [|x s]; [reflexivity|]. cbn [drop_while_eq]. destruct (x =? c) eqn:E; [|reflexivity]. apply N.eqb_eq in E. subst. exfalso. exact (H s eq_refl).
  - cbn [drop_while_eq]. rewrite N.eqb_refl. exact IH.
Qed.
Lemma dwe_head c s r : drop_while_eq c s <> c :: r.
Proof.
  induction s as [|x s IH]; cbn [drop_while_eq]; [discriminate|]. destruct (x =? c) eqn:E; [exact IH|]. intros Q. injection Q as -> _. rewrite N.eqb_refl in E. discriminate.
Qed.
Lemma unquote_iff val v : trim_end 34 (trim_start 34 val) = v <->
  exists i j, val = repeat 34 i ++ v ++ repeat 34 j /\ (forall r, v <> 34 :: r) /\ (forall r, v <> r ++ [34]).
Proof.
  unfold trim_start. split.
  - intros <-. destruct (drop_while_eq_spec 34 val) as (i & E). destruct (trim_end_spec 34 (drop_while_eq 34 val)) as (j & E').
    exists i, j. split; [rewrite <- E'; exact E|]. split.
    + intros r Q. rewrite Q in E'. exact (dwe_head 34 val (r ++ repeat 34 j) E').
    + intros r Q. unfold trim_end in Q. apply (f_equal (@rev N)) in Q. rewrite rev_involutive, rev_app_distr in Q. exact (dwe_head 34 _ (rev r) Q).
  - intros (i & j & -> & A & B). destruct v as [|x v].
    + cbn [app]. rewrite <- repeat_app, <- (app_nil_r (repeat 34 (i + j))), dwe_repeat by discriminate. reflexivity.
    + rewrite dwe_repeat by (intros r Q; injection Q as -> _; exact (A v eq_refl)).
      unfold trim_end. rewrite rev_app_distr, rev_repeat, dwe_repeat; [apply rev_involutive|].
      intros r Q. apply (B (rev r)). rewrite <- (rev_involutive (x :: v)), Q. reflexivity.
Qed.
Lemma attr_iff l k v : parse_attr l = Some (k, v) <-> attr_line l k v.
Proof.
  unfold parse_attr, attr_line. change (bs "=") with [61]. split.
  - destruct (split_once 61 l) as [[a b]|] eqn:E; [|discriminate]. apply split_once_some in E as [-> N0]. intros H; injection H as -> <-.
    destruct (proj1 (unquote_iff b _) eq_refl) as (i & j & E & A & B). exists i, j. rewrite <- E. auto.
  - intros (i & j & -> & N0 & A & B). cbn [app]. rewrite (proj2 (split_once_some 61 _ k (repeat 34 i ++ v ++ repeat 34 j)) (conj eq_refl N0)).
    rewrite (proj2 (unquote_iff (repeat 34 i ++ v ++ repeat 34 j) v)); [reflexivity|]. exists i, j. auto.
Qed.
Lemma attribute_app a b k : attribute (a ++ b) k = match attribute b k with Some v => Some v | None => attribute a k end.
Proof.
  unfold attribute. rewrite rev_app_distr, ReqMetricsProofs.find_app. destruct (List.find (fun kv => beq (fst kv) k) (rev b)); reflexivity.
Qed.
Lemma attribute_one k0 v0 k : attribute [(k0, v0)] k = if beq k0 k then Some v0 else None.
Proof. unfold attribute. cbn [rev app List.find fst]. destruct (beq k0 k); reflexivity. Qed.
Lemma filter_map_app {A B} (f : A -> option B) l l' : ProfileModel.filter_map f (l ++ l') = ProfileModel.filter_map f l ++ ProfileModel.filter_map f l'.
Proof. induction l as [|a l IH]; cbn; [reflexivity|]. destruct (f a); cbn; rewrite IH; reflexivity. Qed.
Lemma attribute_lines ls k v : attribute (ProfileModel.filter_map parse_attr ls) k = Some v <->
  exists pre l post, ls = pre ++ l :: post /\ attr_line l k v /\ forall l' v', In l' post -> ~ attr_line l' k v'.
Proof.
  induction ls as [|l ls IH] using rev_ind.
  - split; [discriminate|]. intros (pre & l & post & E & _). destruct pre; discriminate.
  - rewrite filter_map_app, attribute_app. cbn [ProfileModel.filter_map].
    assert (Skip : (forall v', ~ attr_line l k v') -> ((exists pre l0 post, ls = pre ++ l0 :: post /\ attr_line l0 k v /\ forall l' v', In l' post -> ~ attr_line l' k v') <->
      exists pre l0 post, ls ++ [l] = pre ++ l0 :: post /\ attr_line l0 k v /\ forall l' v', In l' post -> ~ attr_line l' k v')).
    { intros NA. split.
      - intros (pre & l0 & post & -> & A & B). exists pre, l0, (post ++ [l]). rewrite <- app_assoc. split; [reflexivity|]. split; [exact A|].
        intros l' v' I0. apply in_app_iff in I0 as [I0|[<-|[]]]; [exact (B l' v' I0)|apply NA].
      - intros (pre & l0 & post & E & A & B). destruct (exists_last (l := l0 :: post)) as (q & z & Q); [discriminate|]. rewrite Q, app_assoc in E.
        apply app_inj_tail in E as [-> <-]. destruct q as [|y q]; cbn [app] in Q.
        + injection Q as -> ->. exfalso. exact (NA v A).
        + injection Q as <- ->. exists pre, l0, q. split; [reflexivity|]. split; [exact A|]. intros l' v' I0. apply B, in_or_app. auto. }
    destruct (parse_attr l) as [[k0 v0]|] eqn:Pl.
    + rewrite attribute_one. destruct (beq k0 k) eqn:B0.
      * apply beq_eq in B0. subst k0. apply attr_iff in Pl. split.
        -- intros Q; injection Q as <-. exists ls, l, []. split; [reflexivity|]. split; [exact Pl|intros l' v' []].
        -- intros (pre & l0 & post & E & A & B). destruct (exists_last (l := l0 :: post)) as (q & z & Q); [discriminate|]. rewrite Q, app_assoc in E.
           apply app_inj_tail in E as [-> <-]. destruct q as [|y q]; cbn [app] in Q.
           ++ injection Q as -> ->. apply attr_iff in Pl, A. congruence.
           ++ injection Q as <- ->. exfalso. apply (B l v0); [apply in_or_app; right; left; reflexivity|exact Pl].
      * apply beq_neq in B0. rewrite IH. apply Skip. intros v' Q. apply attr_iff in Q. congruence.
    + change (attribute [] k) with (@None bytes). rewrite IH. apply Skip. intros v' Q. apply attr_iff in Q. congruence.
Qed.
Lemma gives_iff s k v : attribute (parse_attrs s) k = Some v <-> gives s k v.
Proof.
  unfold parse_attrs, gives. rewrite attribute_lines. split.
  - intros (pre & l & post & E & R). exists (lines s), pre, l, post. split; [apply lines_spec|auto].
  - intros (ls & pre & l & post & T & E & R). apply lines_unique in T. subst ls. exists pre, l, post. auto.
Qed.
Lemma from_cons (src : bytes -> bytes -> Prop) sources k v : from (src :: sources) k v <-> src k v \/ ((forall v', ~ src k v') /\ from sources k v).
Proof.
  unfold from. split.
  - intros (pre & x & post & E & A & B). destruct pre as [|y pre]; cbn [app] in E; injection E as -> ->; [auto|].
    right. split; [apply B; left; reflexivity|]. exists pre, x, post. split; [reflexivity|]. split; [exact A|]. intros z I0. apply B. right. exact I0.
  - intros [A|[N0 (pre & x & post & -> & A & B)]].
    + exists [], src, sources. split; [reflexivity|]. split; [exact A|]. intros z [].
    + exists (src :: pre), x, post. split; [reflexivity|]. split; [exact A|]. intros z [<-|I0]; [exact N0|exact (B z I0)].
Qed.
Lemma from_nil k v : ~ from [] k v.
Proof. intros (pre & x & post & E & _). destruct pre; discriminate. Qed.
(** Sources that a list of attributes stands for *)
Lemma from_attribute l (src : bytes -> bytes -> Prop) rest sources k v :
  (forall k v, attribute l k = Some v <-> src k v) -> (forall k v, attribute rest k = Some v <-> from sources k v) ->
  (attribute (rest ++ l) k = Some v <-> from (src :: sources) k v).
Proof.
  intros A B. rewrite attribute_app, from_cons. destruct (attribute l k) as [x|] eqn:E.
  - apply A in E. split.
    + intros Q; injection Q as <-. auto.
    + intros [Q|[N0 _]]; [|exfalso; exact (N0 x E)]. apply A in E, Q. congruence.
  - assert (forall v', ~ src k v') as N0 by (intros v' Q; apply A in Q; congruence). rewrite B. split; [auto|]. intros [Q|[_ Q]]; [exfalso; exact (N0 v Q)|exact Q].
Qed.
Lemma get_ok_iff e name s : get_ok e name = Some s <-> source e name s.
Proof. unfold get_ok, source. destruct (e name) as [[x|]|]; split; congruence. Qed.
Lemma source_attrs e name k v :
  attribute (match get_ok e name with Some s => parse_attrs s | None => [] end) k = Some v <-> exists s, source e name s /\ gives s k v.
Proof.
  destruct (get_ok e name) as [s|] eqn:E.
  - rewrite gives_iff. apply get_ok_iff in E. split; [eauto|]. intros (s' & Q & G). unfold source in *. congruence.
  - split; [discriminate|]. intros (s & Q & _). apply get_ok_iff in Q. congruence.
Qed.
Lemma trace_iff e k v : attribute (trace_labels read_to_string e) k = Some v <-> from (attribute_sources read_to_string e) k v.
Proof.
  unfold trace_labels, attribute_sources. rewrite !app_assoc. revert k v.
  intros k v; apply from_attribute; [intros; apply source_attrs|]; clear k v.
  intros k v; apply from_attribute; [intros; apply source_attrs|]; clear k v.
  intros k v; apply from_attribute; clear k v.
  - intros k v. destruct (get_ok e (bs "LINKERD2_PROXY_TRACE_ATTRIBUTES_PATH"%string)) as [p|] eqn:E.
    + apply get_ok_iff in E. destruct (read_to_string p) as [s|] eqn:R.
      * rewrite gives_iff. split; [intros G; exists p, s; auto|]. intros (p' & s' & Q & R' & G). unfold source in *. congruence.
      * split; [discriminate|]. intros (p' & s' & Q & R' & G). unfold source in *. congruence.
    + split; [discriminate|]. intros (p' & s' & Q & _). apply get_ok_iff in Q. congruence.
  - intros k v. rewrite from_cons. destruct (get_ok e (bs "LINKERD2_PROXY_TRACE_SERVICE_NAME"%string)) as [n|] eqn:E.
    + apply get_ok_iff in E. rewrite attribute_one. destruct (beq (bs "service.name"%string) k) eqn:B.
      * apply beq_eq in B. split; [intros Q; injection Q as <-; auto|]. intros [[_ Q]|[_ Q]]; [unfold source in *; congruence|exfalso; exact (from_nil _ _ Q)].
      * apply beq_neq in B. split; [discriminate|]. intros [[Q _]|[_ Q]]; [congruence|exfalso; exact (from_nil _ _ Q)].
    + split; [discriminate|]. intros [[_ Q]|[_ Q]]; [apply get_ok_iff in Q; congruence|exfalso; exact (from_nil _ _ Q)].
Qed.

(** ** The configuration as a whole *)
Local Opaque bs.
Local Arguments or_default : simpl never.
Local Arguments N.mul : simpl never.
Local Arguments N.modulo : simpl never.
Ltac bstep K := cbv beta zeta in K; apply bind_inl in K; let x := fresh "x" in let E := fresh "E" in destruct K as (x & E & K).
Ltac bsteps K := repeat (bstep K).
Notation config_of := (parse_config parse_v6 parse_sock6 parse_net url_parse parse_f64 read_to_string token_ok documents_ok).
Ltac explode K :=
  unfold parse_config in K; bsteps K; injection K as <-;
  match goal with O : mk_outbound _ _ _ _ _ _ _ _ = inl _ |- _ => unfold mk_outbound in O; bsteps O; injection O as <- end;
  match goal with O : mk_inbound _ _ _ _ _ _ _ _ _ _ = inl _ |- _ => unfold mk_inbound in O; bsteps O; injection O as <- end;
  match goal with O : mk_dst _ _ _ _ _ = inl _ |- _ => unfold mk_dst in O; bsteps O; injection O as <- end;
  match goal with O : mk_policy _ _ _ _ _ = inl _ |- _ => unfold mk_policy in O; bsteps O; injection O as <- end;
  repeat match goal with O : parse_server _ _ = inl _ |- _ => unfold parse_server in O; bsteps O; injection O as <- end.
Ltac from_hyp := match goal with E : _ = inl ?x |- _ = inl ?x => exact E end.

Lemma insert_in p q l : In q (insert p l) <-> q = p \/ In q l.
Proof.
  unfold insert. destruct (existsb (N.eqb p) l) eqn:E.
  - apply existsb_exists in E as (x & I0 & E). apply N.eqb_eq in E. subst x. split; [auto|]. intros [->|Q]; assumption.
  - rewrite in_app_iff. cbn [In]. intuition congruence.
Qed.
Lemma insert_nodup p l : NoDup l -> NoDup (insert p l).
Proof.
  intros ND. unfold insert. destruct (existsb (N.eqb p) l) eqn:E; [exact ND|]. apply NoDup_rev in ND. rewrite <- (rev_involutive (l ++ [p])). apply NoDup_rev.
  rewrite rev_app_distr. cbn [rev app]. constructor; [|exact ND]. rewrite <- in_rev. intros I0.
  assert (existsb (N.eqb p) l = true) by (apply existsb_exists; exists p; split; [exact I0|apply N.eqb_refl]). congruence.
Qed.
Lemma inserts ps : forall l, NoDup l -> NoDup (fold_left (fun l p => insert p l) ps l) /\
  forall q, In q (fold_left (fun l p => insert p l) ps l) <-> In q ps \/ In q l.
Proof.
  induction ps as [|p ps IH]; intros l ND; cbn [fold_left].
  - split; [exact ND|]. intros q. cbn [In]. tauto.
  - destruct (IH (insert p l) (insert_nodup p l ND)) as [A B]. split; [exact A|]. intros q. rewrite B, insert_in. cbn [In]. intuition congruence.
Qed.
Lemma ranges_in rs p : In p (flat_map PolicyStoreModel.range rs) <-> PolicyStoreSpec.opaque_port rs p.
Proof.
  rewrite in_flat_map. unfold PolicyStoreSpec.opaque_port. split.
  - intros ([lo hi] & I0 & R). apply PolicyStoreProofs.range_iff in R. exists lo, hi. auto.
  - intros (lo & hi & I0 & R). exists (lo, hi). split; [exact I0|]. apply PolicyStoreProofs.range_iff. exact R.
Qed.
Lemma default_iff nets t s d : PolicyStoreModel.parse_default_policy s nets t = Some d <-> (fun s d => PolicyStoreModel.parse_default_policy s nets t = Some d) s d.
Proof. reflexivity. Qed.
Lemma gateway_iff (g : list suffix) (p q : N) l : In p (match g with [] => l | _ => insert q l end) <-> In p l \/ (g <> [] /\ p = q).
Proof.
  destruct g as [|x g]; [split; [auto|]; intros [Q|[Q _]]; [exact Q|contradiction]|]. rewrite insert_in. split; [intros [Q|Q]; [right; split; [discriminate|exact Q]|auto]|].
  intros [Q|[_ Q]]; auto.
Qed.
Lemma port_policy_iff e ip ap dt g c p :
  mk_port_policy parse_net e ip ap dt g = inl p ->
  c_gateway c = g -> s_port (sv_addr (inbound_server c)) = ip -> s_port (sv_addr (ad_server (c_admin c))) = ap -> px_detect_timeout (inbound_proxy c) = dt ->
  port_policy parse_net e c p.
Proof.
  intros K Hg Hi Ha Ht. unfold mk_port_policy in K. bsteps K. injection K as <-.
  apply (parse_set e _ _ networks_iff _ []) in E. apply (parse_set e _ _ (default_iff _ _) _ (PolicyStoreModel.Allow (PolicyStoreModel.all_unauthenticated dt))) in E0.
  apply (parse_set e _ _ ports_iff _ []) in E1, E2. subst ip ap dt g.
  destruct (inserts (flat_map PolicyStoreModel.range (or_default x1 [])) [] (NoDup_nil _)) as [ND IN].
  eapply Port_policy; [exact E|exact E0|exact E1|exact E2| |].
  - apply insert_nodup. destruct (c_gateway c); [exact ND|apply insert_nodup, ND].
  - intros q. rewrite insert_in, gateway_iff, IN, ranges_in. cbn [In]. tauto.
Qed.
Lemma not_bool_iff s b : option_map negb (parse_bool s) = Some b <-> truth s (negb b).
Proof.
  rewrite <- bool_iff. destruct (parse_bool s) as [x|]; cbn [option_map]; split; try discriminate.
  - intros Q; injection Q as <-. rewrite negb_involutive. reflexivity.
  - intros Q; injection Q as ->. rewrite negb_involutive. reflexivity.
Qed.
Lemma outbound_base : bs "LINKERD2_PROXY_OUTBOUND_CONNECT"%string = bs "LINKERD2_PROXY_"%string ++ bs "OUTBOUND_CONNECT"%string.
Proof. Transparent bs. reflexivity. Qed.
Lemma inbound_base : bs "LINKERD2_PROXY_INBOUND_CONNECT"%string = bs "LINKERD2_PROXY_"%string ++ bs "INBOUND_CONNECT"%string.
Proof. reflexivity. Qed.
Lemma policy_base : bs "LINKERD2_PROXY_DESTINATION_SVC"%string <> bs "LINKERD2_PROXY_POLICY_SVC"%string /\
  bs "LINKERD2_PROXY_IDENTITY_SVC"%string <> bs "LINKERD2_PROXY_POLICY_SVC"%string /\ bs "LINKERD2_PROXY_TRACE_COLLECTOR_SVC"%string <> bs "LINKERD2_PROXY_POLICY_SVC"%string.
Proof. repeat split; discriminate. Qed.
Local Opaque bs.

Lemma client_for e c base a : reached parse_sock6 e base a -> base <> bs "LINKERD2_PROXY_POLICY_SVC"%string ->
  client_of parse_sock6 e c (base, control_for a (c_inbound c) (c_outbound c)).
Proof.
  intros R NB. unfold control_for, connect_for, failfast_for. constructor; cbn [fst snd ct_addr ct_connect ct_queue qc_capacity qc_failfast].
  - exact R.
  - intros L. apply loopback_iff in L. rewrite L. reflexivity.
  - intros L. apply loopback_false in L. rewrite L. reflexivity.
  - reflexivity.
  - intros Q. contradiction.
  - intros _ L. apply loopback_iff in L. rewrite L. reflexivity.
  - intros _ L. apply loopback_false in L. rewrite L. reflexivity.
Qed.
Lemma client_policy e c a : reached parse_sock6 e (bs "LINKERD2_PROXY_POLICY_SVC"%string) a ->
  client_of parse_sock6 e c (bs "LINKERD2_PROXY_POLICY_SVC"%string, ControlConfig a (connect_for a (c_inbound c) (c_outbound c)) (QueueConfig 100 (10 * secs))).
Proof.
  intros R. unfold connect_for. constructor; cbn [fst snd ct_addr ct_connect ct_queue qc_capacity qc_failfast]; try reflexivity; try contradiction.
  - exact R.
  - intros L. apply loopback_iff in L. rewrite L. reflexivity.
  - intros L. apply loopback_false in L. rewrite L. reflexivity.
Qed.
Lemma limits_limited e a l : limits_of e l -> limited e a (limits_for a l).
Proof.
  intros L. unfold limited, limits_for. destruct (is_loopback (ca_addr a)) eqn:E; [left; apply loopback_iff in E; auto|right; apply loopback_false in E; auto].
Qed.
Lemma ordered_none : ordered (WatchModel.Limits None None None).
Proof. repeat split; intros x y X; discriminate. Qed.
Lemma limits_ordered a l : ordered l -> ordered (limits_for a l).
Proof. unfold limits_for. destruct (is_loopback (ca_addr a)); [intros _; apply ordered_none|auto]. Qed.

Record facts (e : strings) (c : config) : Prop := {
  f_durations : Forall (fun x => configured e lasts (fst (fst x)) (snd (fst x)) (snd x c)) duration_settings;
  f_duration_options : Forall (fun x => optional e lasts (fst x) (snd x c)) duration_options;
  f_numbers : Forall (fun x => configured e (counts (snd (fst (fst x)))) (fst (fst (fst x))) (snd (fst x)) (snd x c)) number_settings;
  f_number_options : Forall (fun x => optional e (counts (snd (fst x))) (fst (fst x)) (snd x c)) number_options;
  f_bools : Forall (fun x => configured e truth (fst (fst x)) (snd (fst x)) (snd x c)) bool_settings;
  f_others : other_settings parse_v6 parse_sock6 parse_net url_parse e c;
  f_backoffs : backoff_of parse_f64 e (bs "LINKERD2_PROXY_OUTBOUND_CONNECT"%string) DEFAULT_OUTBOUND_CONNECT_BACKOFF (cc_backoff (outbound_connect c)) /\
    backoff_of parse_f64 e (bs "LINKERD2_PROXY_INBOUND_CONNECT"%string) DEFAULT_INBOUND_CONNECT_BACKOFF (cc_backoff (inbound_connect c));
  f_flow : flow_control_of e (bs "LINKERD2_PROXY_OUTBOUND_SERVER_HTTP2"%string) (hs_flow_control (sv_http2 (outbound_server c))) /\
    flow_control_of e (bs "LINKERD2_PROXY_INBOUND_SERVER_HTTP2"%string) (hs_flow_control (sv_http2 (inbound_server c)));
  f_keep : keep_alive_of e (bs "LINKERD2_PROXY_OUTBOUND_SERVER_HTTP2"%string) (hs_keep_alive (sv_http2 (outbound_server c))) /\
    keep_alive_of e (bs "LINKERD2_PROXY_INBOUND_SERVER_HTTP2"%string) (hs_keep_alive (sv_http2 (inbound_server c)));
  f_ports : port_policy parse_net e c (ib_policy (c_inbound c));
  f_clients : Forall (client_of parse_sock6 e c) (clients c);
  f_limits : limited e (ct_addr (ds_control (c_dst c))) (ds_limits (c_dst c)) /\ limited e (ct_addr (po_control (c_policy c))) (po_limits (c_policy c)) /\
    ordered (ds_limits (c_dst c)) /\ ordered (po_limits (c_policy c)) /\ exists l, limits_of e l /\ ordered l;
  f_identity : identity_of url_parse parse_f64 token_ok documents_ok e (c_identity c);
  f_trace : c_trace c = None <-> e (bs "LINKERD2_PROXY_TRACE_COLLECTOR_SVC"%string ++ bs "_ADDR"%string) = Some None /\
      e (bs "LINKERD2_PROXY_TRACE_COLLECTOR_SVC"%string ++ bs "_NAME"%string) = Some None;
  f_attributes : forall t, c_trace c = Some t -> forall k v, attribute (tr_attributes t) k = Some v <-> from (attribute_sources read_to_string e) k v;
}.
Lemma headers_set e name (d : bool) o : parse e name parse_bool = inl o -> configured e (fun s b => truth s (negb b)) name (negb d) (negb (or_default o d)).
Proof.
  intros Q. apply (opt_iff e _ _ bool_iff) in Q. destruct Q as [s o E (b & -> & T)|E].
  - unfold or_default. apply (Set_to e _ name _ s); [exact E|]. rewrite negb_involutive. exact T.
  - unfold or_default. apply Not_set. exact E.
Qed.
Lemma outbound_addr e l r :
  parse e (bs "LINKERD2_PROXY_OUTBOUND_LISTEN_ADDRS"%string) (parse_socket_addrs parse_sock6) = inl l ->
  match l with
  | Some [a] => inl (a, None)
  | Some [a; b] => inl (a, Some b)
  | _ => bind (parse e (bs "LINKERD2_PROXY_OUTBOUND_LISTEN_ADDR"%string) (parse_socket_addr parse_sock6))
           (fun a => inl (or_default a (Sock [127; 0; 0; 1] 4140), None))
  end = inl r ->
  (exists s l, e (bs "LINKERD2_PROXY_OUTBOUND_LISTEN_ADDRS"%string) = Some (Some s) /\ socks_text parse_sock6 s l /\
       ((l = [fst r] /\ snd r = None) \/ exists b, l = [fst r; b] /\ snd r = Some b)) \/
    (e (bs "LINKERD2_PROXY_OUTBOUND_LISTEN_ADDRS"%string) = Some None /\ snd r = None /\
       configured e (sock_text parse_sock6) (bs "LINKERD2_PROXY_OUTBOUND_LISTEN_ADDR"%string) (Sock [127; 0; 0; 1] 4140) (fst r)).
Proof.
  intros E K. apply (opt_iff e _ _ sockets_iff) in E. destruct E as [s o E (x & -> & T)|E].
  - left. exists s, x. split; [exact E|]. split; [exact T|]. destruct T as (ts & (NE & _) & L & F).
    destruct ts as [|t1 [|t2 [|t3 ts]]]; [contradiction| | |cbn in L; lia].
    + inversion F as [|? a ? l' F1 F2]; subst. inversion F2; subst. injection K as <-. auto.
    + inversion F as [|? a ? l' F1 F2]; subst. inversion F2 as [|? b ? l2 F3 F4]; subst. inversion F4; subst. injection K as <-. right. exists b. auto.
  - right. split; [exact E|]. bstep K. injection K as <-. cbn [fst snd]. split; [reflexivity|]. apply (parse_set e _ _ socket_iff). from_hyp.
Qed.
Lemma get_set e name d o : get e name = inl o -> configured e (@eq bytes) name d (or_default o d).
Proof. intros Q. apply get_inl in Q. destruct o as [s|]; unfold or_default; [apply (Set_to e _ name _ s); auto|apply Not_set, Q]. Qed.
Lemma tap_set e i r : mk_tap parse_sock6 url_parse e i = inl r -> exists o a,
    optional e (id_text url_parse) (bs "LINKERD2_PROXY_TAP_SVC_NAME"%string) o /\
    configured e (sock_text parse_sock6) (bs "LINKERD2_PROXY_CONTROL_LISTEN_ADDR"%string) (Sock [0; 0; 0; 0] 4190) a /\
    match o with
    | None => r = None
    | Some i => exists s, r = Some (i, s) /\ sv_addr s = a
    end.
Proof.
  intros K. unfold mk_tap in K. bsteps K. apply (opt_iff e _ _ identity_iff) in E. apply (parse_set e _ _ socket_iff _ (Sock [0; 0; 0; 0] 4190)) in E0.
  exists x, (or_default x0 (Sock [0; 0; 0; 0] 4190)). split; [exact E|]. split; [exact E0|]. destruct x as [x|]; injection K as <-; [|reflexivity].
  eexists. split; [reflexivity|]. reflexivity.
Qed.
Lemma trace_facts e i o r : mk_trace parse_sock6 read_to_string e i o = inl r ->
  match r with
  | None => e (bs "LINKERD2_PROXY_TRACE_COLLECTOR_SVC"%string ++ bs "_ADDR"%string) = Some None /\
      e (bs "LINKERD2_PROXY_TRACE_COLLECTOR_SVC"%string ++ bs "_NAME"%string) = Some None
  | Some t => exists a, reached parse_sock6 e (bs "LINKERD2_PROXY_TRACE_COLLECTOR_SVC"%string) a /\ tr_control t = control_for a i o /\
      e (bs "HOSTNAME"%string) = Some (tr_hostname t) /\ tr_attributes t = trace_labels read_to_string e
  end.
Proof.
  intros K. unfold mk_trace in K. bstep K. destruct x as [a|].
  - bstep K. injection K as <-. apply reached_iff in E. apply get_inl in E0. exists a. auto.
  - injection K as <-. apply unreached_iff in E. exact E.
Qed.
Lemma reached_set e base a : reached parse_sock6 e base a -> e (base ++ bs "_ADDR"%string) <> Some None.
Proof. intros (s & n & E & _) Q. congruence. Qed.
Lemma config_facts e c : config_of e = inl c -> facts e c.
Proof.
  intros K. explode K. 
  match goal with E : match ?r with Some a => inl a | None => inr No_destination end = inl _ |- _ => destruct r; [injection E as ->|discriminate] end.
  match goal with E : match ?r with Some a => inl a | None => inr No_policy end = inl _ |- _ => destruct r; [injection E as ->|discriminate] end.
  match goal with E : match ?r with Some a => inl a | None => inr Invalid_env_var end = inl _ |- _ => destruct r; [injection E as ->|discriminate] end.
  repeat match goal with E : parse_control_addr _ _ _ = inl (Some _) |- _ => apply reached_iff in E end.
  match goal with E : mk_trace _ _ _ _ _ = inl _ |- _ => apply trace_facts in E end.
  match goal with E : mk_identity _ _ _ _ _ _ _ _ = inl _ |- _ => apply mk_identity_iff in E as [Id Ct] end.
  match goal with E : mk_receive_limits _ = inl _ |- _ => apply limits_iff in E as [Li Or] end.
  constructor.
  - unfold duration_settings. repeat (apply Forall_cons; [cbn [fst snd]; apply (parse_set e _ _ duration_iff); from_hyp|]). apply Forall_nil.
  - unfold duration_options. repeat (apply Forall_cons; [cbn [fst snd]; apply (opt_iff e _ _ duration_iff); from_hyp|]). apply Forall_nil.
  - unfold number_settings. repeat (apply Forall_cons; [cbn [fst snd]; apply (parse_set e _ _ (counts_iff _)); from_hyp|]). apply Forall_nil.
  - unfold number_options. cbn [app]. repeat (apply Forall_cons; [cbn [fst snd]; apply (opt_iff e _ _ (counts_iff _)); from_hyp|]). apply Forall_nil.
  - unfold bool_settings. repeat (apply Forall_cons; [cbn [fst snd]; apply (parse_set e _ _ bool_iff); from_hyp|]). apply Forall_nil.
  - constructor.
    + apply (parse_set e _ _ socket_iff). from_hyp.
    + apply (parse_set e _ _ socket_iff). from_hyp.
    + cbn [outbound_server outbound_proxy ob_proxy px_server sv_addr sv_addr6 c_outbound].
      match goal with E : match ?l with Some _ => _ | None => _ end = inl ?r |- _ => apply (outbound_addr e l r); [from_hyp|exact E] end.
    + cbn [c_outbound ob_emit_headers ob_ingress_mode]. apply headers_set. from_hyp.
    + apply (parse_set e _ _ labels_iff). from_hyp.
    + split; [|reflexivity]. apply (parse_set e _ _ suffixes_iff). from_hyp.
    + apply (parse_set e _ _ networks_iff). from_hyp.
    + apply (parse_set e _ _ suffixes_iff). from_hyp.
    + split; [|reflexivity]. apply (parse_set e _ _ ips_iff). from_hyp.
    + cbn [c_tap]. match goal with E : mk_tap _ _ _ ?i = inl ?r |- _ => exact (tap_set e i r E) end.
    + cbn [c_dst ds_context]. apply get_set. from_hyp.
    + cbn [c_policy po_workload]. apply get_inl. from_hyp.
    + intros t Q. cbn [c_trace] in Q. subst. match goal with E : exists a, _ /\ tr_control t = _ /\ _ |- _ => destruct E as (_ & _ & _ & E & _); exact E end.
  - rewrite outbound_base, inbound_base. split; apply backoff_iff; from_hyp.
  - split; apply flow_iff; from_hyp.
  - split; apply keep_alive_iff; from_hyp.
  - match goal with E : mk_port_policy _ _ _ _ _ _ = inl _ |- _ => apply (port_policy_iff _ _ _ _ _ _ _ E); reflexivity end.
  - destruct policy_base as (B1 & B2 & B3). unfold clients. cbn [c_dst c_policy c_identity c_trace ds_control po_control].
    apply Forall_cons; [apply (client_for e (Config _ _ _ _ _ _ _ _ _ _ _ _)); [assumption|exact B1]|].
    apply Forall_cons; [|apply Forall_app; split].
    + apply (client_policy e (Config _ _ _ _ _ _ _ _ _ _ _ _)). assumption.
    + match goal with E : its_control ?x _ _ _ |- _ => destruct x as [ct tok dir m1 m2 i n ta|i n ta api b] end; [|apply Forall_nil].
      apply Forall_cons; [|apply Forall_nil]. destruct Ct as [R ->]. apply (client_for e (Config _ _ _ _ _ _ _ _ _ _ _ _)); [exact R|exact B2].
    + match goal with E : match ?x with Some t => exists a, _ | None => _ end |- _ => destruct x as [t|] end; [|apply Forall_nil].
      apply Forall_cons; [|apply Forall_nil]. match goal with E : exists a, _ /\ tr_control t = _ /\ _ |- _ => destruct E as (a & R & -> & _) end.
      apply (client_for e (Config _ _ _ _ _ _ _ _ _ _ _ _)); [exact R|exact B3].
  - cbn [c_dst c_policy ds_control ds_limits po_control po_limits ct_addr control_for]. repeat split; try (apply limits_limited; exact Li); try (apply (limits_ordered _ _ Or)).
    eexists. split; [exact Li|exact Or].
  - exact Id.
  - cbn [c_trace]. match goal with E : match ?x with Some t => exists a, _ | None => _ end |- _ => destruct x as [t|] end.
    + match goal with E : exists a, _ /\ tr_control t = _ /\ _ |- _ => destruct E as (a & R & _) end. split; [discriminate|]. intros [Q _]. exfalso. exact (reached_set e _ a R Q).
    + split; auto.
  - intros t Q k v. cbn [c_trace] in Q. subst. match goal with E : exists a, _ /\ tr_control t = _ /\ _ |- _ => destruct E as (_ & _ & _ & _ & ->) end. apply trace_iff.
Qed.

(** ** Which configurations are accepted *)
Lemma configured_ok {A} e (M : bytes -> A -> Prop) name d a : configured e M name d a -> ok e M name.
Proof.
  intros [s x E Q|E].
  - exists (Some x). apply opt_some. eauto.
  - exists None. apply Not_set, E.
Qed.
Lemma optional_ok {A} e (M : bytes -> A -> Prop) name o : optional e M name o -> ok e M name.
Proof. intros Q. exists o. exact Q. Qed.
Lemma backoff_self e base d b : backoff_of parse_f64 e base d b -> exists b', backoff_of parse_f64 e base b' b'.
Proof.
  intros (mn & mx & j & E1 & E2 & E3 & K). exists b, mn, mx, j. repeat (split; [assumption|]). destruct K as [(-> & -> & -> & _)|K]; [left; auto|right; exact K].
Qed.
Notation acceptable_env := (acceptable parse_v6 parse_sock6 parse_net url_parse parse_f64 token_ok documents_ok).
Lemma accepted e c : config_of e = inl c -> acceptable_env e.
Proof.
  intros K. pose proof (config_facts e c K) as [F1 F2 F3 F4 F5 F6 F7 F8 F9 F10 F11 F12 F13 F14 _]. constructor.
  - unfold variables. apply Forall_app. split.
    { apply Forall_map. eapply Forall_impl; [|exact F1]. intros x Q. exact (configured_ok _ _ _ _ _ Q). }
    apply Forall_app. split.
    { apply Forall_map. eapply Forall_impl; [|exact F2]. intros x Q. exact (optional_ok _ _ _ _ Q). }
    apply Forall_app. split.
    { apply Forall_map. eapply Forall_impl; [|exact F3]. intros x Q. exact (configured_ok _ _ _ _ _ Q). }
    apply Forall_app. split.
    { apply Forall_map. eapply Forall_impl; [|exact F4]. intros x Q. exact (optional_ok _ _ _ _ Q). }
    apply Forall_app. split.
    { apply Forall_map. eapply Forall_impl; [|exact F5]. intros x Q. exact (configured_ok _ _ _ _ _ Q). }
    destruct F6 as [G1 G2 G3 G4 G5 [G6 _] G7 G8 [G9 _] (o & a & G10 & G10' & _) G11 G12 G13].
    destruct F10 as [nets default known ports opaque P1 P2 P3 P4 _ _].
    repeat (apply Forall_cons; [cbn [var_ok]|]); try apply Forall_nil;
      try (eapply configured_ok; eassumption); try (eapply optional_ok; eassumption).
    + cbv zeta in G3. destruct G3 as [(s & l & E & T & _)|(E & _)]; [exists (Some l); apply opt_some; eauto|exists None; apply Not_set, E].
    + apply configured_ok in G4 as (o' & Q). destruct Q as [s o' E (b & -> & T)|E]; [exists (Some (negb b)); apply opt_some; eauto|exists None; apply Not_set, E].
  - intros Un. destruct F6 as [_ _ G3 _ _ _ _ _ _ _ _ _ _]. cbv zeta in G3. destruct G3 as [(s & l & E & _)|(_ & _ & G3)]; [congruence|]. exact (configured_ok _ _ _ _ _ G3).
  - destruct F12 as (_ & _ & _ & _ & F12). exact F12.
  - destruct F8 as [X1 X2], F9 as [Y1 Y2]. repeat (apply Forall_cons; [split; eexists; eassumption|]). apply Forall_nil.
  - destruct F7 as [X1 X2]. repeat (apply Forall_cons; [eapply backoff_self; eassumption|]). apply Forall_nil.
  - destruct F10 as [nets default known ports opaque P1 P2 P3 P4 _ _]. exists nets. split; [exact P1|].
    destruct P2 as [s d E Q|E]; [|exists None; apply Not_set, E]. exists (Some tt). apply opt_some. exists s. split; [exact E|]. eapply PolicyStoreProofs.known_iff. eauto.
  - apply Forall_inv in F11. eexists. exact (cl_reached _ _ _ _ F11).
  - apply Forall_inv_tail, Forall_inv in F11. eexists. exact (cl_reached _ _ _ _ F11).
  - eexists. exact (s_workload _ _ _ _ _ _ F6).
  - destruct (c_trace c) as [t|] eqn:Ht; [|right; apply F14; reflexivity]. left. split.
    + apply Forall_inv_tail, Forall_inv_tail, Forall_app in F11 as [_ F11]. rewrite Ht in F11. apply Forall_inv in F11. eexists. exact (cl_reached _ _ _ _ F11).
    + pose proof (s_hostname _ _ _ _ _ _ F6 t Ht) as Q. destruct (tr_hostname t) as [h|]; [exists (Some h); apply opt_some; eauto|exists None; apply Not_set, Q].
  - exists (c_identity c). split; [exact F13|]. destruct (c_identity c) as [ct tok dir m1 m2 i n ta|] eqn:Hi; [|exact I].
    apply Forall_inv_tail, Forall_inv_tail, Forall_app in F11 as [F11 _]. rewrite Hi in F11. apply Forall_inv in F11. exact (cl_reached _ _ _ _ F11).
Qed.

Lemma bind_ok {A B} (r : result A) (k : A -> result B) : (exists a, r = inl a) -> (forall a, r = inl a -> exists c, k a = inl c) -> exists c, bind r k = inl c.
Proof. intros (a & E) K. destruct (K a E) as (c & C). exists c. apply bind_inl. eauto. Qed.
Ltac known_var := match goal with Q : ok ?e _ ?n |- exists o, parse ?e ?n _ = inl o =>
  first [exact (proj1 (ok_iff e _ _ duration_iff n) Q) | exact (proj1 (ok_iff e _ _ (counts_iff _) n) Q) | exact (proj1 (ok_iff e _ _ bool_iff n) Q)
        |exact (proj1 (ok_iff e _ _ socket_iff n) Q) | exact (proj1 (ok_iff e _ _ sockets_iff n) Q) | exact (proj1 (ok_iff e _ _ labels_iff n) Q)
        |exact (proj1 (ok_iff e _ _ suffixes_iff n) Q) | exact (proj1 (ok_iff e _ _ networks_iff n) Q) | exact (proj1 (ok_iff e _ _ ips_iff n) Q)
        |exact (proj1 (ok_iff e _ _ identity_iff n) Q) | exact (proj1 (ok_iff e _ _ ports_iff n) Q)] end.
Ltac forward1 := cbv beta zeta; apply bind_ok; [try known_var | let a := fresh "a" in let Ea := fresh "Ea" in intros a Ea].
Ltac finish := eexists; reflexivity.
Lemma backoff_exists e base d : (exists b, backoff_of parse_f64 e (bs "LINKERD2_PROXY_"%string ++ base) b b) -> exists b, parse_backoff parse_f64 e base d = inl b.
Proof.
  intros (b & mn & mx & j & E1 & E2 & E3 & K). destruct K as [(-> & -> & -> & _)|K].
  - exists d. apply backoff_iff. exists None, None, None. auto 9.
  - exists b. apply backoff_iff. exists mn, mx, j. auto 9.
Qed.
Lemma get_exists e name : ok e (@eq bytes) name -> exists o, get e name = inl o.
Proof. intros (o & [s o' E _|E]); eexists; apply get_inl, E. Qed.
Lemma addrs_exist e l : ok e (socks_text parse_sock6) (bs "LINKERD2_PROXY_OUTBOUND_LISTEN_ADDRS"%string) ->
  (e (bs "LINKERD2_PROXY_OUTBOUND_LISTEN_ADDRS"%string) = Some None -> ok e (sock_text parse_sock6) (bs "LINKERD2_PROXY_OUTBOUND_LISTEN_ADDR"%string)) ->
  parse e (bs "LINKERD2_PROXY_OUTBOUND_LISTEN_ADDRS"%string) (parse_socket_addrs parse_sock6) = inl l ->
  exists r, match l with
  | Some [a] => inl (a, None)
  | Some [a; b] => inl (a, Some b)
  | _ => bind (parse e (bs "LINKERD2_PROXY_OUTBOUND_LISTEN_ADDR"%string) (parse_socket_addr parse_sock6))
           (fun a => inl (or_default a (Sock [127; 0; 0; 1] 4140), None))
  end = inl r.
Proof.
  intros _ A1 E. apply (opt_iff e _ _ sockets_iff) in E. destruct E as [s o E (x & -> & T)|E].
  - destruct T as (ts & (NE & _) & L & F).
    destruct ts as [|t1 [|t2 [|t3 ts]]]; [contradiction| | |cbn in L; lia].
    + inversion F as [|? a ? l' F1 F2]; subst. inversion F2; subst. finish.
    + inversion F as [|? a ? l' F1 F2]; subst. inversion F2 as [|? b ? l2 F3 F4]; subst. inversion F4; subst. finish.
  - specialize (A1 E). forward1. finish.
Qed.
Lemma acceptable_accepted e : acceptable_env e -> exists c, config_of e = inl c.
Proof.
  intros [V A1 (l & L1 & L2) H2 Bo (nets & N1 & N2) (da & Da) (pa & Pa) (w & W) Tr (idc & I1 & I2)].
  unfold variables, duration_settings, duration_options, number_settings, number_options, bool_settings in V. cbn [map app fst snd] in V.
  repeat match type of V with Forall _ (_ :: _) => let Q := fresh "V" in pose proof (Forall_inv V) as Q; cbn [var_ok] in Q; apply Forall_inv_tail in V end. clear V.
  pose proof (Forall_inv H2) as [(f1 & Fl1) (k1 & Ke1)]. pose proof (Forall_inv (Forall_inv_tail H2)) as [(f2 & Fl2) (k2 & Ke2)]. clear H2.
  pose proof (Forall_inv Bo) as B1. pose proof (Forall_inv (Forall_inv_tail Bo)) as B2. clear Bo. rewrite outbound_base in B1. rewrite inbound_base in B2.
  assert (Srv : forall base f k, flow_control_of e base f -> keep_alive_of e base k ->
    ok e (counts u32_max) (base ++ bs "_MAX_CONCURRENT_STREAMS"%string) -> ok e (counts u32_max) (base ++ bs "_MAX_FRAME_SIZE"%string) ->
    ok e (counts u32_max) (base ++ bs "_MAX_HEADER_LIST_SIZE"%string) -> ok e (counts u64_max) (base ++ bs "_MAX_PENDING_ACCEPT_RESET_STREAMS"%string) ->
    ok e (counts u64_max) (base ++ bs "_MAX_SEND_BUF_SIZE"%string) -> exists h, parse_server e base = inl h).
  { intros base f k Fl Ke Q1 Q2 Q3 Q4 Q5. unfold parse_server. apply flow_iff in Fl. apply keep_alive_iff in Ke. rewrite Fl. cbn [bind]. rewrite Ke. cbn [bind].
    do 5 forward1. finish. }
  unfold parse_config.
  forward1. { exists l. apply limits_iff. auto. }
  do 5 forward1.
  forward1.
  { unfold mk_outbound. do 3 forward1. forward1. { apply addrs_exist; assumption. } do 3 forward1. forward1. { eapply Srv; eassumption. }
    do 6 forward1. forward1. { apply backoff_exists, B1. } repeat forward1. finish. }
  do 2 forward1. forward1.
  { unfold mk_inbound. do 4 forward1. forward1. { eapply Srv; eassumption. } do 6 forward1. forward1. { apply backoff_exists, B2. } do 2 forward1.
    forward1.
    { unfold mk_port_policy. forward1. forward1.
      { apply (set_iff e _ _ networks_iff) in N1 as (o & N1 & ->). match goal with E : parse e (bs "LINKERD2_PROXY_POLICY_CLUSTER_NETWORKS"%string) _ = inl ?x |- _ => rewrite N1 in E; injection E as <- end.
        destruct N2 as (u & [s o' E (u' & -> & Q)|E]).
        - match goal with |- exists r, parse e _ (fun s => PolicyStoreModel.parse_default_policy s ?n ?t) = inl r => apply (PolicyStoreProofs.known_iff _ _ t) in Q as (d & Q) end.
          exists (Some d). unfold parse, get. rewrite E. cbn [bind]. rewrite Q. reflexivity.
        - exists None. unfold parse, get. rewrite E. reflexivity. }
      repeat forward1. finish. }
    repeat forward1. finish. }
  forward1. { unfold mk_dst. forward1; [exists (Some da); apply reached_iff, Da|]. apply reached_iff in Da. rewrite Da in Ea9. injection Ea9 as <-. cbn [bind]. forward1; [apply get_exists; assumption|]. finish. }
  forward1. { unfold mk_policy. apply reached_iff in Pa. rewrite Pa. cbn [bind]. forward1; [eexists; apply get_inl, W|]. apply get_inl in Ea10. rewrite W in Ea10. injection Ea10 as <-. cbn [bind]. forward1. finish. }
  do 4 forward1.
  forward1. { unfold mk_trace. destruct Tr as [[(t & T) Ho]|[T1 T2]].
    - apply reached_iff in T. rewrite T. cbn [bind]. forward1; [apply get_exists; exact Ho|]. finish.
    - assert (parse_control_addr parse_sock6 e (bs "LINKERD2_PROXY_TRACE_COLLECTOR_SVC"%string) = inl None) as -> by (apply unreached_iff; auto). finish. }
  forward1. { unfold mk_tap. do 2 forward1. match goal with |- context [match ?x with Some _ => _ | None => _ end] => destruct x; finish end. }
  forward1. { destruct I1 as [c tok dir m1 m2 n ta Hi Hs Ed Doc Et T E1 E2|u n ta api b Hi Hs Sc Eb].
    - match goal with |- exists r, mk_identity _ _ _ _ _ _ ?i ?o = inl r => exists (Linkerd (control_for (ct_addr c) i o) tok dir m1 m2 (AuthzModel.Dns n) n ta) end.
      apply mk_identity_iff. split; [apply From_linkerd; assumption|]. cbn [its_control control_for ct_addr]. auto.
    - eexists. apply mk_identity_iff. split; [apply From_spire; eassumption|exact I]. }
  forward1. finish.
Qed.
Lemma acceptance e : (exists c, config_of e = inl c) <-> acceptable_env e.
Proof. split; [intros (c & K); exact (accepted e c K)|apply acceptable_accepted]. Qed.

(** ** Backoffs *)
Lemma backoff_sane e base d b : sane d -> backoff_of parse_f64 e base d b -> sane b.
Proof. intros Sd (mn & mx & j & _ & _ & _ & [(_ & _ & _ & ->)|(_ & _ & Sb & _)]); assumption. Qed.
Lemma default_sane : sane DEFAULT_OUTBOUND_CONNECT_BACKOFF /\ sane DEFAULT_INBOUND_CONNECT_BACKOFF /\ sane DEFAULT_SPIRE_BACKOFF.
Proof. repeat split; try (vm_compute; congruence); exists (1 # 10)%Q; repeat split; vm_compute; congruence. Qed.
Lemma backoffs_sane e c : config_of e = inl c -> Forall sane (backoffs c).
Proof.
  intros K. pose proof (config_facts e c K) as [_ _ _ _ _ _ [B1 B2] _ _ _ Cl _ Id _ _]. destruct default_sane as (D1 & D2 & D3).
  apply (backoff_sane _ _ _ _ D1) in B1. apply (backoff_sane _ _ _ _ D2) in B2. unfold backoffs.
  apply Forall_cons; [exact B1|]. apply Forall_cons; [exact B2|]. apply Forall_app. split.
  - apply Forall_map. eapply Forall_impl; [|exact Cl]. intros x [_ Lo Re _ _ _ _]. destruct (is_loopback (ca_addr (ct_addr (snd x)))) eqn:L.
    + apply loopback_iff in L. rewrite (Lo L). exact B2.
    + apply loopback_false in L. rewrite (Re L). exact B1.
  - destruct (c_identity c) as [|i n ta api b]; [apply Forall_nil|]. inversion Id; subst. apply Forall_cons; [|apply Forall_nil]. eapply backoff_sane; eassumption.
Qed.
End Texts.
