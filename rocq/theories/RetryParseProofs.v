(** Lemmas about the retry policy and the per-request headers. *)
From Coq Require Import String List Arith NArith ZArith Bool Lia ZifyBool ZifyNat ZifyN.
From Verif Require Import Bytes BytesProofs FilterModel TraceModel PeekModel RetryModel RetrySpec.
Import ListNotations.
Open Scope N_scope.

(** ** The policy *)
Lemma in_ranges_iff l c : in_ranges l c = true <-> exists lo hi, In (lo, hi) l /\ lo <= c <= hi.
Proof.
  unfold in_ranges. rewrite existsb_exists. split.
  - intros ([lo hi] & H & E). exists lo, hi. cbn in E. split; [exact H|]. lia.
  - intros (lo & hi & H & E). exists (lo, hi). split; [exact H|]. cbn. lia.
Qed.
Lemma in_codes_iff l c : in_codes l c = true <-> In c l.
Proof.
  unfold in_codes. rewrite existsb_exists. split.
  - intros (x & H & E). apply N.eqb_eq in E. congruence.
  - intros H. exists c. split; [exact H|apply N.eqb_refl].
Qed.
Lemma to_str_id v s : to_str v = Some s -> s = v.
Proof. unfold to_str. destruct (forallb _ v); congruence. Qed.
Lemma parse_code_iff hs c : (match hm_get hs GRPC_STATUS with Some h => parse_code h | None => None end) = Some c <-> has_code hs c.
Proof.
  unfold has_code, parse_code. change (bs "grpc-status") with GRPC_STATUS. split.
  - intros H. destruct (hm_get hs GRPC_STATUS) as [v|]; [|discriminate]. exists v.
    destruct (to_str v) as [s|] eqn:E; [|discriminate]. pose proof (to_str_id _ _ E) as ->.
    split; [reflexivity|]. split; [reflexivity|].
    destruct (parse_i32 v) as [z|]; [|discriminate]. injection H as <-. now exists z.
  - intros (v & -> & Hs & z & Hz & ->). rewrite Hs, Hz. reflexivity.
Qed.
Lemma grpc_status_iff r c : grpc_status r = Some c <-> response_code r c.
Proof.
  unfold response_code. rewrite <- parse_code_iff. unfold grpc_status. change (bs "grpc-status") with GRPC_STATUS.
  destruct (hm_get (rs_headers r) GRPC_STATUS) as [h|].
  - split; [now left|]. intros [H|[H _]]; [exact H|discriminate].
  - destruct (peek_trailers (rs_body r)) as [t|].
    + rewrite parse_code_iff. split; [intros H; right; split; [reflexivity|now exists t]|].
      intros [H|[_ (t' & Ht & H)]]; [discriminate|]. injection Ht as <-. exact H.
    + split; [discriminate|]. intros [H|[_ (t' & Ht & H)]]; discriminate.
Qed.

Lemma retryable_response_iff p r : is_retryable p (Ok r) = true <-> wants_retry p r.
Proof.
  unfold is_retryable, wants_retry. 
  assert (Hg : (match p_grpc p with
         | Some codes => match grpc_status r with Some c => in_codes codes c | None => false end
         | None => false end) = true <-> exists codes c, p_grpc p = Some codes /\ response_code r c /\ In c codes).
  { destruct (p_grpc p) as [codes|].
    - destruct (grpc_status r) as [c|] eqn:E.
      + rewrite in_codes_iff. split.
        * intros H. exists codes, c. split; [reflexivity|]. split; [now apply grpc_status_iff|exact H].
        * intros (codes' & c' & Hc & Hr & Hi). injection Hc as <-. apply grpc_status_iff in Hr. congruence.
      + split; [discriminate|]. intros (codes' & c' & Hc & Hr & Hi). apply grpc_status_iff in Hr. congruence.
    - split; [discriminate|]. intros (codes' & c' & Hc & _). discriminate. }
  assert (Hh : (match p_http p with Some rs => in_ranges rs (rs_status r) | None => false end) = true <->
     exists ranges lo hi, p_http p = Some ranges /\ In (lo, hi) ranges /\ lo <= rs_status r <= hi).
  { destruct (p_http p) as [rs|].
    - rewrite in_ranges_iff. split; [intros (lo & hi & H); exists rs, lo, hi; tauto|].
      intros (ranges & lo & hi & E & H). injection E as <-. eauto.
    - split; [discriminate|]. intros (ranges & lo & hi & E & _). discriminate. }
  rewrite <- Hg, <- Hh. destruct (match p_grpc p with Some _ => _ | None => _ end); [tauto|].
  split; [tauto|]. intros [H|H]; [discriminate|exact H].
Qed.

Lemma find_first (f : cause -> bool) (kind : cause -> Prop) e c :
  (forall x, f x = true <-> kind x) -> (find f e = Some c <-> first_of kind e c).
Proof.
  intros Hf. unfold first_of. split.
  - induction e as [|x e IH]; cbn [find]; [discriminate|]. destruct (f x) eqn:E.
    + intros H. injection H as ->. exists [], e. split; [reflexivity|]. split; [now apply Hf|intros y []].
    + intros H. destruct (IH H) as (a & b & -> & Hk & Ha). exists (x :: a), b. split; [reflexivity|].
      split; [exact Hk|]. intros y [<-|Hy]; [rewrite <- Hf; congruence|auto].
  - intros (a & b & -> & Hk & Ha). induction a as [|x a IH]; cbn [app find].
    + apply Hf in Hk. now rewrite Hk.
    + destruct (f x) eqn:E; [exfalso; apply (Ha x); [now left|now apply Hf]|]. apply IH. intros y Hy. apply Ha. now right.
Qed.

Lemma retryable_error_iff p e : is_retryable p (Err e) = true <-> retryable_cause e.
Proof.
  unfold is_retryable, retryable_error, retryable_cause, caused_by.
  assert (H1 : existsb is_load_shed e = true <-> In LoadShed e).
  { rewrite existsb_exists. split; [intros (x & H & E); now destruct x|]. intros H. now exists LoadShed. }
  assert (H2 : existsb is_failfast e = true <-> In FailFast e).
  { rewrite existsb_exists. split; [intros (x & H & E); now destruct x|]. intros H. now exists FailFast. }
  assert (H3 : forall c, find is_timeout e = Some c <->
     first_of (fun c => c = TimeoutHeaders \/ c = TimeoutLifetime \/ c = TimeoutStream) e c).
  { intros c. apply find_first. intros x. destruct x; cbn; split; intros H; auto; try discriminate; destruct H as [?|[?|?]]; discriminate. }
  assert (H4 : forall c, find is_h2 e = Some c <-> first_of (fun c => exists r, c = H2Error r) e c).
  { intros c. apply find_first. intros x. destruct x; cbn; split; intros H; eauto; try discriminate; destruct H as [? ?]; discriminate. }
  rewrite <- H1, <- H2, <- H3, <- H4. clear.
  destruct (existsb is_load_shed e); [split; [discriminate|intros [H _]; now elim H]|].
  destruct (existsb is_failfast e); [split; [intros _; split; [discriminate|auto]|auto]|].
  assert (H5 : match find is_timeout e with Some TimeoutHeaders => true | _ => false end = true <-> find is_timeout e = Some TimeoutHeaders).
  { destruct (find is_timeout e) as [[]|]; split; congruence. }
  rewrite <- H5. destruct (match find is_timeout e with Some TimeoutHeaders => true | _ => false end).
  { split; [intros _; split; [discriminate|auto]|auto]. }
  assert (H6 : match find is_h2 e with Some (H2Error (Some r)) => r =? REFUSED_STREAM | _ => false end = true <-> find is_h2 e = Some (H2Error (Some 7))).
  { unfold REFUSED_STREAM. destruct (find is_h2 e) as [[| | | | |[r|]|]|]; try (split; congruence).
    rewrite N.eqb_eq. split; congruence. }
  rewrite <- H6. split; [intros H; split; [discriminate|auto]|]. intros (_ & [?|[?|?]]); auto; discriminate.
Qed.

Lemma extensions_after p t i : (1 <= i)%nat ->
  Nat.iter i (set_extensions p) (Ext (Some 1) (Some t)) =
  Ext (Some (N.min (N.of_nat i + 1) u16_max))
      (Some (if N.min (N.of_nat i + 1) u16_max <=? p_max_retries p then t
             else Timeouts None (to_end t) (to_idle t) (to_limit t))).
Proof.
  intros Hi. induction i as [|i IH]; [lia|].
  change (Nat.iter (S i) ?f ?x) with (f (Nat.iter i f x)). destruct i as [|i].
  - reflexivity.
  - rewrite IH by lia. unfold set_extensions. cbn [x_attempt x_timeouts option_map].
    replace (N.min (N.min (N.of_nat (S i) + 1) u16_max + 1) u16_max) with (N.min (N.of_nat (S (S i)) + 1) u16_max) by lia.
    f_equal. f_equal.
    destruct (N.leb_spec (N.min (N.of_nat (S (S i)) + 1) u16_max) (p_max_retries p)),
      (N.leb_spec (N.min (N.of_nat (S i) + 1) u16_max) (p_max_retries p)); try reflexivity. lia.
Qed.

(** ** Durations *)
Lemma decimal_dec d : decimal d = dec_value 0 d.
Proof.
  unfold decimal. generalize 0. induction d as [|c d IH]; intros a; [reflexivity|]. cbn [fold_left dec_value]. apply IH.
Qed.
Lemma digits_iff d : digits d <-> d <> [] /\ forallb is_digit d = true.
Proof.
  unfold digits. rewrite forallb_forall, Forall_forall. unfold is_digit. split; intros [H1 H2]; split; auto; intros x Hx; specialize (H2 x Hx); lia.
Qed.
Lemma number_iff max t n : n <= max -> (number t n <-> parse_uint max t = Some n).
Proof.
  intros Hn. rewrite parse_uint_some. unfold number. split.
  - intros (d & Hd & -> & H). exists d. apply digits_iff in Hd as [H1 H2]. rewrite decimal_dec in *. tauto.
  - intros (d & H & H1 & H2 & -> & _). exists d. rewrite digits_iff, decimal_dec. tauto.
Qed.

Lemma drop_blanks_spec s : exists w, s = w ++ drop_blanks s /\ blanks w.
Proof.
  induction s as [|c s (w & H & Hw)]; [exists []; split; [reflexivity|constructor]|]. cbn [drop_blanks]. unfold is_blank.
  destruct ((c =? 32) || (c =? 9)) eqn:E.
  - exists (c :: w). split; [cbn; congruence|]. constructor; [lia|exact Hw].
  - exists []. split; [reflexivity|constructor].
Qed.
Lemma drop_blanks_hd s c r : drop_blanks s = c :: r -> c <> 32 /\ c <> 9.
Proof.
  induction s as [|x s IH]; cbn [drop_blanks]; [discriminate|]. unfold is_blank.
  destruct ((x =? 32) || (x =? 9)) eqn:E; [exact IH|]. intros H. injection H as -> ->. lia.
Qed.
Lemma drop_blanks_app w x r : blanks w -> x <> 32 -> x <> 9 -> drop_blanks (w ++ x :: r) = x :: r.
Proof.
  intros Hw H1 H2. induction Hw as [|c w Hc Hw IH]; cbn [app drop_blanks]; unfold is_blank in *.
  - destruct ((x =? 32) || (x =? 9)) eqn:E; [lia|reflexivity].
  - destruct ((c =? 32) || (c =? 9)) eqn:E; [exact IH|lia].
Qed.
Lemma blanks_rev w : blanks w -> blanks (rev w).
Proof. unfold blanks. rewrite !Forall_forall. intros H x Hx. apply H. now apply in_rev. Qed.

Lemma trim_spec s : exists w1 w2, s = w1 ++ trim s ++ w2 /\ blanks w1 /\ blanks w2.
Proof.
  unfold trim. destruct (drop_blanks_spec s) as (w1 & H1 & B1).
  destruct (drop_blanks_spec (rev (drop_blanks s))) as (w2 & H2 & B2).
  exists w1, (rev w2). split; [|split; [exact B1|now apply blanks_rev]].
  rewrite H1 at 1. f_equal. rewrite <- rev_app_distr, <- H2. now rewrite rev_involutive.
Qed.
Lemma trim_app w1 x m y w2 : blanks w1 -> blanks w2 -> x <> 32 -> x <> 9 -> y <> 32 -> y <> 9 ->
  x :: m = (removelast (x :: m)) ++ [y] ->
  trim (w1 ++ (x :: m) ++ w2) = x :: m.
Proof.
  intros B1 B2 X1 X2 Y1 Y2 E. unfold trim. cbn [app]. rewrite drop_blanks_app by assumption.
  change (x :: m ++ w2) with ((x :: m) ++ w2). rewrite rev_app_distr.
  assert (Er : rev (x :: m) = y :: rev (removelast (x :: m))) by (rewrite E at 1; now rewrite rev_app_distr).
  rewrite Er. rewrite drop_blanks_app by (auto using blanks_rev). rewrite <- Er. apply rev_involutive.
Qed.

Lemma take_nondigits_spec s a b : take_nondigits s = (a, b) ->
  s = a ++ b /\ Forall (fun c => is_digit c = false) a /\ (b = [] \/ exists c r, b = c :: r /\ is_digit c = true).
Proof.
  revert a b; induction s as [|c s IH]; intros a b H; cbn [take_nondigits] in H.
  - injection H as <- <-. auto.
  - destruct (is_digit c) eqn:E.
    + injection H as <- <-. split; [reflexivity|]. split; [constructor|]. right. eauto.
    + destruct (take_nondigits s) as [a' b'] eqn:E'. injection H as <- <-.
      destruct (IH _ _ eq_refl) as (-> & Ha & Hb). split; [reflexivity|]. split; [now constructor|exact Hb].
Qed.
Lemma take_nondigits_app a c r : Forall (fun c => is_digit c = false) a -> is_digit c = true ->
  take_nondigits (a ++ c :: r) = (a, c :: r).
Proof.
  intros Ha Hc. induction Ha as [|x a Hx Ha IH]; cbn [app take_nondigits]; [now rewrite Hc|]. now rewrite Hx, IH.
Qed.

Lemma split_last_digit_some s m u : split_last_digit s = Some (m, u) ->
  s = m ++ u /\ Forall (fun c => is_digit c = false) u.
Proof.
  unfold split_last_digit. destruct (take_nondigits (rev s)) as [a b] eqn:E.
  destruct (take_nondigits_spec _ _ _ E) as (H1 & H2 & H3). intros H.
  destruct b as [|c r]; [discriminate|]. injection H as <- <-. split.
  - apply (f_equal (@rev N)) in H1. rewrite rev_involutive, rev_app_distr in H1. exact H1.
  - apply Forall_rev. exact H2.
Qed.
Lemma split_last_digit_app m c u : is_digit c = true -> Forall (fun c => is_digit c = false) u ->
  split_last_digit ((m ++ [c]) ++ u) = Some (m ++ [c], u).
Proof.
  intros Hc Hu. unfold split_last_digit. rewrite !rev_app_distr. cbn [rev app].
  rewrite take_nondigits_app; [|now apply Forall_rev|exact Hc]. cbn [rev]. now rewrite !rev_involutive.
Qed.

Lemma unit_ms_some u n mul : unit_ms u n = Some mul <-> duration_unit u mul \/ (u = [] /\ n = 0 /\ mul = 0).
Proof.
  unfold unit_ms.
  destruct (beq u [] && (n =? 0)) eqn:E0.
  { apply andb_true_iff in E0 as [E0 E1]. apply beq_eq in E0. subst u. apply N.eqb_eq in E1. subst n.
    split; [intros H; right; injection H as <-; auto|]. intros [H|H]; [inversion H|]. destruct H as (_ & _ & ->). reflexivity. }
  assert (Hn : ~ (u = [] /\ n = 0)).
  { intros [-> ->]. discriminate. }
  assert (Hor : forall P : Prop, (P -> duration_unit u mul) -> (duration_unit u mul -> P) -> (P <-> duration_unit u mul \/ (u = [] /\ n = 0 /\ mul = 0))) by (intros; tauto).
  destruct (beq u (bs "ms")) eqn:E1; [apply beq_eq in E1; subst u; apply Hor; intros H; [injection H as <-; constructor|now inversion H]|].
  destruct (beq u (bs "s")) eqn:E2; [apply beq_eq in E2; subst u; apply Hor; intros H; [injection H as <-; constructor|now inversion H]|].
  destruct (beq u (bs "m")) eqn:E3; [apply beq_eq in E3; subst u; apply Hor; intros H; [injection H as <-; constructor|now inversion H]|].
  destruct (beq u (bs "h")) eqn:E4; [apply beq_eq in E4; subst u; apply Hor; intros H; [injection H as <-; constructor|now inversion H]|].
  destruct (beq u (bs "d")) eqn:E5; [apply beq_eq in E5; subst u; apply Hor; intros H; [injection H as <-; constructor|now inversion H]|].
  apply Hor; intros H; [discriminate|]. destruct H; now rewrite beq_refl in *.
Qed.

Lemma unit_nondigit u mul : duration_unit u mul -> Forall (fun c => is_digit c = false) u /\
  (exists r y, u = r ++ [y] /\ y <> 32 /\ y <> 9) /\ forallb (fun b => ((32 <=? b) && (b <? 127)) || (b =? 9)) u = true.
Proof.
  intros H. destruct H; (split; [vm_compute; repeat constructor|split; [|reflexivity]]).
  - exists [109], 115. vm_compute. repeat split; discriminate.
  - exists [], 115. vm_compute. repeat split; discriminate.
  - exists [], 109. vm_compute. repeat split; discriminate.
  - exists [], 104. vm_compute. repeat split; discriminate.
  - exists [], 100. vm_compute. repeat split; discriminate.
Qed.

Lemma number_shape t n : number t n -> exists x m, t = x :: m /\ x <> 32 /\ x <> 9 /\
  (exists r c, t = r ++ [c] /\ is_digit c = true /\ c <> 32 /\ c <> 9) /\
  forallb (fun b => ((32 <=? b) && (b <? 127)) || (b =? 9)) t = true.
Proof.
  intros (d & Hd & _ & Ht). apply digits_iff in Hd as [Hne Hd].
  assert (Hl : exists r c, d = r ++ [c] /\ is_digit c = true).
  { destruct (exists_last Hne) as (r & c & ->). exists r, c. split; [reflexivity|].
    rewrite forallb_app in Hd. apply andb_true_iff in Hd as [_ Hd]. cbn in Hd. now rewrite andb_true_r in Hd. }
  destruct Hl as (r & c & E & Hc).
  assert (Hp : forallb (fun b => ((32 <=? b) && (b <? 127)) || (b =? 9)) d = true).
  { apply forallb_forall. intros z Hz. rewrite forallb_forall in Hd. specialize (Hd z Hz). unfold is_digit in Hd. lia. }
  assert (Hc' : c <> 32 /\ c <> 9) by (unfold is_digit in Hc; lia).
  destruct Ht as [->| ->].
  - destruct d as [|x m]; [easy|]. exists x, m.
    assert (is_digit x = true) by (cbn in Hd; now apply andb_true_iff in Hd). unfold is_digit in H.
    repeat split; try lia; eauto 10.
  - exists 43, d. repeat split; try lia.
    + exists (43 :: r), c. rewrite E. repeat split; tauto || auto.
    + exact Hp.
Qed.

Lemma parse_duration_iff v ms : parse_duration v = Some ms <-> duration_text v ms.
Proof.
  unfold parse_duration, duration_text. split.
  - intros H. destruct (to_str v) as [s|] eqn:Es; [|discriminate]. pose proof (to_str_id _ _ Es) as ->.
    destruct (split_last_digit (trim v)) as [[m u]|] eqn:Ed; [|discriminate].
    destruct (parse_uint u64_max m) as [n|] eqn:En; [|discriminate].
    destruct (unit_ms u n) as [mul|] eqn:Eu; [|discriminate].
    destruct (n * mul <=? u64_max) eqn:El; [|discriminate]. injection H as <-. apply N.leb_le in El.
    destruct (split_last_digit_some _ _ _ Ed) as [Et _]. destruct (trim_spec v) as (w1 & w2 & Hv & B1 & B2).
    assert (Hn : n <= u64_max) by (apply parse_uint_some in En; destruct En as (d & En); tauto).
    exists w1, m, n, u, w2. split; [rewrite Hv at 1; rewrite Et; now rewrite <- app_assoc|].
    split; [exact B1|]. split; [exact B2|]. split; [now apply (number_iff u64_max)|]. split; [exact Hn|].
    apply unit_ms_some in Eu as [Eu|(-> & -> & ->)]; [left; now exists mul|right; auto].
  - intros (w1 & t & n & u & w2 & -> & B1 & B2 & Ht & Hn & Hu).
    destruct (number_shape _ _ Ht) as (x & m & Ex & X1 & X2 & (r & c & Ec & Hc & C1 & C2) & Hp).
    assert (Hbl : forall w, blanks w -> forallb (fun b => ((32 <=? b) && (b <? 127)) || (b =? 9)) w = true).
    { intros w Hw. apply forallb_forall. intros z Hz. unfold blanks in Hw. rewrite Forall_forall in Hw. specialize (Hw z Hz). lia. }
    assert (Hu' : exists mul, unit_ms u n = Some mul /\ ms = n * mul /\ ms <= u64_max /\
       Forall (fun c => is_digit c = false) u /\ (exists r y, t ++ u = r ++ [y] /\ y <> 32 /\ y <> 9) /\
       forallb (fun b => ((32 <=? b) && (b <? 127)) || (b =? 9)) u = true).
    { destruct Hu as [(mul & Hu & -> & Hle)|(-> & -> & ->)].
      - exists mul. destruct (unit_nondigit _ _ Hu) as (U1 & (r' & y & -> & Y1 & Y2) & U3).
        split; [apply unit_ms_some; now left|]. repeat split; auto. exists (t ++ r'), y. rewrite app_assoc. auto.
      - exists 0. split; [apply unit_ms_some; right; auto|]. repeat split; [lia|constructor|].
        exists r, c. rewrite app_nil_r. auto. }
    destruct Hu' as (mul & Eu & -> & Hle & Hnd & (r' & y & Ey & Y1 & Y2) & Hpu).
    assert (Es : to_str (w1 ++ t ++ u ++ w2) = Some (w1 ++ t ++ u ++ w2)).
    { unfold to_str. rewrite !forallb_app, (Hbl w1 B1), (Hbl w2 B2), Hp, Hpu. reflexivity. }
    rewrite Es.
    assert (Etr : trim (w1 ++ t ++ u ++ w2) = t ++ u).
    { rewrite (app_assoc t u w2). rewrite Ex. cbn [app]. rewrite Ex in Ey. cbn [app] in Ey.
      change (w1 ++ (x :: m ++ u) ++ w2) with (w1 ++ (x :: (m ++ u)) ++ w2).
      apply (trim_app w1 x (m ++ u) y w2 B1 B2 X1 X2 Y1 Y2). rewrite Ey. now rewrite removelast_last. }
    rewrite Etr. rewrite Ec at 1. rewrite split_last_digit_app by assumption. rewrite <- Ec.
    apply (number_iff u64_max) in Ht; [|exact Hn]. rewrite Ht, Eu.
    destruct (N.leb_spec (n * mul) u64_max); [reflexivity|lia].
Qed.

(** ** Conditions *)
Lemma to_code_iff t n : to_code t = Some n <-> status_code t n.
Proof.
  unfold to_code, status_code. split.
  - destruct (parse_uint u16_max t) as [c|] eqn:E; [|discriminate].
    destruct ((100 <=? c) && (c <? 600)) eqn:El; [|discriminate]. intros H. injection H as <-.
    split; [|lia]. apply (number_iff u16_max); [unfold u16_max; lia|exact E].
  - intros [H Hr]. apply (number_iff u16_max) in H; [|unfold u16_max; lia]. rewrite H.
    destruct ((100 <=? n) && (n <? 600)) eqn:El; [reflexivity|lia].
Qed.

Lemma number_no_dash t n : number t n -> ~ In 45 t.
Proof.
  intros (d & Hd & _ & Ht) Hi. destruct Hd as [_ Hd]. rewrite Forall_forall in Hd.
  assert (In 45 d).
  { destruct Ht as [->| ->]; [exact Hi|]. destruct Hi as [Hi|Hi]; [discriminate|exact Hi]. }
  specialize (Hd 45 H). lia.
Qed.

Lemma number_fun t n n' : number t n -> number t n' -> n = n'.
Proof.
  intros H H'. apply (number_iff (N.max n n')) in H; [|lia]. apply (number_iff (N.max n n')) in H'; [|lia]. congruence.
Qed.

Lemma http_condition_iff t c : (exists lo hi, http_condition t = Some (lo, hi) /\ lo <= c <= hi) <-> condition t c.
Proof.
  unfold http_condition, condition.
  destruct (eq_ignore_case t (bs "5xx")) eqn:E1.
  { apply eq_ignore_case_iff in E1. change (lowers (bs "5xx")) with (bs "5xx") in E1. split.
    - intros (lo & hi & H & Hc). injection H as <- <-. now left.
    - assert (Hno : forall n, ~ number t n).
      { intros n (d & Hd & _ & Ht). destruct Hd as [_ Hd]. rewrite Forall_forall in Hd.
        destruct t as [|t1 [|t2 t]]; try discriminate. injection E1 as E1 E2 E3.
        assert (Ht2 : In t2 d) by (destruct Ht as [Ht|Ht]; [rewrite <- Ht; right; now left|injection Ht as _ <-; now left]).
        specialize (Hd t2 Ht2). unfold lower in E2. destruct ((65 <=? t2) && (t2 <=? 90)) eqn:E; lia. }
      intros [[_ Hc]|[[H _]|[[H _]|(a & b & s & e & Ht & [Ha _] & [Hb _] & _)]]].
      + exists 500, 599. auto.
      + rewrite H in E1. discriminate.
      + elim (Hno _ H).
      + exfalso. destruct t as [|t1 [|t2 [|t3 t]]]; try discriminate. injection E1 as E1 E2 E3 E4.
        assert (Hin : In 45 [t1; t2; t3]).
        { destruct t; [|discriminate]. rewrite Ht. apply in_app_iff. right. apply in_app_iff. left. now left. }
        destruct Hin as [->|[->|[->|[]]]]; vm_compute in E1, E2, E3; discriminate. }
  destruct (eq_ignore_case t (bs "gateway-error")) eqn:E2.
  { apply eq_ignore_case_iff in E2. change (lowers (bs "gateway-error")) with (bs "gateway-error") in E2. split.
    - intros (lo & hi & H & Hc). injection H as <- <-. auto.
    - intros [[H _]|[[_ Hc]|[[H _]|(a & b & s & e & Ht & [Ha _] & [Hb _] & _)]]].
      + rewrite H in E2. discriminate.
      + exists 502, 504. auto.
      + exfalso. destruct t as [|t1 [|t2 t]]; try discriminate. injection E2 as E2 E3 _. destruct H as (d & [_ Hd] & _ & Ht).
        rewrite Forall_forall in Hd. destruct Ht as [Ht|Ht].
        * specialize (Hd t1). rewrite <- Ht in Hd. specialize (Hd (or_introl eq_refl)). unfold lower in E2. destruct ((65 <=? t1) && (t1 <=? 90)) eqn:E; lia.
        * injection Ht as -> _. discriminate.
      + exfalso. destruct Ha as (d & [Hne Hd] & _ & Hta). destruct t as [|t1 t]; [discriminate|]. injection E2 as E2 _.
        rewrite Forall_forall in Hd. destruct Hta as [->| ->].
        * destruct d as [|x d]; [easy|]. injection Ht as -> _. specialize (Hd x (or_introl eq_refl)). unfold lower in E2. destruct ((65 <=? x) && (x <=? 90)) eqn:E; lia.
        * injection Ht as -> _. discriminate. }
  assert (N1 : lowers t <> bs "5xx").
  { intros H. assert (eq_ignore_case t (bs "5xx") = true) by now apply eq_ignore_case_iff. congruence. }
  assert (N2 : lowers t <> bs "gateway-error").
  { intros H. assert (eq_ignore_case t (bs "gateway-error") = true) by now apply eq_ignore_case_iff. congruence. }
  destruct (to_code t) as [n|] eqn:E3.
  { apply to_code_iff in E3. split.
    - intros (lo & hi & H & Hc). injection H as <- <-. replace c with n by lia. auto.
    - intros [[H _]|[[H _]|[H|(a & b & s & e & Ht & _)]]]; try contradiction.
      + exists n, n. split; [reflexivity|]. destruct E3 as [E3 _], H as [H _]. rewrite (number_fun _ _ _ H E3). lia.
      + exfalso. destruct E3 as [E3 _]. apply (number_no_dash _ _ E3). rewrite Ht. apply in_app_iff. right. now left. }
  destruct (split_once 45 t) as [[a b]|] eqn:E4.
  - pose proof (proj1 (split_once_some _ _ _ _) E4) as [Ht Hna]. split.
    + intros (lo & hi & H & Hc). destruct (to_code a) as [s|] eqn:Ea; [|discriminate]. destruct (to_code b) as [e|] eqn:Eb; [|discriminate].
      destruct (s <=? e) eqn:El; [|discriminate]. injection H as <- <-.
      right. right. right. exists a, b, s, e. split; [exact Ht|]. split; [now apply to_code_iff|]. split; [now apply to_code_iff|exact Hc].
    + intros [[H _]|[[H _]|[H|(a' & b' & s & e & Ht' & Ha & Hb & Hc)]]]; try contradiction.
      * apply to_code_iff in H. congruence.
      * assert (E : split_once 45 t = Some (a', b')).
        { apply split_once_some. split; [exact Ht'|]. destruct Ha as [Ha _]. apply (number_no_dash _ _ Ha). }
        rewrite E4 in E. injection E as <- <-. apply to_code_iff in Ha, Hb. rewrite Ha, Hb.
        exists s, e. split; [|exact Hc]. destruct (s <=? e) eqn:El; [reflexivity|lia].
  - split; [intros (lo & hi & H & _); discriminate|].
    intros [[H _]|[[H _]|[H|(a' & b' & s & e & Ht' & _)]]]; try contradiction.
    + apply to_code_iff in H. congruence.
    + apply split_once_none in E4. elim E4. rewrite Ht'. apply in_app_iff. right. now left.
Qed.

Lemma filter_map_in {A B} (f : A -> option B) l y : In y (filter_map f l) <-> exists x, In x l /\ f x = Some y.
Proof.
  induction l as [|x l IH]; cbn [filter_map].
  - split; [intros []|]. intros (x & [] & _).
  - destruct (f x) as [z|] eqn:E; cbn [In]; rewrite IH; split.
    + intros [<-|(x' & H1 & H2)]; [exists x; auto|exists x'; auto].
    + intros (x' & [<-|H1] & H2); [left; congruence|right; eauto].
    + intros (x' & H1 & H2); exists x'; auto.
    + intros (x' & [<-|H1] & H2); [congruence|eauto].
Qed.

Lemma split_items s l : items s l -> split 44 s = l.
Proof.
  intros (Hne & -> & Hl). induction Hl as [|x l Hx Hl IH]; [easy|].
  destruct l as [|y l].
  - cbn [join]. now apply split_none.
  - change (join 44 (x :: y :: l)) with (x ++ 44 :: join 44 (y :: l)). rewrite split_app_sep by exact Hx. rewrite IH by discriminate. reflexivity.
Qed.
Lemma items_split s : items s (split 44 s).
Proof.
  split; [apply split_nonempty|]. split; [now rewrite split_join|].
  apply Forall_forall. intros x Hx. now apply (split_no_sep 44 s).
Qed.

Lemma http_conditions_iff s l c : items s l ->
  (in_ranges (parse_http_conditions s) c = true <-> exists t, In t l /\ condition t c).
Proof.
  intros H. unfold parse_http_conditions. rewrite (split_items _ _ H), in_ranges_iff. split.
  - intros (lo & hi & Hi & Hc). apply filter_map_in in Hi as (t & Ht & E). exists t. split; [exact Ht|].
    apply http_condition_iff. eauto.
  - intros (t & Ht & Hc). apply http_condition_iff in Hc as (lo & hi & E & Hc). exists lo, hi. split; [|exact Hc].
    apply filter_map_in. eauto.
Qed.

Lemma grpc_condition_iff t c : grpc_condition t = Some c <-> grpc_name t c.
Proof.
  unfold grpc_condition, grpc_name.
  destruct (eq_ignore_case t (bs "cancelled")) eqn:E1; [apply eq_ignore_case_iff in E1; rewrite E1; clear|].
  { split; [intros H; injection H as <-; now left|]. intros [H|[H|[H|[H|[H|[]]]]]]; vm_compute in H; congruence. }
  destruct (eq_ignore_case t (bs "deadline-exceeded")) eqn:E2; [apply eq_ignore_case_iff in E2; rewrite E2; clear|].
  { split; [intros H; injection H as <-; right; now left|]. intros [H|[H|[H|[H|[H|[]]]]]]; vm_compute in H; congruence. }
  destruct (eq_ignore_case t (bs "internal")) eqn:E3; [apply eq_ignore_case_iff in E3; rewrite E3; clear|].
  { split; [intros H; injection H as <-; right; right; now left|]. intros [H|[H|[H|[H|[H|[]]]]]]; vm_compute in H; congruence. }
  destruct (eq_ignore_case t (bs "resource-exhausted")) eqn:E4; [apply eq_ignore_case_iff in E4; rewrite E4; clear|].
  { split; [intros H; injection H as <-; do 3 right; now left|]. intros [H|[H|[H|[H|[H|[]]]]]]; vm_compute in H; congruence. }
  destruct (eq_ignore_case t (bs "unavailable")) eqn:E5; [apply eq_ignore_case_iff in E5; rewrite E5; clear|].
  { split; [intros H; injection H as <-; do 4 right; now left|]. intros [H|[H|[H|[H|[H|[]]]]]]; vm_compute in H; congruence. }
  split; [discriminate|]. unfold eq_ignore_case in *. apply beq_neq in E1, E2, E3, E4, E5.
  intros [H|[H|[H|[H|[H|[]]]]]]; injection H as H _; exfalso; [apply E1|apply E2|apply E3|apply E4|apply E5]; symmetry; exact H.
Qed.

Lemma grpc_conditions_iff s l c : items s l ->
  (in_codes (parse_grpc_conditions s) c = true <-> exists t, In t l /\ grpc_name t c).
Proof.
  intros H. unfold parse_grpc_conditions. rewrite (split_items _ _ H), in_codes_iff, filter_map_in.
  split; intros (t & Ht & E); exists t; split; auto; now apply grpc_condition_iff.
Qed.

(** ** Configuration *)
Definition remove_all (names : list bytes) (hs : headers) : headers := fold_left hm_remove names hs.

Lemma remove_all_filter names hs :
  remove_all names hs = filter (fun kv => negb (existsb (beq (fst kv)) names)) hs.
Proof.
  revert hs; induction names as [|n names IH]; intros hs.
  - cbn. induction hs as [|h hs IHh]; cbn; congruence.
  - cbn [remove_all fold_left]. fold (remove_all names (hm_remove hs n)). rewrite IH. unfold hm_remove.
    clear IH. induction hs as [|[k v] hs IH]; [reflexivity|]. cbn [filter existsb fst].
    destruct (beq k n); cbn [negb orb filter fst]; [exact IH|].
    destruct (existsb (beq k) names); cbn [negb]; [exact IH|now rewrite IH].
Qed.

Lemma hm_get_remove hs n m : n <> m -> hm_get (hm_remove hs n) m = hm_get hs m.
Proof.
  intros Hn. unfold hm_get, hm_remove. induction hs as [|[k v] hs IH]; [reflexivity|]. cbn [filter fst find].
  destruct (beq k n) eqn:E; cbn [negb find fst].
  - apply beq_eq in E. subst k. destruct (beq n m) eqn:E'; [apply beq_eq in E'; contradiction|exact IH].
  - destruct (beq k m); [reflexivity|exact IH].
Qed.

Ltac names := let H := fresh in intros H; vm_compute in H; discriminate.

Lemma configured pa hs : pa_allow pa = true ->
  let v n := hm_get hs n in
  let http := bind (v H_HTTP) (fun v => option_map parse_http_conditions (to_str v)) in
  let grpc := bind (v H_GRPC) (fun v => option_map parse_grpc_conditions (to_str v)) in
  let limit := bind (v H_LIMIT) (fun v => bind (to_str v) (parse_uint u64_max)) in
  let timeout := bind (v H_RTIMEOUT) parse_duration in
  let '(retry, x, hs') := set_request_extensions pa hs in
  hs' = remove_all own_headers hs /\
  retry = (match pa_retry pa with
    | Some r => Some (Policy (or timeout (p_timeout r)) (or http (p_http r)) (or grpc (p_grpc r))
                 (match limit with Some l => l | None => p_max_retries r end) (p_max_bytes r) (p_backoff r))
    | None => match http, grpc, limit, timeout with
        | None, None, None, None => None
        | _, _, _, _ => Some (Policy timeout http grpc (match limit with Some l => l | None => 1 end) 65536 (Some (25, 250)))
        end
    end) /\
  x = Ext (Some 1) (Some (Timeouts (bind retry p_timeout)
        (or (bind (v H_RESPONSE) parse_duration) (pa_response pa)) (pa_idle pa)
        (or (bind (v H_REQUEST) parse_duration) (or (bind (v H_TIMEOUT) parse_duration) (pa_request pa))))).
Proof.
  intros Ha. cbv zeta. unfold set_request_extensions, configure_retry, configure_timeouts, take_header.
  rewrite Ha. cbn [negb].
  repeat (rewrite hm_get_remove by names).
  set (G1 := bind (hm_get hs H_HTTP) _). set (G2 := bind (hm_get hs H_GRPC) _). set (G3 := bind (hm_get hs H_LIMIT) _).
  set (G4 := bind (hm_get hs H_RTIMEOUT) _).
  assert (Hx : forall o (hs1 : headers), hs1 = hm_remove (hm_remove (hm_remove (hm_remove hs H_HTTP) H_GRPC) H_LIMIT) H_RTIMEOUT ->
    let '(retry, x, hs') := (let '(retry, hs) := (o : option policy, hs1) in
       let '(t, hs) := (Timeouts None (or (bind (hm_get (hm_remove (hm_remove hs H_TIMEOUT) H_REQUEST) H_RESPONSE) parse_duration) (pa_response pa)) (pa_idle pa)
           (or (bind (hm_get (hm_remove hs H_TIMEOUT) H_REQUEST) parse_duration) (or (bind (hm_get hs H_TIMEOUT) parse_duration) (pa_request pa))),
           hm_remove (hm_remove (hm_remove hs H_TIMEOUT) H_REQUEST) H_RESPONSE) in
       (retry, Ext (Some 1) (Some (Timeouts (bind retry p_timeout) (to_end t) (to_idle t) (to_limit t))), hs)) in
    hs' = remove_all own_headers hs /\ retry = o /\
    x = Ext (Some 1) (Some (Timeouts (bind retry p_timeout)
        (or (bind (hm_get hs H_RESPONSE) parse_duration) (pa_response pa)) (pa_idle pa)
        (or (bind (hm_get hs H_REQUEST) parse_duration) (or (bind (hm_get hs H_TIMEOUT) parse_duration) (pa_request pa)))))).
  { intros o hs1 ->. cbn [to_end to_idle to_limit]. repeat (rewrite hm_get_remove by names). repeat split. }
  destruct (pa_retry pa) as [r|]; [apply Hx; reflexivity|].
  destruct G1, G2, G3, G4; apply Hx; reflexivity.
Qed.

Lemma not_allowed pa hs : pa_allow pa = false ->
  set_request_extensions pa hs =
  (pa_retry pa, Ext (Some 1) (Some (Timeouts (bind (pa_retry pa) p_timeout) (pa_response pa) (pa_idle pa) (pa_request pa))), hs).
Proof.
  intros Ha. unfold set_request_extensions, configure_retry, configure_timeouts. rewrite Ha. reflexivity.
Qed.

Lemma headers_removed pa hs : pa_allow pa = true ->
  let '(_, _, hs') := set_request_extensions pa hs in
  (forall n v, In (n, v) hs' <-> In (n, v) hs /\ ~ In n own_headers) /\
  forall n, ~ In n own_headers -> filter (fun kv => beq (fst kv) n) hs' = filter (fun kv => beq (fst kv) n) hs.
Proof.
  intros Ha. pose proof (configured pa hs Ha) as H. cbv zeta in H.
  destruct (set_request_extensions pa hs) as [[retry x] hs']. destruct H as (-> & _). rewrite remove_all_filter.
  assert (Hex : forall k names, existsb (beq k) names = true <-> In k names).
  { intros k names. rewrite existsb_exists. split; [intros (y & H & E); apply beq_eq in E; congruence|].
    intros H. exists k. split; [exact H|apply beq_refl]. }
  split.
  - intros n v. rewrite filter_In. cbn [fst]. rewrite negb_true_iff, <- not_true_iff_false, Hex. reflexivity.
  - intros n Hn. generalize own_headers Hn. intros names Hn'. induction hs as [|[k w] hs IH]; [reflexivity|]. cbn [filter fst].
    destruct (existsb (beq k) names) eqn:E; cbn [negb].
    + apply Hex in E. destruct (beq k n) eqn:Ek; [|exact IH]. apply beq_eq in Ek. congruence.
    + cbn [filter fst]. destruct (beq k n); [now rewrite IH|exact IH].
Qed.
