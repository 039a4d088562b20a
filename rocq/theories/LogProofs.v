(** Proofs about the access log. *)
From Coq Require Import String List NArith Arith Bool Lia.
From Verif Require Import Bytes BytesProofs FilterModel TraceModel TraceSpec TraceProofs Http1Model LogModel LogSpec.
Import ListNotations.
Open Scope N_scope.

(** ** Futures *)

Definition first (fmt : format) (b : begun) : future :=
  Future (on_new_span fmt (new_span (b_conn b) (b_now b) (b_asked b))) (b_start b) 0 false.
Fixpoint after (f : future) (ps : list polled) : option future :=
  match ps with [] => Some f | p :: ps => if f_done f then None else after (poll f p) ps end.
Lemma after_snoc ps : forall f p, after f (ps ++ [p]) =
  match after f ps with Some g => if f_done g then None else Some (poll g p) | None => None end.
Proof.
  induction ps as [|x ps IH]; intros f p; cbn [app after]; [destruct (f_done f); reflexivity|].
  destruct (f_done f); [reflexivity|]. apply IH.
Qed.
Definition pending (p : polled) : Prop := p_outcome p = Pending.
Lemma after_shape ps : forall f g, f_done f = false -> after f ps = Some g ->
  (Forall pending ps /\ g = Future (f_text f) (f_start f) (f_processing f + busy ps) false) \/
  exists ps' p, ps = ps' ++ [p] /\ Forall pending ps' /\ ~ pending p /\
    g = poll (Future (f_text f) (f_start f) (f_processing f + busy ps') false) p.
Proof.
  induction ps as [|p ps IH]; intros f g D H; cbn [after] in H.
  - injection H as <-. left. split; [constructor|]. destruct f as [t0 s0 p0 d0]; cbn [busy fold_right f_text f_start f_processing f_done] in *. subst. now rewrite N.add_0_r.
  - rewrite D in H. destruct (p_outcome p) eqn:E.
    + destruct (IH (poll f p) g) as [[F ->]|(ps' & q & -> & F & Q & ->)]; try assumption.
      * unfold poll. rewrite E. reflexivity.
      * left. split; [constructor; assumption|]. unfold poll. rewrite E. cbn [f_text f_start f_processing busy fold_right]. f_equal. unfold busy. lia.
      * right. exists (p :: ps'), q. split; [reflexivity|]. split; [constructor; assumption|]. split; [exact Q|].
        f_equal. unfold poll. rewrite E. cbn [f_text f_start f_processing busy fold_right]. f_equal. unfold busy. lia.
    + destruct ps; cbn [after] in H; [|unfold poll in H; rewrite E in H; discriminate]. injection H as <-.
      right. exists [], p. split; [reflexivity|]. split; [constructor|]. split; [unfold pending; congruence|].
      unfold poll. rewrite E. cbn [f_text f_start f_processing busy fold_right]. now rewrite N.add_0_r.
    + destruct ps; cbn [after] in H; [|unfold poll in H; rewrite E in H; discriminate]. injection H as <-.
      right. exists [], p. split; [reflexivity|]. split; [constructor|]. split; [unfold pending; congruence|].
      unfold poll. rewrite E. cbn [f_text f_start f_processing busy fold_right]. now rewrite N.add_0_r.
Qed.
Lemma no_responses ps : Forall pending ps -> responses ps = [].
Proof. induction 1 as [|p ps H F IH]; [reflexivity|]. unfold responses in *. cbn [flat_map]. rewrite H, IH. reflexivity. Qed.
Lemma responses_app a b : responses (a ++ b) = responses a ++ responses b.
Proof. apply flat_map_app. Qed.
Lemma busy_app a b : busy (a ++ b) = busy a + busy b.
Proof. induction a as [|p a IH]; [reflexivity|]. unfold busy in *. cbn [app fold_right]. rewrite IH. lia. Qed.

(** The records of a response *)
Definition records (r : answered) (total processing : N) : fields :=
  match get_header_str (s_headers r) (bs "content-length"%string) with
  | Some x => [(bs "response_bytes"%string, Str x)]
  | None => []
  end ++
  [(bs "status"%string, Num (s_status r)); (bs "total_ns"%string, Str (to_dec total)); (bs "processing_ns"%string, Str (to_dec processing))].
Lemma on_record_app t a b : on_record (on_record t a) b = on_record t (a ++ b).
Proof. destruct t; cbn [on_record]; f_equal; [rewrite map_app, concat_app, app_assoc; reflexivity|now rewrite fold_left_app]. Qed.
Lemma on_record_nil t : on_record t [] = t.
Proof. destruct t; cbn; [rewrite app_nil_r|]; reflexivity. Qed.
Lemma text_after fmt b ps g : after (first fmt b) ps = Some g ->
  (responses ps = [] /\ f_text g = on_new_span fmt (new_span (b_conn b) (b_now b) (b_asked b))) \/
  exists r, responses ps = [r] /\
    f_text g = on_record (on_new_span fmt (new_span (b_conn b) (b_now b) (b_asked b))) (records r (ended ps - b_start b) (busy ps)).
Proof.
  intros H. apply after_shape in H; [|reflexivity]. cbn [first f_text f_start f_processing] in H.
  destruct H as [[F ->]|(ps' & p & -> & F & Q & ->)].
  - left. split; [apply no_responses; exact F|reflexivity].
  - rewrite responses_app, (no_responses ps' F). cbn [app]. unfold pending in Q. unfold poll.
    destruct (p_outcome p) as [| |r] eqn:E; [congruence| |].
    + left. unfold responses. cbn [flat_map]. rewrite E. split; reflexivity.
    + right. exists r. unfold responses. cbn [flat_map]. rewrite E. split; [reflexivity|]. cbn [f_text f_start f_processing].
      unfold records, ended. rewrite map_app. cbn [map]. rewrite last_last. rewrite busy_app. unfold busy at 2. cbn [fold_right].
      replace (p_to p - p_from p + (0 + busy ps')) with (busy ps' + (p_to p - p_from p + 0)) by lia.
      destruct (get_header_str _ _); rewrite !on_record_app; reflexivity.
Qed.

(** ** The history *)

Lemma run_snoc h : forall w e, run w (h ++ [e]) = match run w h with Some v => step v e | None => None end.
Proof.
  induction h as [|x h IH]; intros w e; cbn [app run]; [destruct (step w e); reflexivity|]. destruct (step w x); [apply IH|reflexivity].
Qed.
Lemma begins_snoc h e : begins (h ++ [e]) = begins h ++ begins [e].
Proof. apply flat_map_app. Qed.
Lemma polls_snoc i h e : polls_of i (h ++ [e]) = polls_of i h ++ polls_of i [e].
Proof. apply flat_map_app. Qed.
Lemma drops_snoc h e : drops (h ++ [e]) = drops h ++ drops [e].
Proof. apply flat_map_app. Qed.
Lemma set_length {A} (l : list A) : forall i x, List.length (set l i x) = List.length l.
Proof. induction l as [|y l IH]; intros [|i] x; cbn; auto. Qed.
Lemma nth_set {A} (l : list A) : forall i x j, nth_error (set l i x) j =
  if Nat.eqb i j then match nth_error l i with Some _ => Some x | None => None end else nth_error l j.
Proof.
  induction l as [|y l IH]; intros [|i] x [|j]; cbn; auto. destruct (Nat.eqb i j); reflexivity.
Qed.

Record inv (fmt : format) (h : list event) (w : world) : Prop := {
  i_format : w_format w = Some fmt;
  i_length : List.length (w_requests w) = List.length (begins h);
  i_polls : forall i, (List.length (begins h) <= i)%nat -> polls_of i h = [] /\ ~ In i (drops h);
  i_request : forall i b, nth_error (begins h) i = Some b -> exists f, after (first fmt b) (polls_of i h) = Some f /\
    ((nth_error (w_requests w) i = Some (Some f) /\ ~ In i (drops h)) \/ (nth_error (w_requests w) i = Some None /\ In i (drops h)));
  i_written : Forall2 (fun i t => exists b f, nth_error (begins h) i = Some b /\ after (first fmt b) (polls_of i h) = Some f /\ t = f_text f)
    (drops h) (w_written w);
  i_once : NoDup (drops h)
}.
Lemma Forall2_imp {A B} (P Q : A -> B -> Prop) l m : (forall a b, In a l -> P a b -> Q a b) -> Forall2 P l m -> Forall2 Q l m.
Proof.
  intros H F. induction F as [|a b l m Hab F IH]; constructor; [apply H; [left; reflexivity|exact Hab]|].
  apply IH. intros x y Hx. apply H. right. exact Hx.
Qed.
Lemma NoDup_snoc {A} (l : list A) x : NoDup l -> ~ In x l -> NoDup (l ++ [x]).
Proof.
  intros N I. apply (NoDup_Add (l := l) (a := x)). { rewrite <- (app_nil_r l) at 1. apply Add_app. }
  split; assumption.
Qed.
Lemma invariant env fmt : access_log_format env = Some fmt -> forall h w, run (start env) h = Some w -> inv fmt h w.
Proof.
  intros A. induction h as [|e h IH] using rev_ind; intros w H.
  - injection H as <-. split; cbn; auto.
    + intros i b Hb. destruct i; discriminate.
    + constructor.
  - rewrite run_snoc in H. destruct (run (start env) h) as [v|] eqn:R; [|discriminate].
    destruct (IH v eq_refl) as [I1 I2 I3 I4 I5 I6]. clear IH.
    destruct e as [c now q t|i p|i]; cbn [step] in H.
    + injection H as <-. rewrite I1. cbn [call].
      assert (B : begins [Begins c now q t] = [Begun c now q t]) by reflexivity.
      assert (P : forall i, polls_of i (h ++ [Begins c now q t]) = polls_of i h) by (intros i; rewrite polls_snoc; apply app_nil_r).
      assert (D : drops (h ++ [Begins c now q t]) = drops h) by (rewrite drops_snoc; apply app_nil_r).
      split; cbn [w_format w_requests w_written].
      * reflexivity.
      * rewrite begins_snoc, B, !app_length, I2. reflexivity.
      * intros i Hi. rewrite P, D. apply I3. rewrite begins_snoc, app_length in Hi. lia.
      * intros i b Hb. rewrite P, D. rewrite begins_snoc, B in Hb.
        destruct (Nat.lt_ge_cases i (List.length (begins h))) as [L|L].
        -- rewrite nth_error_app1 in Hb by exact L. rewrite nth_error_app1 by lia. apply I4. exact Hb.
        -- rewrite nth_error_app2 in Hb by exact L. rewrite nth_error_app2 by lia. rewrite I2.
           destruct (I3 i L) as [Pn Dn]. rewrite Pn. destruct (i - List.length (begins h))%nat as [|k]; [|destruct k; discriminate].
           cbn [nth_error] in Hb |- *. injection Hb as <-. eexists. split; [reflexivity|]. left. split; [reflexivity|exact Dn].
      * rewrite D. eapply Forall2_imp; [|exact I5]. cbn. intros i x _ (b & f & Hb & Hf & ->). exists b, f. rewrite P.
        split; [|split; [exact Hf|reflexivity]]. rewrite begins_snoc, nth_error_app1; [exact Hb|]. apply nth_error_Some. congruence.
      * rewrite D. exact I6.
    + destruct (nth_error (w_requests v) i) as [[f|]|] eqn:E; [|rewrite I1 in H; discriminate|discriminate].
      destruct (f_done f) eqn:Df; [discriminate|]. injection H as <-.
      assert (B : begins (h ++ [Polled i p]) = begins h) by (rewrite begins_snoc; apply app_nil_r).
      assert (D : drops (h ++ [Polled i p]) = drops h) by (rewrite drops_snoc; apply app_nil_r).
      assert (P : forall j, polls_of j (h ++ [Polled i p]) = polls_of j h ++ if Nat.eqb i j then [p] else []).
      { intros j. rewrite polls_snoc. f_equal. unfold polls_of. cbn [flat_map]. destruct (Nat.eqb i j); reflexivity. }
      assert (L : (i < List.length (begins h))%nat) by (rewrite <- I2; apply nth_error_Some; congruence).
      assert (Dn : ~ In i (drops h)).
      { destruct (nth_error (begins h) i) as [b|] eqn:Eb; [|apply nth_error_None in Eb; lia].
        destruct (I4 i b Eb) as (f' & _ & [[_ N]|[N _]]); [exact N|congruence]. }
      split; cbn [w_format w_requests w_written]; rewrite ?B, ?D.
      * exact I1.
      * rewrite set_length. exact I2.
      * intros j Hj. rewrite P. destruct (I3 j Hj) as [Pn Dj]. rewrite Pn. split; [|exact Dj].
        destruct (Nat.eqb i j) eqn:Ej; [apply Nat.eqb_eq in Ej; lia|reflexivity].
      * intros j b Hb. rewrite P, nth_set, E. destruct (Nat.eqb i j) eqn:Ej.
        -- apply Nat.eqb_eq in Ej. subst j. destruct (I4 i b Hb) as (f' & Hf & [[N1 N2]|[N1 _]]); [|congruence].
           assert (f' = f) by congruence. subst f'. exists (poll f p). rewrite after_snoc, Hf, Df. split; [reflexivity|]. left. split; [reflexivity|exact Dn].
        -- rewrite app_nil_r. apply I4. exact Hb.
      * eapply Forall2_imp; [|exact I5]. cbn. intros j x Hj (b & g & Hb & Hg & ->). exists b, g. rewrite P.
        destruct (Nat.eqb i j) eqn:Ej; [apply Nat.eqb_eq in Ej; subst; contradiction|]. rewrite app_nil_r. auto.
      * exact I6.
    + destruct (nth_error (w_requests v) i) as [[f|]|] eqn:E; [|rewrite I1 in H; discriminate|discriminate]. injection H as <-.
      assert (B : begins (h ++ [Dropped i]) = begins h) by (rewrite begins_snoc; apply app_nil_r).
      assert (D : drops (h ++ [Dropped i]) = drops h ++ [i]) by (rewrite drops_snoc; reflexivity).
      assert (P : forall j, polls_of j (h ++ [Dropped i]) = polls_of j h) by (intros j; rewrite polls_snoc; apply app_nil_r).
      assert (L : (i < List.length (begins h))%nat) by (rewrite <- I2; apply nth_error_Some; congruence).
      destruct (nth_error (begins h) i) as [b|] eqn:Eb; [|apply nth_error_None in Eb; lia].
      destruct (I4 i b Eb) as (f' & Hf & [[N1 N2]|[N1 _]]); [|congruence]. assert (f' = f) by congruence. subst f'.
      split; cbn [w_format w_requests w_written]; rewrite ?B, ?D.
      * exact I1.
      * rewrite set_length. exact I2.
      * intros j Hj. rewrite P. destruct (I3 j Hj) as [Pn Dj]. split; [exact Pn|]. rewrite in_app_iff. intros [K|[K|[]]]; [tauto|lia].
      * intros j c Hc. rewrite P, nth_set, E. destruct (Nat.eqb i j) eqn:Ej.
        -- apply Nat.eqb_eq in Ej. subst j. assert (c = b) by congruence. subst c. exists f. split; [exact Hf|]. right. split; [reflexivity|]. rewrite in_app_iff. cbn. tauto.
        -- apply Nat.eqb_neq in Ej. destruct (I4 j c Hc) as (g & Hg & K). exists g. split; [exact Hg|]. rewrite in_app_iff. cbn [In]. tauto.
      * apply Forall2_app.
        -- eapply Forall2_imp; [|exact I5]. cbn. intros j x _ (c & g & Hc & Hg & ->). exists c, g. rewrite P. auto.
        -- constructor; [|constructor]. exists b, f. rewrite P. auto.
      * apply NoDup_snoc; assumption.
Qed.

(** ** Lines *)

Definition words (e : entry) : list bytes :=
  [e_addr e; match e_id e with Some n => n | None => bs "-"%string end; bs "-"%string; [91] ++ e_time e ++ [93]; [34] ++ e_method e; e_uri e; e_version e ++ [34]] ++
  match e_status e with Some n => [to_dec n] | None => [] end.
Lemma text_line b ps g : after (first Apache b) ps = Some g -> f_text g = Line (join 32 (words (entry_of b ps))).
Proof.
  intros H. apply text_after in H.
  assert (N : concat (map visit (new_span (b_conn b) (b_now b) (b_asked b))) = join 32 (words (Entry (c_addr (b_conn b)) (c_id (b_conn b)) (b_now b)
    (a_method (b_asked b)) (a_uri (b_asked b)) (version_text (a_version (b_asked b))) None))).
  { cbn. unfold client_id. destruct (c_id (b_conn b)); cbn; repeat (rewrite <- !app_assoc; cbn [app]); rewrite ?app_nil_r; reflexivity. }
  destruct H as [[R ->]|(r & R & ->)]; cbn [on_new_span on_record].
  - rewrite N. unfold entry_of. rewrite R. reflexivity.
  - rewrite N. unfold entry_of. rewrite R. unfold records. f_equal.
    destruct (get_header_str _ _); cbn; repeat (rewrite <- ?app_assoc; cbn [app]); rewrite ?app_nil_r; reflexivity.
Qed.

Definition sound_entry (e : entry) : Prop :=
  word (e_addr e) /\ (forall n, e_id e = Some n -> word n /\ n <> bs "-"%string) /\ word (e_time e) /\ word (e_method e) /\ word (e_uri e) /\
  word (e_version e) /\ (forall n, e_status e = Some n -> n < 1000).
Lemma word_app a b : word a -> word b -> word (a ++ b).
Proof. unfold word. rewrite !in_app_iff. tauto. Qed.
Lemma word_dec n : word (to_dec n).
Proof.
  pose proof (to_dec_digits n) as D. rewrite forallb_forall in D. split; intros I; apply D in I; discriminate.
Qed.
Ltac lit := split; intros I; cbn in I; repeat destruct I as [I|I]; try discriminate I; exact I.
Lemma word_version v : word (version_text v).
Proof. destruct v; lit. Qed.
Lemma words_word e : sound_entry e -> Forall word (words e).
Proof.
  intros (H1 & H2 & H3 & H4 & H5 & H6 & H7). unfold words. apply Forall_app. split.
  - repeat apply Forall_cons; try apply Forall_nil; auto.
    + destruct (e_id e) as [n|]; [apply (H2 n eq_refl)|lit].
    + lit.
    + apply word_app; [lit|]. apply word_app; [exact H3|lit].
    + apply word_app; [lit|exact H4].
    + apply word_app; [exact H6|lit].
  - destruct (e_status e); repeat constructor; apply word_dec.
Qed.
Lemma split_words l : l <> [] -> Forall word l -> split 32 (join 32 l) = l.
Proof.
  intros N F. induction F as [|x l [Hx _] F IH]; [contradiction|]. destruct l as [|y l].
  - cbn. apply split_none. exact Hx.
  - change (join 32 (x :: y :: l)) with (x ++ 32 :: join 32 (y :: l)). rewrite split_app_sep by exact Hx. f_equal. apply IH. discriminate.
Qed.
Lemma join_line l : Forall word l -> ~ In 10 (join 32 l).
Proof.
  induction 1 as [|x l [_ Hx] F IH]; [intros []|]. destruct l as [|y l]; [exact Hx|].
  change (join 32 (x :: y :: l)) with (x ++ 32 :: join 32 (y :: l)). rewrite in_app_iff. intros [H|[H|H]]; [contradiction|discriminate|contradiction].
Qed.
Lemma unwrap_some a b s : unwrap a b (a ++ s ++ b) = Some s.
Proof.
  unfold unwrap. replace (strip_prefix a (a ++ s ++ b)) with (Some (s ++ b)) by (symmetry; apply strip_prefix_some; reflexivity).
  apply strip_suffix_some. reflexivity.
Qed.
Lemma read_entry e : sound_entry e -> read_words (words e) = Some e.
Proof.
  intros (_ & H2 & _ & _ & _ & _ & H7). destruct e as [a i t m u v st]. cbn [e_id e_status] in *.
  assert (I : read_id (match i with Some n => n | None => bs "-"%string end) = i).
  { unfold read_id. destruct i as [n|]; [|reflexivity]. destruct (H2 n eq_refl) as [_ Hn]. apply beq_neq in Hn. now rewrite Hn. }
  assert (M : unwrap [34] [] ([34] ++ m) = Some m). { rewrite <- (app_nil_r m) at 1. apply unwrap_some. }
  assert (V : unwrap [] [34] (v ++ [34]) = Some v) by (apply (unwrap_some [] [34] v)).
  assert (T : unwrap (bs "["%string) (bs "]"%string) ([91] ++ t ++ [93]) = Some t) by (apply (unwrap_some [91] [93] t)).
  unfold words. cbn [e_addr e_id e_time e_method e_uri e_version e_status]. destruct st as [n|].
  - change ([a; match i with Some n => n | None => bs "-"%string end; bs "-"%string; [91] ++ t ++ [93]; [34] ++ m; u; v ++ [34]] ++ [to_dec n])
      with [a; match i with Some n => n | None => bs "-"%string end; bs "-"%string; [91] ++ t ++ [93]; [34] ++ m; u; v ++ [34]; to_dec n].
    cbv beta iota zeta delta [read_words]. rewrite parse_uint_to_dec by (specialize (H7 n eq_refl); unfold u64_max; lia).
    rewrite T, M, V, beq_refl, I. reflexivity.
  - rewrite app_nil_r. cbv beta iota zeta delta [read_words]. rewrite T, M, V, beq_refl, I. reflexivity.
Qed.
Lemma sound_of h i b : Forall sound h -> nth_error (begins h) i = Some b -> sound_entry (entry_of b (polls_of i h)).
Proof.
  intros F Hb. assert (B : word (c_addr (b_conn b)) /\ word (b_now b) /\ word (a_method (b_asked b)) /\ word (a_uri (b_asked b)) /\
      (forall n, c_id (b_conn b) = Some n -> word n /\ n <> bs "-"%string)).
  { apply nth_error_In in Hb. unfold begins in Hb. apply in_flat_map in Hb as (e & He & Hb). rewrite Forall_forall in F. specialize (F e He).
    destruct e as [c now q t| |]; try contradiction. destruct Hb as [<-|[]]. exact F. }
  destruct B as (B1 & B2 & B3 & B4 & B5). unfold sound_entry, entry_of. cbn [e_addr e_id e_time e_method e_uri e_version e_status].
  repeat (split; [first [assumption|apply word_version]|]). intros n Hn.
  destruct (responses (polls_of i h)) as [|r l] eqn:E; [discriminate|]. cbn in Hn. injection Hn as <-.
  assert (Hr : In r (responses (polls_of i h))) by (rewrite E; left; reflexivity).
  unfold responses in Hr. apply in_flat_map in Hr as (p & Hp & Hr). unfold polls_of in Hp. apply in_flat_map in Hp as (e & He & Hp).
  rewrite Forall_forall in F. specialize (F e He). destruct e as [|j p'|]; try contradiction. destruct (Nat.eqb j i); [|contradiction].
  destruct Hp as [->|[]]. cbn [sound] in F. destruct (p_outcome p); try contradiction. destruct Hr as [->|[]]. exact F.
Qed.
Lemma read_lines ls : Forall (fun l => ~ In 10 l) ls ->
  removelast (split 10 (concat (map (fun l => l ++ [10]) ls))) = ls.
Proof.
  induction 1 as [|l ls H F IH]; [reflexivity|]. cbn [map concat]. rewrite <- app_assoc. cbn [app].
  rewrite split_app_sep by exact H.
  destruct (split 10 (concat (map (fun l0 => l0 ++ [10]) ls))) as [|x r] eqn:E; [exfalso; exact (split_nonempty _ _ E)|].
  cbn [removelast]. cbn [removelast] in IH. rewrite IH. reflexivity.
Qed.
Theorem log_lines env h w : access_log_format env = Some Apache -> Forall sound h -> run (start env) h = Some w ->
  read_log (printed w) = entries h /\ NoDup (drops h) /\ ~ In None (entries h).
Proof.
  intros A F R. destruct (invariant _ _ A _ _ R) as [I1 I2 I3 I4 I5 I6].
  assert (G : exists ls, map (fun t => match t with Line s => s ++ [10] | Object _ => [] end) (w_written w) = map (fun l => l ++ [10]) ls /\
    Forall (fun l => ~ In 10 l) ls /\ map (fun l => read_words (split 32 l)) ls = entries h /\ ~ In None (entries h)).
  { unfold entries. clear I1 I2 I3 I4 I6. induction I5 as [|i t ds ts (b & f & Hb & Hf & ->) I5 IH].
    - exists []. cbn. auto.
    - destruct IH as (ls & E & C & M & N). pose proof (sound_of h i b F Hb) as S.
      exists (join 32 (words (entry_of b (polls_of i h))) :: ls). cbn [map]. rewrite (text_line _ _ _ Hf), E, M, Hb. cbn [option_map].
      rewrite split_words by (apply words_word in S; first [exact S|discriminate]). rewrite read_entry by exact S.
      repeat split; [constructor; [apply join_line; apply words_word; exact S|exact C]|].
      intros [K|K]; [discriminate|contradiction]. }
  destruct G as (ls & E & C & M & N). split; [|split; assumption]. unfold read_log, printed. rewrite E, read_lines by exact C. exact M.
Qed.

(** ** No log *)

Lemma parse_format_iff s : (exists f, parse_format s = Some f) <-> lowers s = bs "json"%string \/ lowers s = bs "apache"%string.
Proof.
  unfold parse_format. pose proof (eq_ignore_case_iff s (bs "json"%string)) as J. pose proof (eq_ignore_case_iff s (bs "apache"%string)) as P.
  change (lowers (bs "json"%string)) with (bs "json"%string) in J. change (lowers (bs "apache"%string)) with (bs "apache"%string) in P.
  destruct (eq_ignore_case s (bs "json"%string)); [split; eauto; intros _; left; apply J; reflexivity|].
  destruct (eq_ignore_case s (bs "apache"%string)); [split; eauto; intros _; right; apply P; reflexivity|].
  split; [intros (f & E); discriminate|]. intros [H|H]; [apply J in H|apply P in H]; discriminate.
Qed.
Lemma format_iff env : (access_log_format env = Some Json <-> exists s, env = Some s /\ lowers s = bs "json"%string) /\
  (access_log_format env = Some Apache <-> exists s, env = Some s /\ lowers s = bs "apache"%string).
Proof.
  unfold access_log_format, parse_format. destruct env as [s|]; [|split; split; [discriminate|intros (s & E & _); discriminate|discriminate|intros (s & E & _); discriminate]].
  pose proof (eq_ignore_case_iff s (bs "json"%string)) as J. pose proof (eq_ignore_case_iff s (bs "apache"%string)) as P.
  change (lowers (bs "json"%string)) with (bs "json"%string) in J. change (lowers (bs "apache"%string)) with (bs "apache"%string) in P.
  destruct (eq_ignore_case s (bs "json"%string)).
  { assert (Ls : lowers s = bs "json"%string) by (apply J; reflexivity). split; split; eauto; [discriminate|].
    intros (s' & E & F). injection E as <-. rewrite Ls in F. discriminate. }
  destruct (eq_ignore_case s (bs "apache"%string)).
  { assert (Ls : lowers s = bs "apache"%string) by (apply P; reflexivity). split; split; eauto; [discriminate|].
    intros (s' & E & F). injection E as <-. rewrite Ls in F. discriminate. }
  split; split; try discriminate; intros (s' & E & F); injection E as <-; [apply J in F|apply P in F]; discriminate.
Qed.
Theorem log_off env h w : (forall s, env = Some s -> lowers s <> bs "json"%string /\ lowers s <> bs "apache"%string) ->
  run (start env) h = Some w -> w_written w = [].
Proof.
  intros A R. assert (E : access_log_format env = None).
  { unfold access_log_format. destruct env as [s|]; [|reflexivity]. destruct (parse_format s) as [f|] eqn:P; [|reflexivity].
    destruct (A s eq_refl). destruct (proj1 (parse_format_iff s)); [eauto|contradiction|contradiction]. }
  assert (K : w_format w = None /\ w_written w = [] /\ (forall x, In x (w_requests w) -> x = None)).
  { revert w R. induction h as [|e h IH] using rev_ind; intros w R.
    - injection R as <-. cbn. rewrite E. repeat split. intros x [].
    - rewrite run_snoc in R. destruct (run (start env) h) as [v|]; [|discriminate]. destruct (IH v eq_refl) as (K1 & K2 & K3).
      destruct e as [c now q t|i p|i]; cbn [step] in R.
      + injection R as <-. cbn [w_format w_written w_requests]. rewrite K1. repeat split; try assumption. intros x Hx. apply in_app_iff in Hx as [Hx|[Hx|[]]]; [auto|symmetry; exact Hx].
      + destruct (nth_error (w_requests v) i) as [[f|]|] eqn:Ei; [|rewrite K1 in R; injection R as <-; auto|discriminate].
        apply nth_error_In in Ei. apply K3 in Ei. discriminate.
      + destruct (nth_error (w_requests v) i) as [[f|]|] eqn:Ei; [|rewrite K1 in R; injection R as <-; auto|discriminate].
        apply nth_error_In in Ei. apply K3 in Ei. discriminate. }
  apply K.
Qed.

(** ** Objects *)

Lemma fold_put fs : forall o, NoDup (map fst (o ++ fs)) -> fold_left put fs o = o ++ fs.
Proof.
  induction fs as [|f fs IH]; intros o N; cbn [fold_left]; [now rewrite app_nil_r|].
  assert (P : put o f = o ++ [f]).
  { unfold put. f_equal. rewrite map_app in N. cbn [map] in N. apply NoDup_remove_2 in N.
    assert (K : ~ In (fst f) (map fst o)) by (intros K; apply N; apply in_app_iff; left; exact K). clear - K.
    induction o as [|x o IH]; [reflexivity|]. cbn [filter map In] in *. destruct (beq (fst x) (fst f)) eqn:E.
    - apply beq_eq in E. exfalso. apply K. left. exact E.
    - cbn [negb]. f_equal. apply IH. tauto. }
  rewrite P, IH; rewrite <- app_assoc; [reflexivity|exact N].
Qed.
Ltac nodup_names := repeat constructor; cbn; intros I; repeat destruct I as [I|I]; try discriminate I; exact I.
Lemma logged_iff hs name v : logged hs name v <-> v = get_header hs name.
Proof.
  unfold get_header, get_header_str. split.
  - intros H. destruct H as [v H T|v H T|H].
    + apply hm_get_values in H. rewrite H, T. reflexivity.
    + apply hm_get_values in H. rewrite H, T. reflexivity.
    + destruct (hm_get hs name) as [x|] eqn:E; [|reflexivity]. apply hm_get_values in E. destruct (H x E).
  - intros ->. destruct (hm_get hs name) as [x|] eqn:E.
    + apply hm_get_values in E. destruct (to_str x) as [y|] eqn:T; [|eapply l_other; eassumption].
      assert (y = x) by (unfold to_str in T; destruct (forallb _ x); congruence). subst y. apply l_text; assumption.
    + apply l_absent. intros x Hx. apply hm_get_values in Hx. congruence.
Qed.
Lemma absent_iff hs name : absent hs name <-> hm_get hs name = None.
Proof.
  unfold absent. split.
  - intros H. destruct (hm_get hs name) as [x|] eqn:E; [|reflexivity]. apply hm_get_values in E. destruct (H x E).
  - intros E v H. apply hm_get_values in H. congruence.
Qed.
Lemma traced_iff hs v : (exists name, traced hs name /\ logged hs name v) <-> v = trace_id hs.
Proof.
  unfold trace_id. split.
  - intros (name & T & L). apply logged_iff in L. subst v. unfold get_header, get_header_str. destruct T as [H|H1 H2|H1 H2].
    + rewrite absent_iff in H. destruct (hm_get hs (bs "x-b3-traceid"%string)); [reflexivity|contradiction].
    + rewrite absent_iff in H1, H2. rewrite H1. destruct (hm_get hs (bs "x-request-id"%string)); [reflexivity|contradiction].
    + rewrite absent_iff in H1, H2. rewrite H1, H2. destruct (hm_get hs (bs "x-amzn-trace-id"%string)); reflexivity.
  - intros ->.
    destruct (hm_get hs (bs "x-b3-traceid"%string)) as [x|] eqn:E1.
    { exists (bs "x-b3-traceid"%string). split; [constructor; rewrite absent_iff; congruence|]. apply logged_iff. unfold get_header, get_header_str. rewrite E1. reflexivity. }
    destruct (hm_get hs (bs "x-request-id"%string)) as [x|] eqn:E2.
    { exists (bs "x-request-id"%string). split; [constructor; rewrite absent_iff; congruence|]. apply logged_iff. unfold get_header, get_header_str. rewrite E2. reflexivity. }
    exists (bs "x-amzn-trace-id"%string). split; [constructor; rewrite absent_iff; assumption|]. apply logged_iff. unfold get_header, get_header_str. destruct (hm_get hs (bs "x-amzn-trace-id"%string)); reflexivity.
Qed.
Lemma str_of hs name x : get_header_str hs name = Some x <-> first_value name hs x /\ to_str x = Some x.
Proof.
  unfold get_header_str. rewrite <- hm_get_values. destruct (hm_get hs name) as [y|]; [|split; [discriminate|intros [H _]; discriminate]].
  split.
  - intros T. assert (x = y) by (unfold to_str in T; destruct (forallb _ y); congruence). subst y. auto.
  - intros [H T]. injection H as ->. exact T.
Qed.
Lemma text_object b ps g : after (first Json b) ps = Some g -> exists o, f_text g = Object o /\ NoDup (map fst o) /\
  forall name v, In (name, v) o <-> says b ps name v.
Proof.
  intros H. apply text_after in H.
  assert (B : fold_left put (new_span (b_conn b) (b_now b) (b_asked b)) [] = new_span (b_conn b) (b_now b) (b_asked b)).
  { apply fold_put. nodup_names. }
  assert (S1 : forall name v, In (name, v) (new_span (b_conn b) (b_now b) (b_asked b)) -> says b ps name v).
  { intros name v I. cbn [new_span In] in I.
    repeat destruct I as [I|I]; [..|contradiction]; injection I as <- <-; try (constructor; fail).
    - unfold client_id. destruct (c_id (b_conn b)) as [n|] eqn:E; [apply s_id; exact E|apply s_no_id; exact E].
    - destruct (proj2 (traced_iff (a_headers (b_asked b)) _) eq_refl) as (name & T & L). exact (s_trace b ps name _ T L).
    - apply s_request. apply logged_iff. reflexivity.
    - apply s_agent. apply logged_iff. reflexivity.
    - apply s_host. apply logged_iff. reflexivity. }
  assert (S2 : forall name v, says b ps name v -> responses ps = [] -> In (name, v) (new_span (b_conn b) (b_now b) (b_asked b))).
  { intros name v S R. unfold new_span. destruct S as [|n E|E| | | | |name v T L|v L|v L|v L|r I|r v I|r I|r I]; try (rewrite R in I; contradiction); cbn [In].
    - tauto.
    - unfold client_id. rewrite E. tauto.
    - unfold client_id. rewrite E. tauto.
    - tauto.
    - tauto.
    - tauto.
    - tauto.
    - rewrite <- (proj1 (traced_iff (a_headers (b_asked b)) v) (ex_intro _ name (conj T L))). tauto.
    - apply logged_iff in L. rewrite <- L. tauto.
    - apply logged_iff in L. rewrite <- L. tauto.
    - apply logged_iff in L. rewrite <- L. tauto. }
  destruct H as [[R ->]|(r & R & ->)]; cbn [on_new_span on_record].
  - eexists. split; [reflexivity|]. rewrite B. split; [nodup_names|]. intros name v. split; [apply S1|]. intros S. apply S2; assumption.
  - eexists. split; [reflexivity|]. rewrite B.
    assert (Nd : NoDup (map fst (new_span (b_conn b) (b_now b) (b_asked b) ++ records r (ended ps - b_start b) (busy ps)))).
    { unfold records. destruct (get_header_str _ _); nodup_names. }
    rewrite fold_put by exact Nd. split; [exact Nd|]. intros name v. rewrite in_app_iff. split.
    + intros [I|I]; [apply S1; exact I|]. assert (Ir : In r (responses ps)) by (rewrite R; left; reflexivity).
      unfold records in I. apply in_app_iff in I as [I|I].
      * destruct (get_header_str (s_headers r) (bs "content-length"%string)) as [x|] eqn:E; [|contradiction]. destruct I as [I|[]]. injection I as <- <-.
        apply str_of in E as [E1 E2]. eapply s_response; eassumption.
      * cbn [In] in I. repeat destruct I as [I|I]; [..|contradiction]; injection I as <- <-; econstructor; eassumption.
    + intros S. pose proof S as S'. destruct S as [|n E|E| | | | |name v T L|v L|v L|v L|r' I|r' v I V1 V2|r' I|r' I];
        try (rewrite R in I; destruct I as [<-|[]]; right; unfold records; apply in_app_iff).
      * left. left. reflexivity.
      * left. unfold new_span, client_id. rewrite E. cbn [In]. tauto.
      * left. unfold new_span, client_id. rewrite E. cbn [In]. tauto.
      * left. unfold new_span. cbn [In]. tauto.
      * left. unfold new_span. cbn [In]. tauto.
      * left. unfold new_span. cbn [In]. tauto.
      * left. unfold new_span. cbn [In]. tauto.
      * left. unfold new_span. rewrite <- (proj1 (traced_iff (a_headers (b_asked b)) v) (ex_intro _ name (conj T L))). cbn [In]. tauto.
      * left. apply logged_iff in L. unfold new_span. rewrite <- L. cbn [In]. tauto.
      * left. apply logged_iff in L. unfold new_span. rewrite <- L. cbn [In]. tauto.
      * left. apply logged_iff in L. unfold new_span. rewrite <- L. cbn [In]. tauto.
      * right. cbn [In]. tauto.
      * left. assert (E : get_header_str (s_headers r) (bs "content-length"%string) = Some v) by (apply str_of; auto). rewrite E. left. reflexivity.
      * right. cbn [In]. tauto.
      * right. cbn [In]. tauto.
Qed.
Theorem log_objects env h w : access_log_format env = Some Json -> run (start env) h = Some w ->
  NoDup (drops h) /\
  Forall2 (fun i t => exists b o, nth_error (begins h) i = Some b /\ t = Object o /\ NoDup (map fst o) /\
    forall name v, In (name, v) o <-> says b (polls_of i h) name v) (drops h) (w_written w).
Proof.
  intros A R. destruct (invariant _ _ A _ _ R) as [I1 I2 I3 I4 I5 I6]. split; [exact I6|].
  eapply Forall2_imp; [|exact I5]. cbn. intros i t _ (b & f & Hb & Hf & ->). destruct (text_object _ _ _ Hf) as (o & E & N & S).
  exists b, o. auto.
Qed.

(** ** Times *)

Lemma last_cons {A} (l : list A) : forall x d, last (x :: l) d = last l x.
Proof. induction l as [|y l IH]; intros x d; [reflexivity|]. change (last (x :: y :: l) d) with (last (y :: l) d). rewrite (IH y d), (IH y x). reflexivity. Qed.
Lemma busy_bound ps : forall from, in_order from ps -> busy ps <= last (map p_to ps) from - from /\ from <= last (map p_to ps) from.
Proof.
  induction ps as [|p ps IH]; intros from H; cbn [in_order] in H.
  - cbn. lia.
  - destruct H as (H1 & H2 & H3). destruct (IH _ H3) as [K1 K2]. cbn [map]. rewrite last_cons.
    unfold busy in *. cbn [fold_right]. lia.
Qed.
Lemma Forall2_nth {A B} (P : A -> B -> Prop) l m : Forall2 P l m -> forall k a b, nth_error l k = Some a -> nth_error m k = Some b -> P a b.
Proof.
  induction 1 as [|x y l m H F IH]; intros [|k] a b Ha Hb; try discriminate; cbn in *; [congruence|]. exact (IH k a b Ha Hb).
Qed.
Theorem processing_bound env h w k i b total processing o : access_log_format env = Some Json -> run (start env) h = Some w ->
  nth_error (drops h) k = Some i -> nth_error (w_written w) k = Some (Object o) -> nth_error (begins h) i = Some b -> in_order (b_start b) (polls_of i h) ->
  In (bs "total_ns"%string, Str (to_dec total)) o -> In (bs "processing_ns"%string, Str (to_dec processing)) o -> processing <= total.
Proof.
  intros A R D W B O T P. destruct (log_objects _ _ _ A R) as [_ F]. destruct (Forall2_nth _ _ _ F k i _ D W) as (b' & o' & B' & E & _ & S).
  injection E as <-. assert (b' = b) by congruence. subst b'. apply S in T. apply S in P.
  assert (T' : total = ended (polls_of i h) - b_start b /\ responses (polls_of i h) <> []).
  { remember (bs "total_ns"%string) as n eqn:En. remember (Str (to_dec total)) as v eqn:Ev.
    destruct T as [| | | | | | | | | | | | |r I|]; try discriminate En. injection Ev as Ev. apply (f_equal (dec_value 0)) in Ev. rewrite !to_dec_value in Ev.
    split; [symmetry; exact Ev|]. intros K. rewrite K in I. contradiction. }
  assert (P' : processing = busy (polls_of i h)).
  { remember (bs "processing_ns"%string) as n eqn:En. remember (Str (to_dec processing)) as v eqn:Ev.
    destruct P as [| | | | | | | | | | | | | |r I]; try discriminate En. injection Ev as Ev. apply (f_equal (dec_value 0)) in Ev. rewrite !to_dec_value in Ev.
    symmetry; exact Ev. }
  destruct T' as [-> R']. subst processing. unfold ended. destruct (busy_bound _ _ O) as [K _].
  destruct (polls_of i h) as [|p ps]; [contradiction|]. cbn [map] in *. rewrite last_cons in *. exact K.
Qed.
