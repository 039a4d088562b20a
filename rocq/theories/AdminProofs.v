(** Proofs about the admin server: C107, C108 *)
From Coq Require Import String List Arith NArith ZArith Bool Lia ZifyBool ZifyNat ZifyN.
From Verif Require Import Bytes BytesProofs FilterModel TraceModel AuthzModel AdminModel AdminSpec.
From Verif Require RouteModel PolicyModel ConnectSpec ConnectProofs FilterSpec FilterProofs.
Import ListNotations.
Open Scope N_scope.
Ltac Zify.zify_post_hook ::= Z.div_mod_to_equations.

Lemma loopback4 a : (N.shiftr a 24 =? 127) = true <-> 2130706432 <= a < 2147483648.
Proof.
  rewrite N.eqb_eq, N.shiftr_div_pow2. change (2 ^ 24) with 16777216. lia.
Qed.
Lemma localhost_iff q : (forall c, q_client q = Some c -> address c) ->
  client_is_localhost q = true <-> exists c, q_client q = Some c /\ on_this_machine c.
Proof.
  intros A. unfold client_is_localhost. destruct (q_client q) as [[a|a]|]; [| |split; [discriminate|intros (c & E & _); discriminate]].
  - rewrite loopback4. split.
    + intros H. exists (V4 a). split; [reflexivity|]. left. exists a. auto.
    + intros (c & E & [(b & [->| ->] & H)| ->]); try discriminate. injection E as ->. exact H.
  - cbn [ipv4_mapped]. destruct (N.shiftr a 32 =? 65535) eqn:M.
    + rewrite loopback4. rewrite N.eqb_eq, N.shiftr_div_pow2 in M. change (2 ^ 32) with 4294967296 in M.
      change 4294967295 with (N.ones 32). rewrite N.land_ones. change (2 ^ 32) with 4294967296. split.
      * intros H. exists (V6 a). split; [reflexivity|]. left. exists (a mod 4294967296). split; [right; f_equal; lia|exact H].
      * intros (c & E & [(b & [->| ->] & H)| ->]).
        -- discriminate E.
        -- apply (f_equal (fun x => match x with Some (V6 v) => v | _ => 0 end)) in E. cbv beta iota in E. subst a. rewrite (N.add_comm 281470681743360 b). change 281470681743360 with (65535 * 4294967296). rewrite N.mod_add by discriminate. rewrite N.mod_small by lia. exact H.
        -- apply (f_equal (fun x => match x with Some (V6 v) => v | _ => 0 end)) in E. cbv beta iota in E. subst a. exfalso. apply N.lt_irrefl with 0. clear - M. discriminate M.
    + rewrite N.eqb_eq. rewrite N.eqb_neq, N.shiftr_div_pow2 in M. change (2 ^ 32) with 4294967296 in M. split.
      * intros ->. exists (V6 1). split; [reflexivity|]. right. reflexivity.
      * intros (c & E & [(b & [->| ->] & H)| ->]).
        -- discriminate E.
        -- apply (f_equal (fun x => match x with Some (V6 v) => v | _ => 0 end)) in E. cbv beta iota in E. subst a. exfalso. apply M. rewrite (N.add_comm 281470681743360 b). change 281470681743360 with (65535 * 4294967296). rewrite N.div_add by discriminate. rewrite N.div_small by lia. reflexivity.
        -- apply (f_equal (fun x => match x with Some (V6 v) => v | _ => 0 end)) in E. cbv beta iota in E. subst a. reflexivity.
Qed.

Lemma starts_iff p s : starts_with p s = true <-> exists r, s = p ++ r.
Proof.
  unfold starts_with. revert s. induction p as [|x p IH]; intros s; cbn.
  - split; [intros _; exists s; reflexivity|reflexivity].
  - destruct s as [|y s]; [split; [discriminate|intros (r & E); discriminate]|].
    destruct (x =? y) eqn:E.
    + apply N.eqb_eq in E. subst y. rewrite IH. split; intros (r & R); exists r; [rewrite R; reflexivity|].
      injection R as R. exact R.
    + split; [discriminate|]. intros (r & R). injection R as -> _. rewrite N.eqb_refl in E. discriminate.
Qed.
Lemma contains_iff p s : contains p s = true <-> within p s.
Proof.
  induction s as [|x s IH]; cbn [contains]; rewrite orb_true_iff, starts_iff.
  - split.
    + intros [(r & R)|H]; [exists [], r; exact R|discriminate].
    + intros (a & b & E). symmetry in E. apply app_eq_nil in E as [-> E]. left. exists b. symmetry. exact E.
  - rewrite IH. split.
    + intros [(r & R)|(a & b & ->)]; [exists [], r; exact R|exists (x :: a), b; reflexivity].
    + intros (a & b & E). destruct a as [|y a]; [left; exists b; exact E|]. right. injection E as -> E. exists a, b. exact E.
Qed.

(** ** Changes of state *)

Lemma first_chunk_iff fs c : first_chunk fs = c <->
  fs = [] /\ c = [] \/
  exists es rest, fs = es ++ c :: rest /\ (forall e, In e es -> e = []) /\ (c = [] -> rest = []).
Proof.
  revert c. induction fs as [|f fs IH]; intros c; cbn [first_chunk].
  - split; [intros <-; left; auto|]. intros [[_ ->]|(es & rest & E & _)]; [reflexivity|]. destruct es; discriminate.
  - destruct f as [|x f].
    + rewrite IH. split.
      * intros [[-> ->]|(es & rest & -> & H & K)].
        -- right. exists [], []. split; [reflexivity|]. split; [intros e []|reflexivity].
        -- right. exists ([] :: es), rest. split; [reflexivity|]. split; [|exact K]. intros e [<-|I]; [reflexivity|exact (H e I)].
      * intros [[E _]|(es & rest & E & H & K)]; [discriminate|]. destruct es as [|y es].
        -- injection E as <- ->. left. rewrite (K eq_refl). auto.
        -- injection E as <- ->. right. exists es, rest. split; [reflexivity|]. split; [|exact K].
           intros e I. apply H. right. exact I.
    + split.
      * intros <-. right. exists [], fs. split; [reflexivity|]. split; [intros e []|discriminate].
      * intros [[E _]|(es & rest & E & H & K)]; [discriminate|]. destruct es as [|y es].
        -- injection E as <- _. reflexivity.
        -- injection E as <- _. specialize (H (x :: f) (or_introl eq_refl)). discriminate.
Qed.

Lemma in_get_all n v hs : In v (RouteModel.get_all n hs) <-> In (n, v) hs.
Proof.
  unfold RouteModel.get_all. rewrite in_map_iff. split.
  - intros ([m w] & <- & H). apply filter_In in H as [H B]. cbn in B. apply beq_eq in B. subst m. exact H.
  - intros H. exists (n, v). split; [reflexivity|]. apply filter_In. split; [exact H|]. apply beq_refl.
Qed.

Section Calls.
Variables (enable_shutdown streaming : bool) (env : list (bytes * bytes)) (lossy : bytes -> bytes) (utf8 : bytes -> bool)
  (parse_filter parse_stream : bytes -> option bytes).
Notation call := (call enable_shutdown streaming env lossy utf8 parse_filter parse_stream).
Notation run := (run enable_shutdown streaming env lossy utf8 parse_filter parse_stream).

Lemma call_state s q : (forall c, q_client q = Some c -> address c) ->
  (exists l0 l, s_level s = Some l0 /\ sets_level utf8 parse_filter q l /\ r_status (fst (call s q)) = 204 /\
     snd (call s q) = State (s_latches s) (Some l) (s_shutdowns s) (s_receiver s)) \/
  (shuts_down q /\ enable_shutdown = true /\ s_receiver s = true /\ r_status (fst (call s q)) = 200 /\
     snd (call s q) = State (s_latches s) (s_level s) (S (s_shutdowns s)) (s_receiver s)) \/
  snd (call s q) = s /\
  ((forall l, ~ sets_level utf8 parse_filter q l) \/ s_level s = None) /\
  (shuts_down q -> enable_shutdown = true -> s_receiver s = true -> False).
Proof.
  intros A. pose proof (localhost_iff q A) as L. unfold AdminModel.call.
  assert (NS : forall p, q_path q = p -> p <> bs "/proxy-log-level"%string -> forall l, ~ sets_level utf8 parse_filter q l).
  { intros p E N l (P & _). congruence. }
  assert (ND : forall p, q_path q = p -> p <> bs "/shutdown"%string -> shuts_down q -> enable_shutdown = true -> s_receiver s = true -> False).
  { intros p E N (P & _). congruence. }
  repeat match goal with
         | |- context [if beq (q_path q) ?p then (_, s) else _] =>
             let B := fresh in destruct (beq (q_path q) p) eqn:B;
             [apply beq_eq in B; right; right; split; [reflexivity|]; split; [left; eapply NS; [exact B|discriminate]|eapply ND; [exact B|discriminate]]|]
         end.
  destruct (beq (q_path q) (bs "/proxy-log-level"%string)) eqn:B1.
  { apply beq_eq in B1. pose proof (ND _ B1 ltac:(discriminate)) as ND'.
    destruct (client_is_localhost q) eqn:C; cbn [negb].
    2:{ right. right. split; [reflexivity|]. split; [|exact ND']. left. intros l (_ & _ & X & _).
        apply L in X. discriminate. }
    destruct (s_level s) as [l0|] eqn:LV; [|right; right; auto].
    unfold level_serve. destruct (beq (q_method q) GET) eqn:G.
    { right. right. split; [reflexivity|]. split; [|exact ND']. left. intros l (_ & X & _). apply beq_eq in G. rewrite X in G. discriminate. }
    destruct (beq (q_method q) PUT) eqn:P.
    2:{ right. right. split; [reflexivity|]. split; [|exact ND']. left. intros l (_ & X & _). rewrite X in P. discriminate. }
    apply beq_eq in P. destruct (q_broken q) eqn:BR.
    { right. right. split; [reflexivity|]. split; [|exact ND']. left. intros l (_ & _ & _ & X & _). congruence. }
    cbv zeta. destruct (first_chunk_iff (q_frames q) (first_chunk (q_frames q))) as [F _]. specialize (F eq_refl).
    destruct (if utf8 (first_chunk (q_frames q)) then parse_filter (first_chunk (q_frames q)) else None) as [l|] eqn:S.
    - left. exists l0, l. split; [reflexivity|]. split.
      + split; [exact B1|]. split; [exact P|]. split; [apply L; reflexivity|]. split; [exact BR|].
        exists (first_chunk (q_frames q)). split; [exact F|].
        destruct (utf8 (first_chunk (q_frames q))); [auto|discriminate].
      + split; reflexivity.
    - right. right. split; [reflexivity|]. split; [|exact ND']. left. intros l (_ & _ & _ & _ & c & X & U & R).
      apply first_chunk_iff in X. rewrite X, U, R in S. discriminate. }
  destruct (streaming && beq (q_path q) (bs "/logs.json"%string)) eqn:B2.
  { apply andb_true_iff in B2 as [_ B2]. apply beq_eq in B2.
    assert (X : snd (if negb (client_is_localhost q) then (forbidden_not_localhost, s) else (stream_serve utf8 parse_stream q, s)) = s)
      by (destruct (client_is_localhost q); reflexivity).
    right. right. split; [exact X|]. split; [left; eapply NS; [exact B2|discriminate]|eapply ND; [exact B2|discriminate]]. }
  assert (N1 : forall l, ~ sets_level utf8 parse_filter q l).
  { intros l (P & _). rewrite P, beq_refl in B1. discriminate. }
  repeat match goal with
         | |- context [if beq (q_path q) ?p then (_, s) else _] =>
             let B := fresh in destruct (beq (q_path q) p) eqn:B;
             [apply beq_eq in B; right; right; split; [reflexivity|]; split; [left; exact N1|eapply ND; [exact B|discriminate]]|]
         end.
  destruct (beq (q_path q) (bs "/shutdown"%string)) eqn:B3.
  2:{ right. right. split; [reflexivity|]. split; [left; exact N1|]. intros (P & _). rewrite P, beq_refl in B3. discriminate. }
  apply beq_eq in B3. destruct (beq (q_method q) POST) eqn:M.
  2:{ right. right. split; [reflexivity|]. split; [left; exact N1|]. intros (_ & P & _). rewrite P in M. discriminate. }
  apply beq_eq in M. destruct (client_is_localhost q) eqn:C.
  2:{ right. right. split; [reflexivity|]. split; [left; exact N1|]. intros (_ & _ & X). apply L in X. discriminate. }
  unfold shutdown. destruct enable_shutdown; cbn [negb].
  2:{ right. right. split; [reflexivity|]. split; [left; exact N1|]. intros _ X. discriminate. }
  destruct (s_receiver s) eqn:R.
  2:{ right. right. split; [reflexivity|]. split; [left; exact N1|]. intros _ _ X. discriminate. }
  right. left. split; [|split; [reflexivity|split; [reflexivity|split; reflexivity]]].
  split; [exact B3|]. split; [exact M|]. apply L. reflexivity.
Qed.

Lemma changes_locally s q : (forall c, q_client q = Some c -> address c) -> snd (call s q) <> s ->
  exists c, q_client q = Some c /\ on_this_machine c.
Proof.
  intros A N. destruct (call_state s q A) as [(l0 & l & _ & H & _)|[(H & _)|(H & _)]]; [| |contradiction].
  - apply H.
  - apply H.
Qed.
Lemma shutdown_iff s q : (forall c, q_client q = Some c -> address c) ->
  s_shutdowns (snd (call s q)) = S (s_shutdowns s) <-> shuts_down q /\ enable_shutdown = true /\ s_receiver s = true.
Proof.
  intros A. destruct (call_state s q A) as [(l0 & l & _ & H & _ & ->)|[(H & E & R & _ & ->)|(-> & _ & H)]]; cbn [s_shutdowns].
  - split; [lia|]. intros ((P & _) & _). destruct H as (P' & _). rewrite P in P'. discriminate.
  - split; [auto|reflexivity].
  - split; [lia|]. intros (X & Y & Z). destruct (H X Y Z).
Qed.
Lemma shutdown_kept s q : (forall c, q_client q = Some c -> address c) ->
  s_shutdowns (snd (call s q)) = s_shutdowns s \/ s_shutdowns (snd (call s q)) = S (s_shutdowns s).
Proof.
  intros A. destruct (call_state s q A) as [(l0 & l & _ & H & _ & ->)|[(H & E & R & _ & ->)|(-> & _ & H)]]; cbn; auto.
Qed.
Lemma level_iff s q l0 l : (forall c, q_client q = Some c -> address c) -> s_level s = Some l0 ->
  s_level (snd (call s q)) = Some l <-> sets_level utf8 parse_filter q l \/ l = l0 /\ forall l', ~ sets_level utf8 parse_filter q l'.
Proof.
  intros A E. assert (U : forall l l', sets_level utf8 parse_filter q l -> sets_level utf8 parse_filter q l' -> l = l').
  { intros x y (_ & _ & _ & _ & c & F & _ & P) (_ & _ & _ & _ & d & G & _ & Q).
    apply first_chunk_iff in F. apply first_chunk_iff in G. congruence. }
  destruct (call_state s q A) as [(l1 & l2 & _ & H & _ & ->)|[(H & _ & _ & _ & ->)|(-> & [H|H] & _)]]; cbn [s_level].
  - split.
    + intros X. injection X as <-. left. exact H.
    + intros [X|(_ & X)]; [rewrite (U _ _ X H); reflexivity|destruct (X _ H)].
  - rewrite E. assert (N : forall l', ~ sets_level utf8 parse_filter q l').
    { intros l' (P & _). destruct H as (P' & _). rewrite P in P'. discriminate. }
    split; [intros X; injection X as <-; right; auto|]. intros [X|[-> _]]; [destruct (N _ X)|reflexivity].
  - rewrite E. split; [intros X; injection X as <-; right; auto|]. intros [X|[-> _]]; [destruct (H _ X)|reflexivity].
  - congruence.
Qed.
Lemma call_latches s q : (forall c, q_client q = Some c -> address c) -> s_latches (snd (call s q)) = s_latches s.
Proof. intros A. destruct (call_state s q A) as [(l1 & l2 & _ & H & _ & ->)|[(H & _ & _ & _ & ->)|(-> & _)]]; reflexivity. Qed.
Lemma call_logless s q : (forall c, q_client q = Some c -> address c) -> s_level s = None -> s_level (snd (call s q)) = None.
Proof. intros A N. destruct (call_state s q A) as [(l1 & l2 & X & H & _ & ->)|[(H & _ & _ & _ & ->)|(-> & _)]]; cbn; congruence. Qed.
Lemma call_receiver s q : (forall c, q_client q = Some c -> address c) -> s_receiver (snd (call s q)) = s_receiver s.
Proof. intros A. destruct (call_state s q A) as [(l1 & l2 & _ & H & _ & ->)|[(H & _ & _ & _ & ->)|(-> & _)]]; reflexivity. Qed.

(** ** Histories *)

Lemma run_receiver es : forall s s', addressed es -> run s es = Some s' ->
  (In Receiver_gone es -> s_receiver s' = false) /\ (~ In Receiver_gone es -> s_receiver s' = s_receiver s).
Proof.
  assert (K : forall es s s', addressed es -> run s es = Some s' -> s_receiver s = false -> s_receiver s' = false).
  { clear. intros es. induction es as [|e es IH]; intros s s' A H F; cbn in H; [injection H as <-; exact F|].
    assert (A' : addressed es) by (intros q I; apply A; right; exact I).
    destruct e as [q| | |]; cbn [step] in H.
    - apply (IH _ _ A' H). rewrite (call_receiver s q (A q (or_introl eq_refl))). exact F.
    - destruct (s_latches s); [discriminate|]. exact (IH _ _ A' H F).
    - destruct (s_latches s); [discriminate|]. exact (IH _ _ A' H F).
    - exact (IH _ _ A' H eq_refl). }
  induction es as [|e es IH]; intros s s' A H; cbn in H; [injection H as <-; split; [intros []|reflexivity]|].
  assert (A' : addressed es) by (intros q I; apply A; right; exact I).
  destruct e as [q| | |]; cbn [step] in H.
  - destruct (IH _ _ A' H) as (P & Q). rewrite (call_receiver s q (A q (or_introl eq_refl))) in Q. split.
    + intros [X|X]; [discriminate|exact (P X)].
    + intros X. apply Q. intros Y. apply X. right. exact Y.
  - destruct (s_latches s); [discriminate|]. destruct (IH _ _ A' H) as (P & Q). split.
    + intros [X|X]; [discriminate|exact (P X)].
    + intros X. apply Q. intros Y. apply X. right. exact Y.
  - destruct (s_latches s); [discriminate|]. destruct (IH _ _ A' H) as (P & Q). split.
    + intros [X|X]; [discriminate|exact (P X)].
    + intros X. apply Q. intros Y. apply X. right. exact Y.
  - split; [intros _; exact (K _ _ _ A' H eq_refl)|]. intros X. exfalso. apply X. left. reflexivity.
Qed.


Lemma run_latches es : forall s s', addressed es -> run s es = Some s' ->
  (s_latches s + count cloned es = s_latches s' + count dropped es)%nat.
Proof.
  induction es as [|e es IH]; intros s s' A H; cbn in H.
  - injection H as <-. reflexivity.
  - assert (A' : addressed es) by (intros q I; apply A; right; exact I).
    destruct e as [q| | |]; cbn [step] in H.
    + specialize (IH _ _ A' H). rewrite (call_latches s q (A q (or_introl eq_refl))) in IH. exact IH.
    + destruct (s_latches s) eqn:E; [discriminate|]. specialize (IH _ _ A' H). cbn [s_latches] in IH. unfold count in *. cbn. lia.
    + destruct (s_latches s) eqn:E; [discriminate|]. specialize (IH _ _ A' H). cbn [s_latches] in IH. unfold count in *. cbn. lia.
    + exact (IH _ _ A' H).
Qed.
Lemma run_ready es s level : addressed es -> run (init level) es = Some s ->
  is_ready s = true <-> count dropped es = S (count cloned es).
Proof. intros A H. apply run_latches in H; [|exact A]. unfold is_ready, init in *. cbn [s_latches] in H. rewrite Nat.eqb_eq. lia. Qed.
Lemma run_app es es' s s' : run s (es ++ es') = Some s' <-> exists m, run s es = Some m /\ run m es' = Some s'.
Proof.
  revert s. induction es as [|e es IH]; intros s; cbn [app AdminModel.run].
  - split; [intros H; exists s; auto|]. intros (m & E & H). injection E as ->. exact H.
  - destruct (step _ _ _ _ _ _ _ s e) as [s1|]; [apply IH|]. split; [discriminate|]. intros (m & E & _). discriminate.
Qed.
Lemma ready_forever es : forall s s', addressed es -> run s es = Some s' -> is_ready s = true -> is_ready s' = true.
Proof.
  induction es as [|e es IH]; intros s s' A H R; cbn in H; [injection H as <-; exact R|].
  assert (A' : addressed es) by (intros q I; apply A; right; exact I).
  unfold is_ready in R. apply Nat.eqb_eq in R. destruct e as [q| | |]; cbn [step] in H.
  - apply (IH _ _ A' H). unfold is_ready. rewrite (call_latches s q (A q (or_introl eq_refl))), R. reflexivity.
  - rewrite R in H. discriminate.
  - rewrite R in H. discriminate.
  - apply (IH _ _ A' H). unfold is_ready. cbn [s_latches]. rewrite R. reflexivity.
Qed.
Lemma ready_rsp_iff s q : q_path q = bs "/ready"%string -> r_status (fst (call s q)) = 200 <-> is_ready s = true.
Proof.
  intros P. unfold AdminModel.call. rewrite P. cbn [beq bs].
  change (beq _ (bs "/live"%string)) with false. change (beq _ (bs "/ready"%string)) with true. cbv iota.
  cbn [fst]. unfold ready_rsp. destruct (is_ready s); cbn; split; congruence.
Qed.

Lemma run_level es : forall l0 s s', addressed es -> s_level s = Some l0 -> run s es = Some s' ->
  exists l, s_level s' = Some l /\ level_after utf8 parse_filter l0 es l.
Proof.
  induction es as [|e es IH] using rev_ind; intros l0 s s' A E H.
  - injection H as <-. exists l0. split; [exact E|]. constructor. intros q l [].
  - assert (A' : addressed es) by (intros q I; apply A; apply in_or_app; left; exact I).
    apply run_app in H as (m & H & K). destruct (IH _ _ _ A' E H) as (l & L & LA). clear IH.
    cbn in K. destruct (step _ _ _ _ _ _ _ m e) as [s1|] eqn:ST; [|discriminate]. injection K as ->.
    assert (KEEP : (forall q x, e = Called q -> ~ sets_level utf8 parse_filter q x) -> level_after utf8 parse_filter l0 (es ++ [e]) l).
    { intros N. destruct LA as [es N'|es q l rest Q N'].
      - constructor. intros q x I. apply in_app_or in I as [I|[I|[]]]; [exact (N' q x I)|exact (N q x I)].
      - rewrite <- app_assoc. cbn [app]. apply Last_set; [exact Q|]. intros q' x I.
        apply in_app_or in I as [I|[I|[]]]; [exact (N' q' x I)|exact (N q' x I)]. }
    destruct e as [q| | |]; cbn [step] in ST.
    + injection ST as <-. assert (AQ : forall c, q_client q = Some c -> address c).
      { apply A. apply in_or_app. right. left. reflexivity. }
      destruct (s_level (snd (call m q))) as [l1|] eqn:L1.
      * exists l1. split; [reflexivity|]. apply (level_iff m q l l1 AQ L) in L1 as [S|[-> N]].
        -- apply Last_set; [exact S|]. intros q' l' [].
        -- apply KEEP. intros q' x F. injection F as <-. apply N.
      * exfalso. destruct (call_state m q AQ) as [(x & y & _ & _ & _ & X)|[(_ & _ & _ & _ & X)|(X & _)]]; rewrite X in L1; cbn in L1; congruence.
    + destruct (s_latches m); [discriminate|]. injection ST as <-. exists l. split; [exact L|]. apply KEEP. discriminate.
    + destruct (s_latches m); [discriminate|]. injection ST as <-. exists l. split; [exact L|]. apply KEEP. discriminate.
    + injection ST as <-. exists l. split; [exact L|]. apply KEEP. discriminate.
Qed.

(** ** Answers *)

Lemma forbidden s q : (forall c, q_client q = Some c -> address c) ->
  (q_path q = bs "/proxy-log-level"%string \/ streaming = true /\ q_path q = bs "/logs.json"%string \/
   q_path q = bs "/shutdown"%string /\ q_method q = bs "POST"%string) ->
  ~ (exists c, q_client q = Some c /\ on_this_machine c) ->
  r_status (fst (call s q)) = 403 /\ snd (call s q) = s.
Proof.
  intros A P N. assert (C : client_is_localhost q = false).
  { destruct (client_is_localhost q) eqn:E; [|reflexivity]. apply (localhost_iff q A) in E. contradiction. }
  unfold AdminModel.call. destruct P as [P|[[ST P]|[P M]]].
  - rewrite P, C. split; reflexivity.
  - rewrite P, C, ST. split; reflexivity.
  - rewrite P, M, C. destruct streaming; split; reflexivity.
Qed.
Lemma unknown s q : ~ known_path streaming (q_path q) -> fst (call s q) = Response 404 None None [] Nothing /\ snd (call s q) = s.
Proof.
  intros N. unfold AdminModel.call.
  assert (B : forall p, In p [bs "/live"%string; bs "/ready"%string; bs "/metrics"%string; bs "/proxy-log-level"%string;
        bs "/env.json"%string; bs "/shutdown"%string] -> beq (q_path q) p = false).
  { intros p I. destruct (beq (q_path q) p) eqn:E; [|reflexivity]. apply beq_eq in E. destruct N. left. rewrite E. exact I. }
  assert (S : streaming && beq (q_path q) (bs "/logs.json"%string) = false).
  { destruct streaming; [|reflexivity]. cbn [andb]. destruct (beq (q_path q) (bs "/logs.json"%string)) eqn:E; [|reflexivity].
    apply beq_eq in E. destruct N. right. auto. }
  rewrite S. rewrite !B by (cbn; tauto). split; reflexivity.
Qed.

Lemma first_value n hs : hm_get hs n = hd_error (RouteModel.get_all n hs).
Proof.
  unfold hm_get, RouteModel.get_all. induction hs as [|[m v] hs IH]; [reflexivity|]. cbn [find filter fst].
  destruct (beq m n); [reflexivity|exact IH].
Qed.
Lemma accepts_iff q : accepts_json utf8 q = None <-> takes_json utf8 q.
Proof.
  unfold accepts_json, takes_json. rewrite first_value. fold ACCEPT.
  destruct (RouteModel.get_all ACCEPT (q_headers q)) as [|a vs] eqn:G; cbn [hd_error].
  - split; [|reflexivity]. intros _ a vs V. apply FilterProofs.values_get_all in V. rewrite G in V. discriminate.
  - split.
    + intros H a' vs' V. apply FilterProofs.values_get_all in V. rewrite G in V. injection V as -> ->.
      destruct (utf8 a); cbn [negb] in H; [|discriminate]. split; [reflexivity|].
      rewrite <- !contains_iff. fold JSON_MIME. destruct (contains JSON_MIME a), (contains (bs "application/*"%string) a),
        (contains (bs "*/*"%string) a); auto. discriminate.
    + intros H. destruct (H a vs) as (U & W); [apply FilterProofs.values_get_all; symmetry; exact G|].
      rewrite U. cbn [negb]. rewrite <- !contains_iff in W. fold JSON_MIME in W. destruct W as [->|[->| ->]]; rewrite ?orb_true_r; reflexivity.
Qed.
Lemma refused_status q r : accepts_json utf8 q = Some r -> r_status r = 400 \/ r_status r = 406.
Proof.
  unfold accepts_json. destruct (hm_get _ _); [|discriminate]. destruct (negb _); [intros H; injection H as <-; auto|].
  destruct (_ || _); [discriminate|]. intros H. injection H as <-. auto.
Qed.
Lemma gzip_iff q : is_gzip q = true <-> takes_gzip q.
Proof.
  unfold is_gzip, takes_gzip. rewrite existsb_exists. split.
  - intros (v & H & B). apply in_get_all in H. exists v. split; [exact H|].
    destruct (to_str v) as [t|] eqn:T; [|discriminate]. apply (ConnectProofs.to_str_text Some) in T as [-> T].
    split; [exact T|]. apply contains_iff. exact B.
  - intros (v & H & T & S). exists v. split; [apply in_get_all; exact H|].
    assert (E : to_str v = Some v) by (apply (ConnectProofs.to_str_text Some); auto). rewrite E.
    apply contains_iff. exact S.
Qed.
Lemma metrics_answer s q : q_path q = bs "/metrics"%string ->
  snd (call s q) = s /\ r_status (fst (call s q)) = 200 /\
  (r_body (fst (call s q)) = Metrics true /\ r_encoding (fst (call s q)) = Some (bs "gzip"%string) /\ takes_gzip q \/
   r_body (fst (call s q)) = Metrics false /\ r_encoding (fst (call s q)) = None /\ ~ takes_gzip q).
Proof.
  intros P. assert (E : call s q = (metrics_rsp q, s)) by (unfold AdminModel.call; rewrite P; reflexivity).
  rewrite E. cbn [fst snd]. split; [reflexivity|]. unfold metrics_rsp. rewrite <- gzip_iff.
  destruct (is_gzip q); cbn; (split; [reflexivity|]); [left; auto|right; split; [reflexivity|]; split; [reflexivity|discriminate]].
Qed.
Lemma env_answer s q : q_path q = bs "/env.json"%string -> call s q = (env_rsp env lossy utf8 q, s).
Proof. intros P. unfold AdminModel.call. rewrite P. destruct streaming; reflexivity. Qed.
Lemma env_var_iff k v : NoDup (map fst env) ->
  env_var env lossy k = Some v <-> exists raw, In (k, raw) env /\ v = lossy raw.
Proof.
  unfold env_var. intros D. induction env as [|[m w] l IH]; cbn [find fst].
  - split; [discriminate|]. intros (r & [] & _).
  - cbn in D. apply NoDup_cons_iff in D as [N D]. specialize (IH D). destruct (beq m k) eqn:B.
    + apply beq_eq in B. subst m. split.
      * intros E. injection E as <-. exists w. split; [left; reflexivity|reflexivity].
      * intros (r & [E|I] & ->); [injection E as ->; reflexivity|]. destruct N. apply in_map_iff. exists (k, r). auto.
    + rewrite IH. split; intros (r & I & ->).
      * exists r. split; [right; exact I|reflexivity].
      * destruct I as [E|I]; [injection E as -> _; rewrite beq_refl in B; discriminate|]. exists r. auto.
Qed.
Lemma env_all s q : q_path q = bs "/env.json"%string -> q_method q = bs "GET"%string -> takes_json utf8 q -> q_query q = None ->
  fst (call s q) = Response 200 (Some (bs "application/json"%string)) None []
    (Environment (map (fun kv => (lossy (fst kv), Some (lossy (snd kv)))) env)).
Proof.
  intros P M J Q. rewrite (env_answer s q P). cbn [fst]. unfold env_rsp. rewrite M. cbn [negb].
  apply accepts_iff in J. rewrite J, Q. reflexivity.
Qed.
Lemma join_split c names : names <> [] -> (forall n, In n names -> ~ In c n) -> split c (join c names) = names.
Proof.
  induction names as [|n names IH]; [congruence|]. intros _ F. destruct names as [|m names].
  - cbn [join]. apply split_none. apply F. left. reflexivity.
  - change (join c (n :: m :: names)) with (n ++ c :: join c (m :: names)).
    rewrite split_app_sep by (apply F; left; reflexivity). f_equal. apply IH; [discriminate|].
    intros k I. apply F. right. exact I.
Qed.
Lemma env_asked s q query names : q_path q = bs "/env.json"%string -> q_method q = bs "GET"%string -> takes_json utf8 q ->
  NoDup (map fst env) -> q_query q = Some query -> ~ In 61 query -> names <> [] -> query = join 38 names ->
  (forall n, In n names -> ~ In 38 n) ->
  exists vars, r_status (fst (call s q)) = 200 /\ r_body (fst (call s q)) = Environment vars /\
    (forall k, In k names <-> exists v, In (k, v) vars) /\
    (forall k v, In (k, v) vars -> forall x, v = Some x <-> exists raw, In (k, raw) env /\ x = lossy raw).
Proof.
  intros P M J D Q N NE -> F. exists (map (fun p => (p, env_var env lossy p)) names).
  rewrite (env_answer s q P). cbn [fst]. unfold env_rsp. rewrite M. cbn [negb].
  apply accepts_iff in J. rewrite J, Q.
  assert (C : contains (bs "="%string) (join 38 names) = false).
  { destruct (contains _ _) eqn:C; [|reflexivity]. apply contains_iff in C as (a & b & E). destruct N. rewrite E.
    apply in_or_app. right. left. reflexivity. }
  rewrite C, join_split; [|exact NE|exact F]. split; [reflexivity|]. split; [reflexivity|]. split.
  - intros k. split.
    + intros I. exists (env_var env lossy k). apply in_map_iff. exists k. auto.
    + intros (v & I). apply in_map_iff in I as (k' & E & I). injection E as -> _. exact I.
  - intros k v I x. apply in_map_iff in I as (k' & E & I). injection E as -> <-. apply env_var_iff. exact D.
Qed.
Lemma env_refused s q : q_path q = bs "/env.json"%string ->
  r_status (fst (call s q)) = 200 <->
  q_method q = bs "GET"%string /\ takes_json utf8 q /\ forall query, q_query q = Some query -> ~ In 61 query.
Proof.
  intros P. rewrite (env_answer s q P). cbn [fst]. unfold env_rsp. rewrite <- accepts_iff. fold GET. split.
  - destruct (beq (q_method q) GET) eqn:M; cbn [negb]; [|discriminate]. apply beq_eq in M.
    destruct (accepts_json utf8 q) as [r|] eqn:A.
    { intros H. destruct (refused_status q r A) as [X|X]; rewrite X in H; discriminate. }
    intros H. split; [exact M|]. split; [reflexivity|]. intros query Q I. rewrite Q in H.
    assert (C : contains (bs "="%string) query = true).
    { apply contains_iff. apply in_split in I as (a & b & ->). exists a, b. reflexivity. }
    rewrite C in H. discriminate.
  - intros (-> & -> & Q). cbn [negb]. rewrite beq_refl. cbn [negb]. destruct (q_query q) as [query|]; [|reflexivity].
    destruct (contains (bs "="%string) query) eqn:C; [|reflexivity]. exfalso.
    apply contains_iff in C as (a & b & ->). apply (Q _ eq_refl). apply in_or_app. right. left. reflexivity.
Qed.

(** ** The stack *)

Section Stack.
Variables (pq_valid : bytes -> bool) (draw : nat -> bool) (p : PolicyModel.protocol) (t : tls) (limit : bool).
Notation admin_request := (admin_request enable_shutdown streaming env lossy utf8 parse_filter parse_stream pq_valid draw p t limit).
Notation allowed remote req u hs := (fst (PolicyModel.call pq_valid draw p remote t req u limit) = PolicyModel.R_forward hs).

Lemma answered remote req u q s r : fst (admin_request remote req u q s) = inl r ->
  exists hs, allowed remote req u hs /\
    (r, snd (admin_request remote req u q s)) =
    call s (Request (q_method q) (q_path q) (q_query q) hs (Some remote) (q_frames q) (q_broken q)).
Proof.
  unfold AdminModel.admin_request. destruct (fst (PolicyModel.call pq_valid draw p remote t req u limit)) as [hs| | | | | | | | |] eqn:E;
    try discriminate. destruct (call s _) as [r' s'] eqn:C. cbn [fst snd]. intros H. injection H as ->.
  exists hs. rewrite C. auto.
Qed.
Lemma changed remote req u q s : address remote -> snd (admin_request remote req u q s) <> s ->
  on_this_machine remote /\ exists hs, allowed remote req u hs.
Proof.
  intros A. unfold AdminModel.admin_request.
  destruct (fst (PolicyModel.call pq_valid draw p remote t req u limit)) as [hs| | | | | | | | |] eqn:E;
    try (intros H; destruct (H eq_refl); fail).
  set (q' := Request _ _ _ _ _ _ _). intros H. split; [|exists hs; reflexivity].
  destruct (changes_locally s q') as (c & C & O).
  - intros c C. injection C as <-. exact A.
  - intros X. apply H. destruct (call s q'). exact X.
  - injection C as <-. exact O.
Qed.
End Stack.
End Calls.

Lemma http_iff t d v : admin_http t d = Some v <->
  d = Detected v \/ d = Timed_out /\ (t = No_tls /\ v = PolicyModel.V_http1 \/ (exists c, t = Established c) /\ v = PolicyModel.V_h2).
Proof.
  destruct d as [w| |]; cbn [admin_http].
  - split; [intros H; injection H as ->; auto|]. intros [H|(H & _)]; [injection H as ->; reflexivity|discriminate].
  - split; [discriminate|]. intros [H|(H & _)]; discriminate.
  - destruct t as [c| |]; split; intros H;
      repeat match goal with
             | H : Some _ = Some _ |- _ => injection H as <-
             | H : _ \/ _ |- _ => destruct H
             | H : _ /\ _ |- _ => destruct H
             | H : exists _, _ |- _ => destruct H
             | H : _ = _ |- _ => discriminate H
             end; subst; eauto 8.
Qed.

Section Answers.
Variables (shutdown streaming : bool) (env : list (bytes * bytes)) (lossy : bytes -> bytes) (utf8 : bytes -> bool) (parse parse_stream : bytes -> option bytes).
Notation call := (call shutdown streaming env lossy utf8 parse parse_stream).
Lemma live_told s q : q_path q = bs "/live"%string ->
  r_status (fst (call s q)) = 200 /\ r_body (fst (call s q)) = Text (bs "live"%string) /\ snd (call s q) = s.
Proof. intros P. unfold AdminModel.call. rewrite P. repeat split. Qed.
Lemma local_is q c : q_client q = Some c -> address c -> on_this_machine c -> client_is_localhost q = true.
Proof. intros C A L. apply localhost_iff; [congruence|]. eauto. Qed.
Lemma level_told s q c l : q_client q = Some c -> address c -> on_this_machine c ->
  q_path q = bs "/proxy-log-level"%string -> q_method q = bs "GET"%string -> s_level s = Some l ->
  r_status (fst (call s q)) = 200 /\ r_body (fst (call s q)) = Log_level l /\ snd (call s q) = s.
Proof.
  intros C A L P M E. unfold AdminModel.call. rewrite P, (local_is q c C A L), E. cbn [beq bs].
  unfold level_serve. rewrite M. repeat split.
Qed.
Lemma chunk_found fs : fs = [] /\ first_chunk fs = [] \/
  exists es rest, fs = es ++ first_chunk fs :: rest /\ (forall e, In e es -> e = []) /\ (first_chunk fs = [] -> rest = []).
Proof.
  induction fs as [|fr frs IH]; [left; split; reflexivity|]. right. destruct fr as [|b fr].
  - cbn [first_chunk]. destruct IH as [[-> ->]|(es & rest & E & ES & R)].
    + exists [], []. repeat split. intros e [].
    + exists ([] :: es), rest. split; [rewrite E at 1; reflexivity|]. split; [|exact R]. intros e [<-|I]; [reflexivity|exact (ES e I)].
  - exists [], frs. split; [reflexivity|]. split; [intros e []|discriminate].
Qed.
Lemma frame_iff q ch : first_frame q ch <-> ch = first_chunk (q_frames q).
Proof.
  split; [|intros ->; apply chunk_found]. intros [[-> ->]|(es & rest & -> & ES & R)]; [reflexivity|]. induction es as [|e es IH].
  - destruct ch as [|b ch]; [|reflexivity]. rewrite (R eq_refl). reflexivity.
  - rewrite (ES e (or_introl eq_refl)). cbn. apply IH. intros x I. apply ES. right. exact I.
Qed.
Lemma level_answer s q c first : q_client q = Some c -> address c -> on_this_machine c ->
  q_path q = bs "/proxy-log-level"%string -> q_method q = bs "PUT"%string -> s_level s = Some first ->
  r_status (fst (call s q)) = 204 <-> exists l, sets_level utf8 parse q l.
Proof.
  intros C A L P M E.
  assert (AQ : forall d, q_client q = Some d -> address d) by congruence.
  assert (LI := fun l => level_iff shutdown streaming env lossy utf8 parse parse_stream s q first l AQ E).
  unfold AdminModel.call in *. rewrite P, (local_is q c C A L), E in *.
  change (beq (bs "/proxy-log-level"%string) (bs "/live"%string)) with false in *.
  change (beq (bs "/proxy-log-level"%string) (bs "/ready"%string)) with false in *.
  change (beq (bs "/proxy-log-level"%string) (bs "/metrics"%string)) with false in *.
  change (beq (bs "/proxy-log-level"%string) (bs "/proxy-log-level"%string)) with true in *. cbv iota in *. cbn [negb] in *.
  unfold level_serve in *. rewrite M in *. change (beq (bs "PUT"%string) GET) with false in *. change (beq (bs "PUT"%string) PUT) with true in *. cbv iota in *.
  assert (Z : sets_level utf8 parse q first -> exists chunk, q_broken q = false /\ utf8 chunk = true /\ parse chunk = Some first /\ chunk = first_chunk (q_frames q)).
  { intros (_ & _ & _ & B & ch & F & U & PA). exists ch. split; [exact B|]. split; [exact U|]. split; [exact PA|].
    destruct F as [[-> ->]|(es & rest & -> & ES & R)]; [reflexivity|]. induction es as [|e es IH].
    - destruct ch as [|b ch]; [|reflexivity]. rewrite (R eq_refl). reflexivity.
    - rewrite (ES e (or_introl eq_refl)). cbn. apply IH. intros x I. apply ES. right. exact I. }
  destruct (q_broken q) eqn:B.
  - cbn [fst snd r_status internal_error_rsp]. split; [discriminate|]. intros (l & _ & _ & _ & X & _). congruence.
  - destruct (if utf8 (first_chunk (q_frames q)) then parse (first_chunk (q_frames q)) else None) as [f|] eqn:Q; cbn [fst snd r_status s_level] in *.
    + split; [|reflexivity]. intros _. destruct (proj1 (LI f) eq_refl) as [S|[-> N]]; [exists f; exact S|].
      exfalso. apply (N first). split; [exact P|]. split; [exact M|]. split; [eauto|]. split; [exact B|].
      exists (first_chunk (q_frames q)). split; [|destruct (utf8 _); [split; [reflexivity|exact Q]|discriminate]].
      apply chunk_found.
    + split; [discriminate|]. intros (l & S). exfalso. assert (l = first).
      { pose proof (proj2 (LI l) (or_introl S)) as X. congruence. }
      subst l. destruct (Z S) as (ch & _ & U & PA & ->). rewrite U in Q. congruence.
Qed.
Lemma shutdown_answer s q : shuts_down q -> (forall c, q_client q = Some c -> address c) ->
  r_status (fst (call s q)) = (if shutdown then if s_receiver s then 200 else 500 else 404).
Proof.
  intros (P & M & c & C & L) A. unfold AdminModel.call. rewrite P, M, (local_is q c C (A c C) L).
  change (beq (bs "/shutdown"%string) (bs "/logs.json"%string)) with false. rewrite andb_false_r.
  cbv -[AdminModel.shutdown fst r_status s_receiver]. unfold AdminModel.shutdown. destruct shutdown; [|reflexivity]. cbn [negb]. destruct (s_receiver s); reflexivity.
Qed.
Lemma stream_iff s q c f : q_client q = Some c -> address c -> on_this_machine c -> streaming = true ->
  q_path q = bs "/logs.json"%string ->
  r_body (fst (call s q)) = Log_stream f <->
  takes_json utf8 q /\
  (q_method q = bs "GET"%string /\ (exists query, q_query q = Some query /\ parse_stream query = Some f) \/
   q_method q = bs "QUERY"%string /\ q_broken q = false /\
   exists chunk, first_frame q chunk /\ utf8 chunk = true /\ parse_stream chunk = Some f).
Proof.
  intros C A L ST P. unfold AdminModel.call. rewrite P, (local_is q c C A L), ST.
  change (beq (bs "/logs.json"%string) (bs "/live"%string)) with false.
  change (beq (bs "/logs.json"%string) (bs "/ready"%string)) with false.
  change (beq (bs "/logs.json"%string) (bs "/metrics"%string)) with false.
  change (beq (bs "/logs.json"%string) (bs "/proxy-log-level"%string)) with false.
  change (beq (bs "/logs.json"%string) (bs "/logs.json"%string)) with true. cbn [negb andb fst].
  unfold stream_serve. assert (J := accepts_iff utf8 q).
  assert (K : forall m, ~ (accepts_json utf8 q = Some m /\ r_body m = Log_stream f)).
  { intros m [X Y]. unfold accepts_json in X. destruct (TraceModel.hm_get _ _) as [a|]; [|discriminate].
    destruct (utf8 a); cbn [negb] in X; [destruct (_ || _); [discriminate|]|]; injection X as <-; discriminate. }
  destruct (accepts_json utf8 q) as [m|].
  { split; [intros X; destruct (K m); auto|intros [T _]; apply J in T; discriminate]. }
  destruct (beq (q_method q) GET) eqn:G.
  - apply beq_eq in G. destruct (q_query q) as [query|].
    + destruct (parse_stream query) as [g|] eqn:PG; cbn [r_body json_error_rsp].
      * split; [intros [= ->]; split; [tauto|]; left; eauto|].
        intros [_ [[_ (x & [= <-] & X)]|[M _]]]; [congruence|rewrite G in M; discriminate M].
      * split; [discriminate|]. intros [_ [[_ (x & [= <-] & X)]|[M _]]]; [congruence|rewrite G in M; discriminate M].
    + split; [discriminate|]. intros [_ [[_ (x & [=] & X)]|[M _]]]. rewrite G in M. discriminate M.
  - assert (NG : q_method q <> bs "GET"%string) by (intros X; rewrite X in G; discriminate G). clear G.
    destruct (beq (q_method q) QUERY) eqn:Q.
    + apply beq_eq in Q. destruct (q_broken q) eqn:B.
      * split; [discriminate|]. intros [_ [[M _]|[_ [X _]]]]; [contradiction|discriminate].
      * assert (F := fun ch => frame_iff q ch). assert (F1 := proj2 (F _) eq_refl).
        destruct (utf8 (first_chunk (q_frames q))) eqn:U; cbn [negb].
        -- destruct (parse_stream (first_chunk (q_frames q))) as [g|] eqn:PG; cbn [r_body json_error_rsp].
           ++ split; [intros [= ->]; split; [tauto|]; right; split; [exact Q|]; split; [reflexivity|]; eauto|].
              intros [_ [[M _]|(_ & _ & ch & X & _ & Y)]]; [contradiction|]. apply F in X. subst ch. congruence.
           ++ split; [discriminate|]. intros [_ [[M _]|(_ & _ & ch & X & _ & Y)]]; [contradiction|]. apply F in X. subst ch. congruence.
        -- split; [discriminate|]. intros [_ [[M _]|(_ & _ & ch & X & Y & _)]]; [contradiction|]. apply F in X. subst ch. congruence.
    + split; [discriminate|]. intros [_ [[M _]|[M _]]]; [contradiction|]. rewrite M in Q. discriminate Q.
Qed.
End Answers.

Lemma receiver_told shutdown streaming env lossy utf8 parse parse_stream es level s q : addressed es ->
  run shutdown streaming env lossy utf8 parse parse_stream (init level) es = Some s ->
  shuts_down q -> (forall c, q_client q = Some c -> address c) -> shutdown = true ->
  (In Receiver_gone es -> r_status (fst (call shutdown streaming env lossy utf8 parse parse_stream s q)) = 500) /\
  (~ In Receiver_gone es -> r_status (fst (call shutdown streaming env lossy utf8 parse parse_stream s q)) = 200).
Proof.
  intros D R S A ->. destruct (run_receiver true streaming env lossy utf8 parse parse_stream es (init level) s D R) as (P & Q).
  rewrite (shutdown_answer true streaming env lossy utf8 parse parse_stream s q S A).
  split; intros X; [rewrite (P X)|rewrite (Q X)]; reflexivity.
Qed.
