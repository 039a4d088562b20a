From Coq Require Import List Arith NArith Bool Lia ZifyBool ZifyNat ZifyN.
From Verif Require Import Bytes BytesProofs DuplexModel DuplexSpec.
Import ListNotations.
Open Scope nat_scope.

(** ** Traces *)

Lemma across_across s : across (across s) = s.
Proof. destruct s; reflexivity. Qed.
Lemma side_dec (s t : side) : s = t \/ s = across t.
Proof. destruct s, t; auto. Qed.
Lemma reads_app s a b : reads s (a ++ b) = reads s a ++ reads s b.
Proof. apply flat_map_app. Qed.
Lemma writes_app s a b : writes s (a ++ b) = writes s a ++ writes s b.
Proof. apply flat_map_app. Qed.
Lemma calls_app s a b : calls s (a ++ b) = calls s a ++ calls s b.
Proof. apply filter_app. Qed.
Lemma eof_app s a b : eof s (a ++ b) <-> eof s a \/ eof s b.
Proof. apply in_app_iff. Qed.
Lemma shut_app s a b : shut s (a ++ b) <-> shut s a \/ shut s b.
Proof. apply in_app_iff. Qed.
Lemma calls_one s e : direction e = s -> calls s [e] = [e].
Proof. intros <-. cbn. destruct (direction e); reflexivity. Qed.
Lemma calls_other s e : direction e = across s -> calls s [e] = [].
Proof. intro E. cbn. rewrite E. destruct s; reflexivity. Qed.
Lemma snoc_inj' {A} (a b : list A) x y : a ++ [x] = b ++ [y] -> a = b /\ x = y.
Proof. apply app_inj_tail. Qed.

Lemma due_snoc s tr e : direction e = s -> (flush_due s (tr ++ [e]) <-> e = Event (across s) (Flush Pending)).
Proof.
  intro E. unfold flush_due. rewrite calls_app, (calls_one _ _ E). split.
  - intros (l & H). apply app_inj_tail in H. tauto.
  - intros ->. eauto.
Qed.
Lemma due_other s tr e : direction e = across s -> (flush_due s (tr ++ [e]) <-> flush_due s tr).
Proof. intro E. unfold flush_due. rewrite calls_app, (calls_other _ _ E), app_nil_r. tauto. Qed.

(** What a direction's state says about the calls *)
Definition dir (s : side) (h dst : half) (tr : list event) : Prop :=
  match h_buf h with
  | Some b => reads s tr = writes (across s) tr ++ b /\ (len b <= CAPACITY)%N /\ ~ eof s tr
  | None => reads s tr = writes (across s) tr /\ eof s tr
  end /\
  (h_is_shutdown dst = true <-> shut (across s) tr) /\
  (h_is_shutdown dst = true -> h_buf h = None) /\
  (h_flushing h = true <-> flush_due s tr) /\
  (h_flushing h = true -> h_buf h <> None).

Definition legal (tr : list event) : Prop := forall pre e post, tr = pre ++ e :: post -> allowed pre e.
Lemma legal_snoc tr e : legal tr -> allowed tr e -> legal (tr ++ [e]).
Proof.
  intros L A pre x post E. destruct post as [|y post] using rev_ind.
  - apply app_inj_tail in E. destruct E as [<- <-]. exact A.
  - rewrite app_comm_cons, app_assoc in E. apply app_inj_tail in E. destruct E as [-> _]. eapply L. reflexivity.
Qed.

(** A call for one direction says nothing about the other. *)
Lemma dir_other s h dst tr e : direction e = across s -> dir s h dst tr -> dir s h dst (tr ++ [e]).
Proof.
  intros E. unfold dir. rewrite (due_other _ _ _ E), reads_app, writes_app.
  assert (R : reads s [e] = [] /\ writes (across s) [e] = [] /\ (eof s (tr ++ [e]) <-> eof s tr) /\ (shut (across s) (tr ++ [e]) <-> shut (across s) tr)).
  { rewrite eof_app, shut_app. destruct e as [t c]. unfold direction in E. cbn [ev_sock ev_call] in E.
    unfold eof, shut. cbn [reads writes flat_map]. destruct c as [r|b r|r|r]; subst; destruct s; try destruct t; cbn [across] in *; try discriminate;
    (repeat split; try (destruct r; reflexivity); try tauto; try (intros [H|[H|[]]]; [exact H|discriminate H])). }
  destruct R as (R1 & R2 & R3 & R4). rewrite R1, R2, R4. destruct (h_buf h); rewrite ?R3, !app_nil_r; trivial.
Qed.

(** ** Triples *)

Definition triple {A} (P : list event -> Prop) (m : M A) (Q : A -> list event -> Prop) : Prop :=
  forall answers tr, P tr -> legal tr ->
    match m (answers, tr) with
    | (Some a, (_, tr')) => Q a tr' /\ legal tr'
    | (None, (_, tr')) => legal tr'
    end.
Lemma t_ret {A} (a : A) (P : list event -> Prop) (Q : A -> list event -> Prop) : (forall tr, P tr -> Q a tr) -> triple P (ret a) Q.
Proof. intros H answers tr Hp L. cbn. auto. Qed.
Lemma t_bind {A B} (m : M A) (k : A -> M B) (P : list event -> Prop) Q R : triple P m Q -> (forall a, triple (Q a) (k a) R) -> triple P (bind m k) R.
Proof.
  intros H K answers tr Hp L. specialize (H answers tr Hp L). unfold bind. destruct (m (answers, tr)) as [[a|] [ans tr']].
  - destruct H as [Hq L']. exact (K a ans tr' Hq L').
  - exact H.
Qed.
Lemma t_none {A} (P : list event -> Prop) (Q : A -> list event -> Prop) : triple P (fun st => (None, st)) Q.
Proof. intros answers tr Hp L. exact L. Qed.
Lemma t_weaken {A} (m : M A) (P P' : list event -> Prop) Q : (forall tr, P tr -> P' tr) -> triple P' m Q -> triple P m Q.
Proof. intros H T answers tr Hp L. apply T; auto. Qed.
Lemma t_ask {A} t (mk : poll A -> call) f (P : list event -> Prop) (Q : poll A -> list event -> Prop) :
  (forall tr r, P tr -> (match r with Ready a => exists x, a = f x | _ => True end) -> allowed tr (Event t (mk r))) ->
  (forall tr r, P tr -> (match r with Ready a => exists x, a = f x | _ => True end) -> Q r (tr ++ [Event t (mk r)])) ->
  triple P (ask t mk f) Q.
Proof.
  intros A1 A2 answers tr Hp L. unfold ask. destruct answers as [|a answers]; [exact L|].
  split.
  - apply A2; [exact Hp|]. destruct (a_status a); eauto.
  - apply legal_snoc; [exact L|]. apply A1; [exact Hp|]. destruct (a_status a); eauto.
Qed.

(** ** The parts of a copy *)

Lemma dir_shut s h h' dst dst' tr : h_buf h = h_buf h' -> h_flushing h = h_flushing h' -> h_is_shutdown dst = h_is_shutdown dst' ->
  dir s h dst tr -> dir s h' dst' tr.
Proof. unfold dir. intros -> -> ->. trivial. Qed.

(** What holds throughout a copy from [s] *)
Definition st (tr0 : list event) (s : side) (h dst : half) (tr : list event) : Prop :=
  dir s h dst tr /\ dir (across s) dst h tr /\ exists evs, tr = tr0 ++ evs /\ calls (across s) evs = [].
Definition last_call (tr0 : list event) (s : side) (e : event) (tr : list event) : Prop :=
  exists evs a, tr = tr0 ++ evs /\ calls s evs = a ++ [e].
Definition clean (tr0 : list event) (s : side) (tr : list event) : Prop :=
  exists evs, tr = tr0 ++ evs /\ (flushed s evs \/ congested s evs).

Lemma evs_snoc tr0 s tr e : direction e = s -> (exists evs, tr = tr0 ++ evs /\ calls (across s) evs = []) ->
  exists evs, tr ++ [e] = tr0 ++ evs /\ calls (across s) evs = [].
Proof.
  intros E (evs & -> & C). exists (evs ++ [e]). rewrite app_assoc. split; [reflexivity|]. rewrite calls_app, C.
  apply calls_other. rewrite across_across. exact E.
Qed.
Lemma last_snoc tr0 s tr e : direction e = s -> (exists evs, tr = tr0 ++ evs /\ calls (across s) evs = []) -> last_call tr0 s e (tr ++ [e]).
Proof.
  intros E (evs & -> & C). exists (evs ++ [e]), (calls s evs). rewrite app_assoc. split; [reflexivity|]. rewrite calls_app, (calls_one _ _ E). reflexivity.
Qed.

(** A half with its buffer or its flag changed *)
Lemma st_other tr0 s h dst h' tr e : direction e = s -> h_is_shutdown h' = h_is_shutdown h -> st tr0 s h dst tr ->
  dir s h' dst (tr ++ [e]) -> st tr0 s h' dst (tr ++ [e]).
Proof.
  intros E S (D & D' & V) N. split; [exact N|]. split; [|apply evs_snoc; trivial].
  apply dir_other; [rewrite across_across; exact E|]. eapply dir_shut; [reflexivity|reflexivity|symmetry; exact S|exact D'].
Qed.

Lemma reads_read s r : reads s [Event s (Read r)] = match r with Ready b => b | _ => [] end.
Proof. destruct s, r; cbn; rewrite ?app_nil_r; reflexivity. Qed.
Lemma reads_not s e : (forall r, e <> Event s (Read r)) -> reads s [e] = [].
Proof.
  intro N. destruct e as [t [r|b r|r|r]]; destruct s, t; try destruct r; cbn; rewrite ?app_nil_r; trivial; exfalso; eapply N; reflexivity.
Qed.
Lemma writes_write s b r : writes s [Event s (Write b r)] = match r with Ready n => firstn n b | _ => [] end.
Proof. destruct s, r; cbn; rewrite ?app_nil_r; reflexivity. Qed.
Lemma writes_not s e : (forall b r, e <> Event s (Write b r)) -> writes s [e] = [].
Proof.
  intro N. destruct e as [t [r|b r|r|r]]; destruct s, t; try destruct r; cbn; rewrite ?app_nil_r; trivial; exfalso; eapply N; reflexivity.
Qed.
Lemma eof_one s e : eof s [e] <-> e = Event s (Read (Ready [])).
Proof. unfold eof. cbn. split; [intros [H|[]]; auto|intros ->; auto]. Qed.
Lemma shut_one s e : shut s [e] <-> e = Event s (Shutdown (Ready tt)).
Proof. unfold shut. cbn. split; [intros [H|[]]; auto|intros ->; auto]. Qed.

Definition steady (h dst : half) : Prop := h_flushing h = false /\ h_is_shutdown dst = false.

Lemma poll_buffer_ok tr0 s h dst (C : list event -> Prop) :
  (forall tr e, C tr -> direction e = s -> (forall b r, e <> Event (across s) (Write b r)) -> C (tr ++ [e])) ->
  steady h dst ->
  triple (fun tr => st tr0 s h dst tr /\ C tr) (poll_buffer s h)
    (fun hr tr => st tr0 s (fst hr) dst tr /\ C tr /\ steady (fst hr) dst /\
      match snd hr with
      | Ready Eof => h_buf (fst hr) = None
      | Ready _ => exists c b, h_buf (fst hr) = Some (c :: b)
      | Pending => h_buf (fst hr) = Some [] /\ last_call tr0 s (Event s (Read Pending)) tr
      | Failed f => exists pre e, tr = pre ++ [e] /\ failing e f
      end).
Proof.
  intros HC [F Sh]. unfold poll_buffer. destruct (h_buf h) as [[|c b]|] eqn:B.
  - assert (A : forall tr r, st tr0 s h dst tr -> (match r with Ready a => exists x, a = firstn (N.to_nat CAPACITY) (a_bytes x) | _ => True end) -> allowed tr (Event s (Read r))).
    { intros tr r (D & _) X. unfold dir in D. rewrite B in D. destruct D as ((E & _ & NE) & _ & _ & FD & _).
      unfold allowed. cbn [direction ev_call ev_sock]. rewrite app_nil_r in E. repeat split; trivial; [|rewrite <- FD, F; discriminate].
      intros b' ->. destruct X as (x & ->). unfold len. rewrite firstn_length. change 8192%N with CAPACITY. lia. }
    apply t_bind with (Q := fun r tr => exists tr1, tr = tr1 ++ [Event s (Read r)] /\ st tr0 s h dst tr1 /\ C tr /\
      match r with Ready b => (len b <= CAPACITY)%N | _ => True end).
    + apply t_ask.
      * intros tr r [H _] X. apply A; trivial.
      * intros tr r [H Hc] X. exists tr. repeat split; trivial; try apply H.
        -- apply HC; [exact Hc|reflexivity|intros ? ? Z; discriminate].
        -- destruct r; trivial. destruct X as (x & ->). unfold len. rewrite firstn_length. lia.
    + intros r. destruct r as [[|c b]| |f]; apply t_ret; intros tr (tr1 & -> & S & Hc & L); cbn [fst snd h_flushing h_is_shutdown h_buf];
        (split; [apply (st_other tr0 s h); [reflexivity|reflexivity|exact S|]|split; [exact Hc|split; [split; trivial|]]]);
        try (destruct S as (D & _); unfold dir in *; cbn [h_buf h_flushing]; rewrite ?B in *; destruct D as ((E & LB & NE) & SH & SB & FD & FB);
             rewrite reads_app, writes_app, reads_read, writes_not, app_nil_r, eof_app, eof_one, shut_app, shut_one by (intros ? ? Z; discriminate);
             rewrite app_nil_r in E; rewrite due_snoc by reflexivity;
             rewrite E, ?app_nil_r;
             repeat split; trivial; try tauto; try (intros X; exfalso; congruence); try (intros X; discriminate); try (intros [X|X]; [tauto|discriminate]); try (intro X; left; apply SH; exact X); try (intros [X|X]; [apply SH; exact X|discriminate])).
      * reflexivity.
      * eauto.
      * split; [exact B|]. apply last_snoc; [reflexivity|]. apply S.
      * do 2 eexists. split; [reflexivity|]. reflexivity.
  - apply t_ret. intros tr [S Hc]. cbn [fst snd]. repeat split; trivial; try apply S. eauto.
  - apply t_ret. intros tr [S Hc]. cbn [fst snd]. repeat split; trivial; apply S.
Qed.

Lemma flush_ok tr0 s h dst (C : list event -> Prop) b :
  (forall tr r, C tr -> C (tr ++ [Event (across s) (Flush r)])) ->
  h_buf h = Some b -> h_is_shutdown dst = false ->
  triple (fun tr => st tr0 s h dst tr /\ C tr) (poll_flush s h)
    (fun hr tr => st tr0 s (fst hr) dst tr /\ C tr /\ h_buf (fst hr) = Some b /\
      (exists tr1, tr = tr1 ++ [Event (across s) (Flush (snd hr))] /\ st tr0 s h dst tr1 /\ C tr1) /\
      match snd hr with
      | Ready _ => steady (fst hr) dst
      | Pending => last_call tr0 s (Event (across s) (Flush Pending)) tr
      | Failed f => exists pre e, tr = pre ++ [e] /\ failing e f
      end).
Proof.
  intros HC B Sh. unfold poll_flush, sock_flush.
  assert (DR : forall r, direction (Event (across s) (Flush r)) = s) by (intro; apply across_across).
  apply t_bind with (Q := fun r tr => exists tr1, tr = tr1 ++ [Event (across s) (Flush r)] /\ st tr0 s h dst tr1 /\ C tr1 /\ C tr).
  - apply t_ask.
    + intros tr r [(D & _) _] _. unfold dir in D. rewrite B in D. destruct D as ((E & _ & NE) & _).
      unfold allowed. rewrite DR. cbn [ev_call]. split; trivial.
    + intros tr r [H Hc] _. exists tr. repeat split; trivial; try apply H. apply HC. exact Hc.
  - intro r. apply t_ret. intros tr (tr1 & -> & S & Hc1 & Hc). cbn [fst snd h_buf].
    split; [|split; [exact Hc|split; [exact B|split; [exists tr1; repeat split; trivial; apply S|]]]].
    + apply (st_other tr0 s h); [apply DR|reflexivity|exact S|].
      destruct S as (D & _). unfold dir in *. cbn [h_buf h_flushing]. rewrite B in *. destruct D as ((E & LB & NE) & SH & SB & FD & FB).
      rewrite reads_app, writes_app, reads_not, writes_not, !app_nil_r, eof_app, eof_one, shut_app, shut_one by (intros; discriminate).
      rewrite due_snoc by apply DR.
      repeat split; trivial; try tauto; try (intros X; exfalso; congruence); try (intros [X|X]; [tauto|discriminate]);
        try (intro X; left; apply SH; exact X); try (intros [X|X]; [apply SH; exact X|discriminate]).
      * intro X. destruct r; try discriminate. reflexivity.
      * intro X. inversion X. reflexivity.
      * intros _. discriminate.
    + destruct r as [u| |f].
      * split; [reflexivity|exact Sh].
      * apply last_snoc; [apply DR|apply S].
      * do 2 eexists. split; reflexivity.
Qed.

Lemma drain_loop_ok tr0 s h dst (C : list event -> Prop) :
  (forall tr b r, C tr -> C (tr ++ [Event (across s) (Write b r)])) -> steady h dst ->
  forall fuel b sz,
  triple (fun tr => st tr0 s (Half (Some b) (h_is_shutdown h) (h_flushing h)) dst tr /\ C tr) (drain_loop fuel s b sz)
    (fun br tr => st tr0 s (Half (Some (fst br)) (h_is_shutdown h) (h_flushing h)) dst tr /\ C tr /\
      match snd br with
      | Ready All => fst br = []
      | Ready Partial => fst br <> [] /\ last_call tr0 s (Event (across s) (Write (fst br) Pending)) tr
      | Ready Buffer_empty => b = [] /\ sz = O
      | Pending => False
      | Failed f => exists pre e, tr = pre ++ [e] /\ failing e f
      end).
Proof.
  intros HC [F Sh]. assert (DR : forall b r, direction (Event (across s) (Write b r)) = s) by (intros; apply across_across).
  induction fuel as [|fuel IH]; intros b sz.
  - cbn [drain_loop]. destruct b as [|c b].
    + apply t_ret. intros tr [S Hc]. cbn [fst snd]. split; [exact S|]. split; [exact Hc|]. destruct (Nat.eqb sz 0) eqn:Z; [split; [reflexivity|lia]|reflexivity].
    + apply t_none.
  - cbn [drain_loop]. destruct b as [|c b'].
    + apply t_ret. intros tr [S Hc]. cbn [fst snd]. split; [exact S|]. split; [exact Hc|]. destruct (Nat.eqb sz 0) eqn:Z; [split; [reflexivity|lia]|reflexivity].
    + set (b := c :: b'). assert (NB : b <> []) by discriminate.
      apply t_bind with (Q := fun r tr => st tr0 s (Half (Some (match r with Ready n => skipn n b | _ => b end)) (h_is_shutdown h) (h_flushing h)) dst tr /\ C tr /\
         last_call tr0 s (Event (across s) (Write b r)) tr /\ exists pre, tr = pre ++ [Event (across s) (Write b r)]).
      * unfold poll_write. apply t_ask.
        -- intros tr r [(D & _) _] _. unfold dir in D. cbn [h_buf h_flushing] in D. destruct D as ((E & _ & NE) & _ & _ & FD & _).
           unfold allowed. rewrite DR. cbn [ev_call]. repeat split; trivial. rewrite <- FD, F. discriminate.
        -- intros tr r [S Hc] _. split; [|split; [apply HC; exact Hc|split; [apply last_snoc; [apply DR|apply S]|eauto]]].
           apply (st_other tr0 s (Half (Some b) (h_is_shutdown h) (h_flushing h))); [apply DR|reflexivity|exact S|].
           destruct S as (D & _). unfold dir in *. cbn [h_buf h_flushing] in *. destruct D as ((E & LB & NE) & SH & SB & FD & FB).
           rewrite reads_app, writes_app, reads_not, writes_write, app_nil_r, eof_app, eof_one, shut_app, shut_one by (intros; discriminate).
           rewrite due_snoc by apply DR.
           repeat split; trivial; try tauto; try (intros X; exfalso; congruence); try (intros [X|X]; [tauto|discriminate]);
             try (intro X; left; apply SH; exact X); try (intros [X|X]; [apply SH; exact X|discriminate]); try (intros _; discriminate); try (intro X; discriminate X).
           ++ destruct r as [n| |]; rewrite ?app_nil_r; [|exact E|exact E]. rewrite <- app_assoc, firstn_skipn. exact E.
           ++ destruct r as [n| |]; [|exact LB|exact LB]. unfold len in *. rewrite skipn_length. lia.
      * intros [[|n]| |f].
        -- apply t_ret. intros tr (S & Hc & L & pre & E). cbn [fst snd]. split; [exact S|]. split; [exact Hc|]. do 2 eexists. split; [exact E|reflexivity].
        -- intros ans tr (S & Hc & L & pre & E) Lg. specialize (IH (skipn (Datatypes.S n) b) (sz + Datatypes.S n) ans tr (conj S Hc) Lg).
           destruct (drain_loop fuel s (skipn (Datatypes.S n) b) (sz + Datatypes.S n) (ans, tr)) as [[[b2 r2]|] [ans2 tr2]]; [|exact IH].
           destruct IH as [(S2 & Hc2 & H) L2]. split; [|exact L2]. split; [exact S2|]. split; [exact Hc2|]. cbn [fst snd] in *.
           destruct r2 as [[]| |]; trivial. exfalso. lia.
        -- apply t_ret. intros tr (S & Hc & L & pre & E). cbn [fst snd]. split; [exact S|]. split; [exact Hc|]. split; [exact NB|exact L].
        -- apply t_ret. intros tr (S & Hc & L & pre & E). cbn [fst snd]. split; [exact S|]. split; [exact Hc|]. do 2 eexists. split; [exact E|reflexivity].
Qed.

Lemma drain_ok tr0 s h dst (C : list event -> Prop) b :
  (forall tr b r, C tr -> C (tr ++ [Event (across s) (Write b r)])) -> steady h dst -> h_buf h = Some b -> b <> [] ->
  triple (fun tr => st tr0 s h dst tr /\ C tr) (drain_into s h)
    (fun hr tr => st tr0 s (fst hr) dst tr /\ C tr /\ steady (fst hr) dst /\ exists b', h_buf (fst hr) = Some b' /\
      match snd hr with
      | Ready All => b' = []
      | Ready Partial => last_call tr0 s (Event (across s) (Write b' Pending)) tr
      | Ready Buffer_empty | Pending => False
      | Failed f => exists pre e, tr = pre ++ [e] /\ failing e f
      end).
Proof.
  intros HC Sd B NB. unfold drain_into. rewrite B. destruct h as [hb hs hf]. cbn [h_buf] in B. subst hb.
  eapply t_bind; [exact (drain_loop_ok tr0 s (Half (Some b) hs hf) dst C HC Sd (List.length b) b 0)|].
  intros [b' r]. apply t_ret. intros tr (S & Hc & H). cbn [fst snd h_buf h_is_shutdown h_flushing] in *.
  split; [exact S|]. split; [exact Hc|]. split; [exact Sd|]. exists b'. split; [reflexivity|].
  destruct r as [[]| |]; try tauto.
Qed.

(** ** The copy *)

Lemma clean_snoc tr0 s tr e : direction e = s -> (forall b r, e <> Event (across s) (Write b r)) -> clean tr0 s tr -> clean tr0 s (tr ++ [e]).
Proof.
  intros E N (evs & -> & H). exists (evs ++ [e]). rewrite app_assoc. split; [reflexivity|]. destruct H as [H|(b & J)].
  - left. intros a b n c Q. rewrite calls_app, (calls_one _ _ E) in Q. destruct c as [|x c] using rev_ind.
    + apply app_inj_tail in Q. destruct Q as [_ ->]. exfalso. eapply N. reflexivity.
    + rewrite app_comm_cons, app_assoc in Q. apply app_inj_tail in Q. destruct Q as [Q _]. destruct (H _ _ _ _ Q) as (r & [J|J]);
        exists r; [left|right]; apply in_or_app; left; exact J.
  - right. exists b. rewrite calls_app. apply in_or_app. left. exact J.
Qed.
Lemma clean_after tr0 s tr e : direction e = s -> (exists r, e = Event (across s) (Flush r) \/ e = Event (across s) (Shutdown r)) ->
  (exists evs, tr = tr0 ++ evs /\ calls (across s) evs = []) -> clean tr0 s (tr ++ [e]).
Proof.
  intros E (r & R) (evs & -> & _). exists (evs ++ [e]). rewrite app_assoc. split; [reflexivity|]. left.
  intros a b n c Q. rewrite calls_app, (calls_one _ _ E) in Q. destruct c as [|x c] using rev_ind.
  - apply app_inj_tail in Q. destruct Q as [_ ->]. exfalso. destruct R; discriminate.
  - rewrite app_comm_cons, app_assoc in Q. apply app_inj_tail in Q. destruct Q as [_ <-].
    exists r. destruct R as [->| ->]; [left|right]; apply in_or_app; right; left; reflexivity.
Qed.
Definition cong (tr0 : list event) (s : side) (tr : list event) : Prop := exists evs, tr = tr0 ++ evs /\ congested s evs.
Lemma cong_snoc tr0 s tr e : cong tr0 s tr -> cong tr0 s (tr ++ [e]).
Proof.
  intros (evs & -> & b & J). exists (evs ++ [e]). rewrite app_assoc. split; [reflexivity|]. exists b. rewrite calls_app. apply in_or_app. left. exact J.
Qed.
Lemma cong_clean tr0 s tr : cong tr0 s tr -> clean tr0 s tr.
Proof. intros (evs & E & H). exists evs. split; [exact E|right; exact H]. Qed.
Lemma cong_last tr0 s b tr : last_call tr0 s (Event (across s) (Write b Pending)) tr -> cong tr0 s tr.
Proof. intros (evs & a & E & H). exists evs. split; [exact E|]. exists b. rewrite H. apply in_or_app. right. left. reflexivity. Qed.

Definition wait (tr0 : list event) (s : side) (tr : list event) : Prop := exists evs, tr = tr0 ++ evs /\ waiting s evs.
Lemma wait_last tr0 s e tr : incomplete e -> last_call tr0 s e tr -> wait tr0 s tr.
Proof. intros N (evs & a & E & H). exists evs. split; [exact E|]. exists a, e, []. repeat split; trivial. intros x []. Qed.
Lemma wait_flush tr0 s e tr r : incomplete e -> last_call tr0 s e tr -> wait tr0 s (tr ++ [Event (across s) (Flush r)]).
Proof.
  intros N (evs & a & -> & H). exists (evs ++ [Event (across s) (Flush r)]). rewrite app_assoc. split; [reflexivity|]. exists a, e, [Event (across s) (Flush r)].
  rewrite calls_app, H, calls_one by apply across_across. rewrite <- app_assoc. repeat split; trivial. intros x [<-|[]]. eauto.
Qed.

Definition copied (tr0 : list event) (s : side) (hdr : half * half * poll unit) (tr : list event) : Prop :=
  let '(h, dst, r) := hdr in
  st tr0 s h dst tr /\
  match r with
  | Pending => wait tr0 s tr /\ clean tr0 s tr
  | Ready _ => shut (across s) tr /\ clean tr0 s tr
  | Failed f => exists pre e, tr = pre ++ [e] /\ failing e f
  end.

Lemma copy_loop_ok tr0 s : forall fuel h dst nf, steady h dst ->
  triple (fun tr => st tr0 s h dst tr /\ (nf = false -> clean tr0 s tr)) (copy_loop fuel s h dst nf) (copied tr0 s).
Proof.
  induction fuel as [|fuel IH]; intros h dst nf Sd; cbn [copy_loop]; [apply t_none|].
  eapply t_bind.
  { apply (poll_buffer_ok tr0 s h dst (fun tr => nf = false -> clean tr0 s tr)); [|exact Sd].
    intros tr e H E N X. apply clean_snoc; auto. }
  intros [h1 r]. cbn [fst snd].
  assert (DrainA : forall c b, h_buf h1 = Some (c :: b) -> steady h1 dst ->
    triple (fun tr => st tr0 s h1 dst tr /\ True) 
      (d <- drain_into s h1;;
       (let '(h, d0) := d in
        match d0 with
        | Ready Buffer_empty => ret (h, dst, Ready tt)
        | Ready Partial =>
            f <- poll_flush s h;;
            (let '(h0, f0) := f in
             match f0 with
             | Ready _ =>
                 d1 <- drain_into s h0;;
                 (let '(h2, d2) := d1 in
                  match d2 with
                  | Ready Partial => ret (h2, dst, Pending)
                  | Failed e => ret (h2, dst, Failed e)
                  | _ => copy_loop fuel s h2 dst false
                  end)
             | Pending => ret (h0, dst, Pending)
             | Failed e => ret (h0, dst, Failed e)
             end)
        | Ready All => copy_loop fuel s h dst true
        | Pending => ret (h, dst, Pending)
        | Failed e => ret (h, dst, Failed e)
        end)) (copied tr0 s)).
  { intros c b B Sd1. eapply t_bind; [apply (drain_ok tr0 s h1 dst (fun _ => True) (c :: b)); trivial; discriminate|].
    intros [h2 d]. cbn [fst snd]. destruct d as [[| |]| |f].
    - intros ans tr (_ & _ & _ & b' & _ & []).
    - (* partial *)
      intros ans tr (S & _ & Sd2 & b' & B2 & L) Lg.
      assert (T : triple (fun tr => st tr0 s h2 dst tr /\ cong tr0 s tr)
        (f <- poll_flush s h2;;
            (let '(h0, f0) := f in
             match f0 with
             | Ready _ =>
                 d1 <- drain_into s h0;;
                 (let '(h2, d2) := d1 in
                  match d2 with
                  | Ready Partial => ret (h2, dst, Pending)
                  | Failed e => ret (h2, dst, Failed e)
                  | _ => copy_loop fuel s h2 dst false
                  end)
             | Pending => ret (h0, dst, Pending)
             | Failed e => ret (h0, dst, Failed e)
             end)) (copied tr0 s)).
      { eapply t_bind; [apply (flush_ok tr0 s h2 dst (cong tr0 s) b'); [intros; apply cong_snoc; trivial|exact B2|apply Sd2]|].
        intros [h3 f]. cbn [fst snd]. destruct f as [[]| |f].
        - destruct (list_eq_dec N.eq_dec b' []) as [Z|NZ].
          + (* nothing was left: cannot be, but does no harm *)
            unfold drain_into. intros ans3 tr3 (S3 & C3 & B3 & _ & Sd3) L3. rewrite B3, Z. cbn [drain_loop List.length Nat.eqb bind ret fst snd].
            unfold bind, ret. cbn [fst snd]. 
            refine (IH (Half (Some []) (h_is_shutdown h3) (h_flushing h3)) dst false _ ans3 tr3 _ L3).
            * exact Sd3.
            * split; [|intros _; apply cong_clean; exact C3].
              destruct h3 as [hb hs hf]. cbn [h_buf h_is_shutdown h_flushing] in *. subst hb. rewrite Z in S3. exact S3.
          + intros ans3 tr3 (S3 & C3 & B3 & _ & Sd3) L3.
            assert (T2 : triple (fun tr => st tr0 s h3 dst tr /\ cong tr0 s tr)
               (d1 <- drain_into s h3;;
                 (let '(h2, d2) := d1 in
                  match d2 with
                  | Ready Partial => ret (h2, dst, Pending)
                  | Failed e => ret (h2, dst, Failed e)
                  | _ => copy_loop fuel s h2 dst false
                  end)) (copied tr0 s)).
            { eapply t_bind; [apply (drain_ok tr0 s h3 dst (cong tr0 s) b'); trivial; intros; apply cong_snoc; trivial|].
              intros [h4 d]. cbn [fst snd]. destruct d as [[| |]| |f].
              - intros ans4 tr4 (_ & _ & _ & b4 & _ & []).
              - apply t_ret. intros tr4 (S4 & C4 & _ & b4 & B4 & L4). split; [exact S4|]. split; [eapply wait_last; [|exact L4]; exact I|apply cong_clean; exact C4].
              - intros ans4 tr4 (S4 & C4 & Sd4 & b4 & B4 & E4) L4. apply (IH h4 dst false Sd4 ans4 tr4); [|exact L4]. split; [exact S4|]. intros _. apply cong_clean. exact C4.
              - intros ans4 tr4 (_ & _ & _ & b4 & _ & []).
              - apply t_ret. intros tr4 (S4 & _ & _ & b4 & B4 & E4). split; [exact S4|exact E4]. }
            exact (T2 ans3 tr3 (conj S3 C3) L3).
        - apply t_ret. intros tr3 (S3 & C3 & B3 & _ & L3). split; [exact S3|]. split; [eapply wait_last; [|exact L3]; exact I|apply cong_clean; exact C3].
        - apply t_ret. intros tr3 (S3 & _ & _ & _ & E3). split; [exact S3|exact E3]. }
      exact (T ans tr (conj S (cong_last _ _ _ _ L)) Lg).
    - intros ans tr (S & _ & Sd2 & _) Lg. apply (IH h2 dst true Sd2 ans tr); [|exact Lg]. split; [exact S|discriminate].
    - intros ans tr (_ & _ & _ & b' & _ & []).
    - apply t_ret. intros tr (S & _ & _ & b' & _ & E). split; [exact S|exact E]. }
  destruct r as [[| |]| |f].
  - intros ans tr (S & _ & Sd1 & c & b & B) Lg. exact (DrainA c b B Sd1 ans tr (conj S I) Lg).
  - intros ans tr (S & _ & Sd1 & c & b & B) Lg. exact (DrainA c b B Sd1 ans tr (conj S I) Lg).
  - (* the end *)
    assert (DR : forall r, direction (Event (across s) (Shutdown r)) = s) by (intros; apply across_across).
    apply t_bind with (Q := fun d tr => exists tr1, tr = tr1 ++ [Event (across s) (Shutdown d)] /\ st tr0 s h1 dst tr1 /\ steady h1 dst /\ h_buf h1 = None).
    + apply t_ask.
      * intros tr r (S & _ & [F Sh] & B) _. destruct S as (D & _). unfold dir in D. rewrite B in D. destruct D as ((E & NE) & SH & _ & FD & _).
        unfold allowed. rewrite DR. cbn [ev_call]. repeat split; trivial; [rewrite <- SH, Sh; discriminate|rewrite <- FD, F; discriminate].
      * intros tr r (S & _ & Sd1 & B) _. exists tr. repeat split; trivial; try apply S; apply Sd1.
    + assert (G : forall d dst' tr1, h_buf dst' = h_buf dst -> h_flushing dst' = h_flushing dst ->
        (h_is_shutdown dst' = true <-> d = Ready tt) -> st tr0 s h1 dst tr1 -> steady h1 dst -> h_buf h1 = None ->
        st tr0 s h1 dst' (tr1 ++ [Event (across s) (Shutdown d)])).
      { intros d dst' tr1 E1 E2 E3 (D & D' & V) [F Sh] B. split; [|split; [|apply evs_snoc; [apply DR|exact V]]].
        - unfold dir in *. rewrite B in *. destruct D as ((E & NE) & SH & SB & FD & FB).
          rewrite reads_app, writes_app, reads_not, writes_not, !app_nil_r, eof_app, shut_app, shut_one by (intros; discriminate).
          rewrite due_snoc by apply DR. rewrite E3. repeat split; trivial; try tauto.
          + intros ->. right. reflexivity.
          + intros [X|X]; [apply SH in X; congruence|]. inversion X. reflexivity.
          + intro X. congruence.
        - apply dir_other; [rewrite across_across; apply DR|]. eapply dir_shut; [symmetry; exact E1|symmetry; exact E2|reflexivity|exact D']. }
      intros [[]| |f]; apply t_ret; intros tr (tr1 & -> & S & Sd1 & B).
      * split; [apply G; trivial; split; reflexivity|]. split; [apply shut_app; right; apply shut_one; reflexivity|].
        apply clean_after; [apply DR|exists (Ready tt); right; reflexivity|apply S].
      * split; [apply G; trivial; destruct Sd1 as [_ ->]; split; discriminate|]. split.
        -- eapply wait_last; [|apply last_snoc; [apply DR|apply S]]. exact I.
        -- apply clean_after; [apply DR|exists Pending; right; reflexivity|apply S].
      * split; [apply G; trivial; destruct Sd1 as [_ ->]; split; discriminate|]. do 2 eexists. split; reflexivity.
  - (* waiting to read *)
    destruct nf.
    + intros ans tr (S & _ & Sd1 & B & L) Lg.
      assert (T : triple (fun t => st tr0 s h1 dst t /\ t = tr) (f <- poll_flush s h1;; (let '(h0, f0) := f in match f0 with Failed e => ret (h0, dst, Failed e) | _ => ret (h0, dst, Pending) end)) (copied tr0 s)).
      { intros ans2 tr2 [S2 ->] L2.
        pose proof (flush_ok tr0 s h1 dst (fun _ => True) [] (fun _ _ _ => I) B (proj2 Sd1) ans2 tr (conj S2 I) L2) as H.
        unfold poll_flush, bind, sock_flush, ask in *. destruct ans2 as [|a ans2]; [exact H|]. cbn [fst snd] in *.
        set (r := match a_status a with Is_ready => Ready tt | Is_pending => Pending | Has_failed => Failed Socket_error end) in *.
        unfold ret in *. destruct H as [(S3 & _ & _ & _ & H) L3]. cbn [fst snd] in *.
        destruct r as [u| |f]; (split; [|exact L3]); (split; [exact S3|]).
        - split; [eapply wait_flush; [|exact L]; exact I|apply clean_after; [apply across_across|eauto|apply S]].
        - split; [eapply wait_flush; [|exact L]; exact I|apply clean_after; [apply across_across|eauto|apply S]].
        - exact H. }
      exact (T ans tr (conj S eq_refl) Lg).
    + apply t_ret. intros tr (S & Hc & _ & _ & L). split; [exact S|]. split; [eapply wait_last; [|exact L]; exact I|apply Hc; reflexivity].
  - apply t_ret. intros tr (S & _ & _ & E). split; [exact S|exact E].
Qed.

Lemma clean_start tr0 s : clean tr0 s tr0.
Proof. exists []. rewrite app_nil_r. split; [reflexivity|]. left. intros a b n c Q. destruct a; discriminate. Qed.

Lemma copy_into_ok tr0 s h dst :
  triple (fun tr => tr = tr0 /\ dir s h dst tr /\ dir (across s) dst h tr) (copy_into s h dst) (copied tr0 s).
Proof.
  unfold copy_into. assert (S0 : dir s h dst tr0 -> dir (across s) dst h tr0 -> st tr0 s h dst tr0).
  { intros D D'. repeat split; try apply D; try apply D'. exists []. rewrite app_nil_r. split; reflexivity. }
  destruct (h_is_shutdown dst) eqn:Sh.
  - apply t_ret. intros tr (-> & D & D'). split; [auto|]. split; [apply D; exact Sh|apply clean_start].
  - assert (Go : forall h', steady h' dst -> triple (fun tr => st tr0 s h' dst tr /\ clean tr0 s tr) (fun st => copy_loop (S (List.length (fst st))) s h' dst false st) (copied tr0 s)).
    { intros h' Sd ans tr [St Cl] Lg. apply (copy_loop_ok tr0 s (S (List.length (fst (ans, tr)))) h' dst false Sd ans tr); [|exact Lg]. auto. }
    destruct (h_flushing h) eqn:F.
    + intros ans tr (-> & D & D') Lg. assert (exists b, h_buf h = Some b) as (b & B).
      { destruct (h_buf h) eqn:B; [eauto|]. destruct D as (_ & _ & _ & _ & X). exfalso. apply X; trivial. }
      assert (T : triple (fun tr => st tr0 s h dst tr /\ clean tr0 s tr)
        (f <- poll_flush s h;; (let '(h0, f0) := f in match f0 with Ready _ => fun st => copy_loop (S (List.length (fst st))) s h0 dst false st
          | Pending => ret (h0, dst, Pending) | Failed e => ret (h0, dst, Failed e) end)) (copied tr0 s)).
      { eapply t_bind; [apply (flush_ok tr0 s h dst (clean tr0 s) b); trivial; intros tr r C; apply clean_snoc; trivial; [apply across_across|discriminate]|].
        intros [h' f]. cbn [fst snd]. destruct f as [u| |f].
        - intros ans' tr' (S & C & B' & _ & Sd) L'. exact (Go h' Sd ans' tr' (conj S C) L').
        - apply t_ret. intros tr' (S & C & _ & _ & L). split; [exact S|]. split; [eapply wait_last; [|exact L]; exact I|exact C].
        - apply t_ret. intros tr' (S & _ & _ & _ & E). split; [exact S|exact E]. }
      exact (T ans tr0 (conj (S0 D D') (clean_start _ _)) Lg).
    + eapply t_weaken; [|apply Go; split; trivial]. intros tr (-> & D & D'). split; [auto|apply clean_start].
Qed.

(** ** A poll *)

Definition inv (d : duplex) (tr : list event) : Prop := dir Inner (d_in d) (d_out d) tr /\ dir Outer (d_out d) (d_in d) tr.

(** What is done for a direction within a poll *)
Definition done_for (tr0 : list event) (s : side) (tr : list event) : Prop :=
  exists evs, tr = tr0 ++ evs /\ (shut (across s) tr \/ waiting s evs) /\ (flushed s evs \/ congested s evs).

Lemma calls_nil_app s (a b : list event) : calls s b = [] -> calls s (a ++ b) = calls s a.
Proof. intro E. rewrite calls_app, E, app_nil_r. reflexivity. Qed.

Lemma poll_ok d tr0 :
  triple (fun tr => tr = tr0 /\ inv d tr) (poll_duplex d)
    (fun dr tr => inv (fst dr) tr /\
      match snd dr with
      | Ready _ => (shut Inner tr /\ shut Outer tr)
      | Pending => ~ (shut Inner tr /\ shut Outer tr) /\ done_for tr0 Inner tr /\ done_for tr0 Outer tr
      | Failed f => exists pre e, tr = pre ++ [e] /\ failing e f
      end).
Proof.
  unfold poll_duplex. eapply t_bind.
  { eapply t_weaken; [|apply (copy_into_ok tr0 Inner (d_in d) (d_out d))]. intros tr (E & D & D'). split; [exact E|]. split; trivial. }
  intros [[hi ho] r1].
  assert (Second : triple (fun tr1 => st tr0 Inner hi ho tr1 /\ (shut Outer tr1 \/ wait tr0 Inner tr1) /\ clean tr0 Inner tr1)
    (r <- copy_into Outer ho hi ;; (let '(ho, hi, r) := r in match r with Failed e => ret (Duplex hi ho, Failed e)
      | _ => ret (Duplex hi ho, if h_is_shutdown hi && h_is_shutdown ho then Ready tt else Pending) end))
    (fun dr tr => inv (fst dr) tr /\
      match snd dr with
      | Ready _ => (shut Inner tr /\ shut Outer tr)
      | Pending => ~ (shut Inner tr /\ shut Outer tr) /\ done_for tr0 Inner tr /\ done_for tr0 Outer tr
      | Failed f => exists pre e, tr = pre ++ [e] /\ failing e f
      end)).
  { intros ans tr1 (S1 & W1 & C1) Lg.
    pose proof (copy_into_ok tr1 Outer ho hi ans tr1 (conj eq_refl (conj (proj1 (proj2 S1)) (proj1 S1))) Lg) as H.
    unfold bind. destruct (copy_into Outer ho hi (ans, tr1)) as [[[[ho2 hi2] r2]|] [ans2 tr2]]; [|exact H].
    destruct H as [[S2 R2] L2].
    assert (V : inv (Duplex hi2 ho2) tr2) by (destruct S2 as (D & D' & _); split; [exact D'|exact D]).
    assert (Fin : (shut Inner tr2 \/ wait tr1 Outer tr2) -> clean tr1 Outer tr2 ->
      inv (Duplex hi2 ho2) tr2 /\
      match (if h_is_shutdown hi2 && h_is_shutdown ho2 then Ready tt else Pending) with
      | Ready _ => (shut Inner tr2 /\ shut Outer tr2)
      | Pending => ~ (shut Inner tr2 /\ shut Outer tr2) /\ done_for tr0 Inner tr2 /\ done_for tr0 Outer tr2
      | Failed f => exists pre e, tr2 = pre ++ [e] /\ failing e f
      end).
    { intros W2 C2. split; [exact V|]. destruct S2 as (D & D' & evs2 & E2 & N2). cbn [across] in *.
      destruct D as (_ & SH & _). destruct D' as (_ & SH' & _). cbn [across] in *.
      assert (B : h_is_shutdown hi2 && h_is_shutdown ho2 = true <-> shut Inner tr2 /\ shut Outer tr2) by (rewrite andb_true_iff, SH, SH'; tauto).
      destruct (h_is_shutdown hi2 && h_is_shutdown ho2); [apply B; reflexivity|].
      split; [rewrite <- B; discriminate|].
      destruct S1 as (_ & _ & evs1 & E1 & N1). cbn [across] in *.
      split.
      - exists (evs1 ++ evs2). rewrite E2, E1, app_assoc. split; [reflexivity|]. split.
        + destruct W1 as [W1|(evs & E & W1)].
          * left. cbn [across]. rewrite shut_app. left. rewrite <- E1. exact W1.
          * right. assert (evs = evs1) by (apply (app_inv_head tr0); congruence). subst evs.
            destruct W1 as (a & e & b & Q & X). exists a, e, b. rewrite calls_nil_app by exact N2. split; trivial.
        + destruct C1 as (evs & E & C). assert (evs = evs1) by (apply (app_inv_head tr0); congruence). subst evs.
          unfold flushed, congested in *. rewrite !calls_nil_app by exact N2. exact C.
      - exists (evs1 ++ evs2). rewrite E2, E1, app_assoc. split; [reflexivity|].
        assert (Q : calls Outer (evs1 ++ evs2) = calls Outer evs2) by (rewrite calls_app, N1; reflexivity). split.
        + destruct W2 as [W2|(evs & E & W2)].
          * left. cbn [across]. rewrite <- app_assoc in *. rewrite E2, E1 in W2. rewrite <- app_assoc in W2. exact W2.
          * right. assert (evs = evs2) by (apply (app_inv_head tr1); congruence). subst evs. unfold waiting in *. rewrite Q. exact W2.
        + destruct C2 as (evs & E & C). assert (evs = evs2) by (apply (app_inv_head tr1); congruence). subst evs.
          unfold flushed, congested in *. rewrite Q. exact C. }
    destruct r2 as [u| |f]; unfold ret; cbn [fst snd].
    - destruct R2 as [W C]. split; [|exact L2]. apply Fin; [left; exact W|exact C].
    - destruct R2 as [W C]. split; [|exact L2]. apply Fin; [right; exact W|exact C].
    - split; [|exact L2]. split; [exact V|exact R2]. }
  destruct r1 as [u| |f].
  - eapply t_weaken; [|exact Second]. intros tr (S & W & C). auto.
  - eapply t_weaken; [|exact Second]. intros tr (S & W & C). auto.
  - apply t_ret. intros tr (S & E). cbn [fst snd]. split; [|exact E]. destruct S as (D & D' & _). split; trivial.
Qed.

(** ** Histories *)

Lemma inv_new : inv new [].
Proof.
  assert (X : forall s, dir s new_half new_half []).
  { intro s. unfold dir, new_half, flush_due, eof, shut. cbn. repeat split; try tauto; try discriminate.
    intros (l & E). destruct l; discriminate. }
  split; apply X.
Qed.
Lemma run_inv d tr : run d tr -> inv d tr /\ legal tr.
Proof.
  induction 1 as [|d tr answers d' rest tr' R IH P].
  - split; [exact inv_new|]. intros pre e post E. destruct pre; discriminate.
  - destruct IH as [V L]. pose proof (poll_ok d tr answers tr (conj eq_refl V) L) as H. rewrite P in H. cbn [fst snd] in H. tauto.
Qed.

Theorem legal_seen : forall tr, seen tr -> forall pre e post, tr = pre ++ e :: post -> allowed pre e.
Proof.
  intros tr (d & tr0 & answers & r & rest & R & P). destruct (run_inv _ _ R) as [V L].
  pose proof (poll_ok d tr0 answers tr0 (conj eq_refl V) L) as H. rewrite P in H. destruct r as [[d' r]|]; [exact (proj2 H)|exact H].
Qed.

(** From the order of calls to the bytes *)
Lemma legal_prefix tr : legal tr -> forall s, exists b, reads s tr = writes (across s) tr ++ b /\ (len b <= 8192)%N.
Proof.
  induction tr as [|e tr IH] using rev_ind; intros L s; [exists []; split; [reflexivity|vm_compute; discriminate]|].
  assert (L' : legal tr) by (intros pre x post E; apply (L pre x (post ++ [e])); rewrite E, <- app_assoc; reflexivity).
  assert (A : allowed tr e) by (apply (L tr e []); reflexivity).
  destruct (IH L' s) as (b & E & LB). rewrite reads_app, writes_app.
  destruct e as [t [r|w r|r|r]]; unfold allowed, direction in A; cbn [ev_call ev_sock] in A.
  - rewrite (writes_not (across s)), app_nil_r by (intros; discriminate). destruct (side_dec t s) as [->| ->].
    + rewrite (proj1 (proj1 A)). rewrite reads_read. destruct A as [(_ & _ & A) _].
      destruct r as [x| |]; eexists; (split; [reflexivity|]); [apply A; reflexivity|vm_compute; discriminate|vm_compute; discriminate].
    + rewrite (reads_not s), app_nil_r; [eauto|]. intros r' Q. inversion Q. destruct s; discriminate.
  - rewrite (reads_not s), app_nil_r by (intros; discriminate). destruct (side_dec t (across s)) as [->| ->].
    + rewrite across_across in A. pose proof (proj1 (proj1 A)) as E'. rewrite E' in E. apply app_inv_head in E. subst b.
      rewrite E', writes_write. destruct r as [n| |]; rewrite ?app_nil_r; [|eauto|eauto].
      exists (skipn n w). rewrite <- app_assoc, firstn_skipn. split; [reflexivity|]. unfold len in *. rewrite skipn_length. lia.
    + rewrite (writes_not (across s)), app_nil_r; [eauto|]. intros ? ? Q. inversion Q. destruct s; discriminate.
  - rewrite (reads_not s), (writes_not (across s)), !app_nil_r by (intros; discriminate). eauto.
  - rewrite (reads_not s), (writes_not (across s)), !app_nil_r by (intros; discriminate). eauto.
Qed.
Theorem bytes_forwarded : forall tr, seen tr -> forall s, exists b, reads s tr = writes (across s) tr ++ b /\ (len b <= 8192)%N.
Proof. intros tr S. apply legal_prefix. exact (legal_seen tr S). Qed.

(** An output is shut down only after the end, and then nothing more is written. *)
Lemma legal_shut tr : legal tr -> forall s pre r post, tr = pre ++ Event (across s) (Shutdown r) :: post ->
  eof s pre /\ reads s pre = writes (across s) pre /\ reads s tr = reads s pre /\ writes (across s) tr = writes (across s) pre.
Proof.
  intros L s pre r post E. pose proof (L _ _ _ E) as A. unfold allowed, direction in A. cbn [ev_call ev_sock] in A. rewrite across_across in A.
  destruct A as [(EO & EQ & _) _]. split; [exact EO|]. split; [exact EQ|]. subst tr.
  assert (G : forall post, legal (pre ++ Event (across s) (Shutdown r) :: post) ->
     reads s (Event (across s) (Shutdown r) :: post) = [] /\ writes (across s) (Event (across s) (Shutdown r) :: post) = []).
  { clear post L. intro post. induction post as [|e post IH] using rev_ind; intro L.
    - split; [apply (reads_not s)|apply (writes_not (across s))]; intros; discriminate.
    - rewrite app_comm_cons in *. assert (L' : legal (pre ++ Event (across s) (Shutdown r) :: post)).
      { intros p x q Q. apply (L p x (q ++ [e])). rewrite app_assoc, Q, <- app_assoc. reflexivity. }
      destruct (IH L') as [R W]. rewrite reads_app, writes_app, R, W. cbn [app].
      assert (A : allowed (pre ++ Event (across s) (Shutdown r) :: post) e) by (apply (L _ _ []); rewrite app_assoc; reflexivity).
      split.
      + apply reads_not. intros x ->. destruct A as [(_ & NE & _) _]. apply NE. unfold direction. cbn [ev_call ev_sock]. apply eof_app. left. exact EO.
      + apply writes_not. intros b x ->. destruct A as [(A & NE) _]. apply NE. unfold direction in A. cbn [ev_call ev_sock] in A. rewrite across_across in A.
        rewrite reads_app, writes_app, R, W, EQ, !app_nil_r in A. rewrite <- (app_nil_r (writes (across s) pre)) in A at 1. apply app_inv_head in A. auto. }
  destruct (G post L) as [R W]. rewrite reads_app, writes_app, R, W, !app_nil_r. split; reflexivity.
Qed.
Theorem shut_after : forall tr, seen tr -> forall s pre r post, tr = pre ++ Event (across s) (Shutdown r) :: post ->
  eof s pre /\ reads s pre = writes (across s) pre /\ reads s tr = reads s pre /\ writes (across s) tr = writes (across s) pre.
Proof. intros tr S. apply legal_shut. exact (legal_seen tr S). Qed.

Lemma poll_facts d tr answers dr rest tr' : run d tr -> poll_duplex d (answers, tr) = (Some dr, (rest, tr')) ->
  match snd dr with
  | Ready _ => (shut Inner tr' /\ shut Outer tr')
  | Pending => ~ (shut Inner tr' /\ shut Outer tr') /\ done_for tr Inner tr' /\ done_for tr Outer tr'
  | Failed f => exists pre e, tr' = pre ++ [e] /\ failing e f
  end.
Proof.
  intros R P. destruct (run_inv _ _ R) as [V L]. pose proof (poll_ok d tr answers tr (conj eq_refl V) L) as H. rewrite P in H. apply H.
Qed.

Theorem finished : forall d tr answers d' r rest tr', run d tr -> poll_duplex d (answers, tr) = (Some (d', r), (rest, tr')) ->
  (forall f, r <> Failed f) -> (r = Ready tt <-> shut Inner tr' /\ shut Outer tr').
Proof.
  intros d tr answers d' r rest tr' R P NF. pose proof (poll_facts _ _ _ _ _ _ R P) as H. cbn [snd] in H. destruct r as [[]| |f].
  - tauto.
  - split; [discriminate|]. intro X. exfalso. exact (proj1 H X).
  - exfalso. apply (NF f). reflexivity.
Qed.
Theorem all_copied : forall d tr answers d' rest tr', run d tr -> poll_duplex d (answers, tr) = (Some (d', Ready tt), (rest, tr')) ->
  forall s, eof s tr' /\ reads s tr' = writes (across s) tr'.
Proof.
  intros d tr answers d' rest tr' R P s. pose proof (poll_facts _ _ _ _ _ _ R P) as H. cbn [snd] in H.
  assert (S : shut (across s) tr') by (destruct s; apply H). apply in_split in S. destruct S as (pre & post & E).
  destruct (shut_after tr') with (s := s) (pre := pre) (r := Ready tt) (post := post) as (EO & EQ & E1 & E2).
  - unfold seen. eauto 10.
  - exact E.
  - split; [rewrite E; apply eof_app; left; exact EO|congruence].
Qed.
Theorem waits : forall d tr answers d' rest tr' s, run d tr -> poll_duplex d (answers, tr) = (Some (d', Pending), (rest, tr')) ->
  exists evs, tr' = tr ++ evs /\ (shut (across s) tr' \/ waiting s evs) /\ (flushed s evs \/ congested s evs).
Proof.
  intros d tr answers d' rest tr' s R P. pose proof (poll_facts _ _ _ _ _ _ R P) as H. cbn [snd] in H.
  destruct H as (_ & H1 & H2). destruct s; trivial.
Qed.
Theorem fails : forall d tr answers d' f rest tr', run d tr -> poll_duplex d (answers, tr) = (Some (d', Failed f), (rest, tr')) ->
  exists pre e, tr' = pre ++ [e] /\ failing e f.
Proof. intros d tr answers d' f rest tr' R P. exact (poll_facts _ _ _ _ _ _ R P). Qed.

(** ** A poll ends *)

(** It is still going on only when answers are lacking. *)
Definition total {A} (m : M A) : Prop := forall ans tr, match m (ans, tr) with (None, (rest, _)) => rest = [] | (Some _, (rest, _)) => length rest <= length ans end.
Lemma total_ret {A} (a : A) : total (ret a).
Proof. intros ans tr. cbn. lia. Qed.
Lemma total_bind {A B} (m : M A) (k : A -> M B) : total m -> (forall a, total (k a)) -> total (bind m k).
Proof.
  intros H K ans tr. specialize (H ans tr). unfold bind. destruct (m (ans, tr)) as [[a|] [rest tr']]; [|exact H].
  specialize (K a rest tr'). destruct (k a (rest, tr')) as [[b|] [rest' tr'']]; [lia|exact K].
Qed.
Lemma ask_total {A} t (mk : poll A -> call) f ans tr :
  match ask t mk f (ans, tr) with (None, (rest, _)) => rest = [] | (Some _, (rest, _)) => length rest < length ans end.
Proof. unfold ask. destruct ans; cbn; [reflexivity|lia]. Qed.
Lemma total_ask {A} t (mk : poll A -> call) f : total (ask t mk f).
Proof. intros ans tr. pose proof (ask_total t mk f ans tr) as H. destruct (ask t mk f (ans, tr)) as [[a|] [rest tr']]; [lia|exact H]. Qed.
Lemma total_strict {A} (m : M A) : (forall ans tr, match m (ans, tr) with (None, (rest, _)) => rest = [] | (Some _, (rest, _)) => length rest < length ans end) -> total m.
Proof. intros H ans tr. specialize (H ans tr). destruct (m (ans, tr)) as [[a|] [rest tr']]; [lia|exact H]. Qed.
Lemma drain_loop_total s : forall fuel b sz, length b <= fuel -> total (drain_loop fuel s b sz) /\
  (b <> [] -> forall ans tr, match drain_loop fuel s b sz (ans, tr) with (None, (rest, _)) => rest = [] | (Some _, (rest, _)) => length rest < length ans end).
Proof.
  induction fuel as [|fuel IH]; intros b sz L.
  - destruct b; [|cbn in L; lia]. split; [apply total_ret|congruence].
  - destruct b as [|c b']; [split; [apply total_ret|congruence]|]. cbn [drain_loop]. set (b := c :: b') in *.
    assert (T : forall ans tr, match (r <- poll_write (across s) b;;
      match r with Ready 0 => ret (b, Failed Write_zero) | Ready (Datatypes.S _ as n) => drain_loop fuel s (skipn n b) (sz + n)
      | Pending => ret (b, Ready Partial) | Failed e => ret (b, Failed e) end) (ans, tr) with (None, (rest, _)) => rest = [] | (Some _, (rest, _)) => length rest < length ans end).
    { intros ans tr. unfold bind. pose proof (ask_total (across s) (Write b) (fun a => Nat.min (a_count a) (length b)) ans tr) as H.
      unfold poll_write. destruct (ask (across s) (Write b) _ (ans, tr)) as [[r|] [rest tr']]; [|exact H].
      destruct r as [[|n]| |f]; try exact H.
      assert (L' : length (skipn (Datatypes.S n) b) <= fuel) by (rewrite skipn_length; lia).
      destruct (IH _ (sz + Datatypes.S n) L') as [T _]. specialize (T rest tr'). destruct (drain_loop fuel s (skipn (Datatypes.S n) b) (sz + Datatypes.S n) (rest, tr')) as [[x|] [rest' tr'']]; [lia|exact T]. }
    split; [|intros _; exact T]. apply total_strict. exact T.
Qed.
Lemma drain_total s h : total (drain_into s h) /\
  (forall c b, h_buf h = Some (c :: b) -> forall ans tr, match drain_into s h (ans, tr) with (None, (rest, _)) => rest = [] | (Some _, (rest, _)) => length rest < length ans end).
Proof.
  unfold drain_into. split.
  - destruct (h_buf h) as [b|]; [|apply total_ret]. apply total_bind; [|intro; apply total_ret]. apply drain_loop_total. lia.
  - intros c b -> ans tr. unfold bind. destruct (drain_loop_total s (length (c :: b)) (c :: b) 0 (Nat.le_refl _)) as [_ T].
    specialize (T ltac:(discriminate) ans tr). destruct (drain_loop _ s (c :: b) 0 (ans, tr)) as [[x|] [rest tr']]; [exact T|exact T].
Qed.
Lemma flush_total s h : total (poll_flush s h).
Proof. unfold poll_flush, sock_flush. apply total_bind; [apply total_ask|intro; apply total_ret]. Qed.
Lemma copy_loop_total s : forall fuel h dst nf ans tr, length ans < fuel ->
  match copy_loop fuel s h dst nf (ans, tr) with (None, (rest, _)) => rest = [] | (Some _, (rest, _)) => length rest <= length ans end.
Proof.
  induction fuel as [|fuel IH]; intros h dst nf ans tr L; [lia|]. cbn [copy_loop].
  assert (Drain : forall h1 ans1 tr1 c b, h_buf h1 = Some (c :: b) -> length ans1 <= length ans ->
    match (d <- drain_into s h1;;
       (let '(h, d0) := d in
        match d0 with
        | Ready Buffer_empty => ret (h, dst, Ready tt)
        | Ready Partial =>
            f <- poll_flush s h;;
            (let '(h0, f0) := f in
             match f0 with
             | Ready _ =>
                 d1 <- drain_into s h0;;
                 (let '(h2, d2) := d1 in
                  match d2 with
                  | Ready Partial => ret (h2, dst, Pending)
                  | Failed e => ret (h2, dst, Failed e)
                  | _ => copy_loop fuel s h2 dst false
                  end)
             | Pending => ret (h0, dst, Pending)
             | Failed e => ret (h0, dst, Failed e)
             end)
        | Ready All => copy_loop fuel s h dst true
        | Pending => ret (h, dst, Pending)
        | Failed e => ret (h, dst, Failed e)
        end)) (ans1, tr1) with (None, (rest, _)) => rest = [] | (Some _, (rest, _)) => length rest <= length ans end).
  { intros h1 ans1 tr1 c b B LA. unfold bind at 1. destruct (drain_total s h1) as [_ T]. specialize (T c b B ans1 tr1).
    destruct (drain_into s h1 (ans1, tr1)) as [[[h2 d]|] [ans2 tr2]]; [|exact T].
    destruct d as [[| |]| |f]; try (cbn; lia).
    - unfold bind at 1. pose proof (flush_total s h2 ans2 tr2) as F. destruct (poll_flush s h2 (ans2, tr2)) as [[[h3 f]|] [ans3 tr3]]; [|exact F].
      destruct f as [u| |f]; try (cbn; lia).
      unfold bind. destruct (drain_total s h3) as [T3 _]. specialize (T3 ans3 tr3). destruct (drain_into s h3 (ans3, tr3)) as [[[h4 d]|] [ans4 tr4]]; [|exact T3].
      destruct d as [[| |]| |f]; try (cbn; lia).
      + specialize (IH h4 dst false ans4 tr4 ltac:(lia)). destruct (copy_loop fuel s h4 dst false (ans4, tr4)) as [[x|] [rest tr5]]; [lia|exact IH].
      + specialize (IH h4 dst false ans4 tr4 ltac:(lia)). destruct (copy_loop fuel s h4 dst false (ans4, tr4)) as [[x|] [rest tr5]]; [lia|exact IH].
      + specialize (IH h4 dst false ans4 tr4 ltac:(lia)). destruct (copy_loop fuel s h4 dst false (ans4, tr4)) as [[x|] [rest tr5]]; [lia|exact IH].
    - specialize (IH h2 dst true ans2 tr2 ltac:(lia)). destruct (copy_loop fuel s h2 dst true (ans2, tr2)) as [[x|] [rest tr5]]; [lia|exact IH]. }
  assert (End : forall h1 ans1 tr1, length ans1 <= length ans ->
    match ((d <- sock_shutdown (across s);; match d with Ready _ => ret (h1, Half (h_buf dst) true (h_flushing dst), Ready tt) | Pending => ret (h1, dst, @Pending unit) | Failed e => ret (h1, dst, @Failed unit e) end) : M (half * half * poll unit)) (ans1, tr1)
    with (None, (rest, _)) => rest = [] | (Some _, (rest, _)) => length rest <= length ans end).
  { intros h1 ans1 tr1 LA.
    assert (T : total ((d <- sock_shutdown (across s);; match d with Ready _ => ret (h1, Half (h_buf dst) true (h_flushing dst), Ready tt) | Pending => ret (h1, dst, @Pending unit) | Failed e => ret (h1, dst, @Failed unit e) end) : M (half * half * poll unit))).
    { apply total_bind; [apply total_ask|intros [| |]; apply total_ret]. }
    specialize (T ans1 tr1). match type of T with match ?X with _ => _ end => destruct X as [[x|] [rest tr5]]; [lia|exact T] end. }
  unfold bind at 1. unfold poll_buffer. destruct (h_buf h) as [[|c b]|] eqn:B.
  - unfold bind at 1. pose proof (ask_total s Read (fun a => firstn (N.to_nat CAPACITY) (a_bytes a)) ans tr) as H. unfold poll_read.
    destruct (ask s Read _ (ans, tr)) as [[r|] [ans1 tr1]]; [|exact H]. destruct r as [[|c b]| |f]; unfold ret at 1.
    + apply End. lia.
    + apply (Drain _ ans1 tr1 c b); [reflexivity|lia].
    + destruct nf; [|cbn; lia].
      assert (T : total (f <- poll_flush s h;; (let '(h0, f0) := f in match f0 with Failed e => ret (h0, dst, @Failed unit e) | _ => ret (h0, dst, @Pending unit) end))).
      { apply total_bind; [apply flush_total|intros [x [| |]]; apply total_ret]. }
      specialize (T ans1 tr1). match type of T with match ?X with _ => _ end => destruct X as [[x|] [rest tr5]]; [lia|exact T] end.
    + cbn. lia.
  - unfold ret at 1. apply (Drain h ans tr c b); [exact B|lia].
  - unfold ret at 1. apply End. lia.
Qed.
Lemma copy_total s h dst : total (copy_into s h dst).
Proof.
  unfold copy_into. destruct (h_is_shutdown dst); [apply total_ret|].
  assert (G : forall h, total (fun st => copy_loop (S (length (fst st))) s h dst false st)).
  { intros h' ans tr. apply copy_loop_total. cbn. lia. }
  destruct (h_flushing h); [|apply G]. apply total_bind; [apply flush_total|]. intros [h' [u| |f]]; [apply G|apply total_ret|apply total_ret].
Qed.
Theorem poll_ends : forall d answers tr rest tr', poll_duplex d (answers, tr) = (None, (rest, tr')) -> rest = [].
Proof.
  intros d answers tr rest tr' E. assert (T : total (poll_duplex d)).
  { unfold poll_duplex. apply total_bind; [apply copy_total|]. intros [[hi ho] [u| |f]];
      try (apply total_bind; [apply copy_total|intros [[ho2 hi2] [u2| |f2]]; apply total_ret]). apply total_ret. }
  specialize (T answers tr). rewrite E in T. exact T.
Qed.

(** ** One direction at a time *)
Lemma busy_loop : forall n fuel nf tr, 2 * n < fuel -> exists evs,
  copy_loop fuel Inner new_half new_half nf (busy n, tr) = (None, ([], tr ++ evs)) /\ (forall e, In e evs -> direction e = Inner) /\ length evs = 2 * n.
Proof.
  induction n as [|n IH]; intros fuel nf tr L; (destruct fuel as [|fuel]; [lia|]).
  - exists []. rewrite app_nil_r. split; [reflexivity|]. split; [intros e []|reflexivity].
  - destruct (IH fuel true ((tr ++ [Event Inner (Read (Ready [0%N]))]) ++ [Event Outer (Write [0%N] (Ready 1))]) ltac:(lia)) as (evs & E & D & N).
    exists (Event Inner (Read (Ready [0%N])) :: Event Outer (Write [0%N] (Ready 1)) :: evs). split; [|split].
    + transitivity (copy_loop fuel Inner new_half new_half true (busy n, (tr ++ [Event Inner (Read (Ready [0%N]))]) ++ [Event Outer (Write [0%N] (Ready 1))])); [reflexivity|].
      rewrite E, <- !app_assoc. reflexivity.
    + intros e [<-|[<-|H]]; [reflexivity|reflexivity|exact (D e H)].
    + cbn. lia.
Qed.
Lemma busy_length n : length (busy n) = 2 * n.
Proof. induction n; cbn; lia. Qed.
Theorem starves : forall n, exists tr, poll_duplex new (busy n, []) = (None, ([], tr)) /\ length tr = 2 * n /\ forall e, In e tr -> direction e = Inner.
Proof.
  intro n. destruct (busy_loop n (S (length (busy n))) false [] ltac:(rewrite busy_length; lia)) as (evs & E & D & N).
  exists evs. split; [|split; trivial]. unfold poll_duplex, bind at 1. unfold copy_into. cbn [h_is_shutdown d_out new new_half h_flushing d_in fst]. fold new_half. rewrite E. reflexivity.
Qed.

Theorem resumed : forall tr, seen tr -> forall pre e post, tr = pre ++ e :: post ->
  flush_due (direction e) pre -> exists r, ev_call e = Flush r.
Proof.
  intros tr S pre e post E F. destruct (legal_seen tr S pre e post E) as [_ A].
  destruct (ev_call e); try contradiction. eauto.
Qed.
