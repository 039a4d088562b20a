From Coq Require Import List Arith NArith Bool Lia.
From Verif Require Import Bytes FilterModel PeekModel PeekSpec.
Import ListNotations.
Open Scope N_scope.

Definition contents (p : peek) : rbody :=
  match p with
  | Empty => []
  | Passthru b => b
  | Unary d t => (match d with Some d => [of_data d] | None => [] end)
                 ++ (match t with Some t => [of_trailers t] | None => [] end)
  | Buffered f s b => (match f with Some d => [of_data d] | None => [] end)
                 ++ (match s with Some d => [of_data d] | None => [] end) ++ b
  end.

Lemma poll_contents p : poll_frame p = (hd_error (contents p), snd (poll_frame p)) /\
  contents (snd (poll_frame p)) = tl (contents p).
Proof.
  destruct p as [|[d|] [t|]|[f|] [s|] b|b]; cbn; auto; destruct b; cbn; auto.
Qed.

Lemma polls_contents n p : before_end (polls n p) = firstn n (contents p).
Proof.
  revert p; induction n as [|n IH]; intros p; cbn [polls]; [now destruct (contents p)|].
  destruct (poll_contents p) as [H1 H2]. destruct (poll_frame p) as [x p'] eqn:E.
  cbn [snd] in *. injection H1 as ->. destruct (contents p) as [|y l] eqn:Ec; cbn [hd_error before_end firstn]; [easy|].
  rewrite IH, H2. easy.
Qed.

Lemma polls_end n p : (length (contents p) < n)%nat -> In None (polls n p).
Proof.
  revert p; induction n as [|n IH]; intros p Hn; [lia|]. cbn [polls].
  destruct (poll_contents p) as [H1 H2]. destruct (poll_frame p) as [x p'] eqn:E.
  cbn [snd] in *. injection H1 as ->. destruct (contents p) as [|y l] eqn:Ec; [now left|].
  right. apply IH. rewrite H2. cbn in *. lia.
Qed.

Lemma seen_await b : seen b = match await_frame b with
  | (None, _) => []
  | (Some x, r) => seen (x :: r)
  end.
Proof. induction b as [|[|f|e] b IH]; cbn [await_frame]; auto. Qed.

Lemma read_body_contents b : seen (contents (read_body b)) = seen b.
Proof.
  rewrite (seen_await b). unfold read_body.
  destruct (await_frame b) as [[[|[d|t|]|e]|] r]; cbn; auto.
  destruct r as [|[|[d2|t|]|e] r]; cbn; auto.
Qed.

Lemma peek_same v eos b :
  (forall r, eos r = true -> seen r = []) ->
  seen (contents (map_response v eos b)) = seen b.
Proof.
  intros He. unfold map_response. destruct v; cbn; auto;
  destruct (eos b) eqn:E; cbn; [now rewrite He| apply read_body_contents|now rewrite He|apply read_body_contents].
Qed.

Lemma contents_bound v eos b : (length (contents (map_response v eos b)) <= length b + 2)%nat.
Proof.
  unfold map_response.
  assert (H : (length (contents (read_body b)) <= length b + 2)%nat).
  { unfold read_body. 
    assert (Ha : forall x r, await_frame b = (x, r) -> (length r <= length b)%nat).
    { induction b as [|[|f|e] b IH]; cbn [await_frame]; intros x r Hx; try (injection Hx as <- <-; cbn; lia).
      apply IH in Hx. cbn. lia. }
    destruct (await_frame b) as [[[|[d|t|]|e]|] r]; specialize (Ha _ _ eq_refl); cbn; try lia.
    destruct r as [|[|[d2|t|]|e] r]; cbn in *; lia. }
  destruct v; cbn; try lia; destruct (eos b); cbn; lia.
Qed.

Lemma peeked_faithful v eos b n :
  (forall r, eos r = true -> seen r = []) -> (length b + 2 < n)%nat ->
  In None (polls n (map_response v eos b)) /\
  seen (before_end (polls n (map_response v eos b))) = seen b.
Proof.
  intros He Hn. pose proof (contents_bound v eos b). split.
  - apply polls_end. lia.
  - rewrite polls_contents, firstn_all2 by lia. now apply peek_same.
Qed.

Lemma seen_firstn l n : exists r, seen l = seen (firstn n l) ++ r.
Proof.
  revert n; induction l as [|x l IH]; intros n; [exists []; now destruct n|].
  destruct n as [|n]; [now exists (seen (x :: l))|]. cbn [firstn].
  destruct (IH n) as [r Hr].
  destruct x as [|[d|t|]|e]; cbn [seen]; try (exists r; cbn; congruence).
  - exists []. easy.
  - exists []. easy.
Qed.

Lemma peeked_prefix v eos b n :
  (forall r, eos r = true -> seen r = []) ->
  exists r, seen b = seen (before_end (polls n (map_response v eos b))) ++ r.
Proof.
  intros He. rewrite polls_contents. rewrite <- (peek_same v eos b He). apply seen_firstn.
Qed.

Lemma peek_trailers_iff v eos b t :
  (v = V2 \/ v = V3) -> (forall r, eos r = true -> seen r = []) ->
  peek_trailers (map_response v eos b) = Some t <->
  exists k, b = repeat BPending k ++ BFrame (FTrailers t) :: skipn (S k) b /\ eos b = false \/
  exists d, b = repeat BPending k ++ BFrame (FData d) :: BFrame (FTrailers t) :: skipn (S (S k)) b /\ eos b = false.
Proof.
  intros Hv He.
  assert (E : map_response v eos b = if eos b then Empty else read_body b) by now destruct Hv as [->| ->].
  rewrite E. clear E Hv.
  destruct (eos b) eqn:Eb; cbn [peek_trailers].
  { split; [discriminate|]. intros (k & [[_ H]|(d & _ & H)]); discriminate. }
  assert (Ha : forall b x r, await_frame b = (Some x, r) -> exists k, b = repeat BPending k ++ x :: r /\ x <> BPending).
  { clear. induction b as [|[|f|e] b IH]; cbn [await_frame]; intros x r H; try discriminate.
    - apply IH in H as (k & -> & Hx). now exists (S k).
    - injection H as <- <-. now exists 0%nat.
    - injection H as <- <-. now exists 0%nat. }
  assert (Hr : forall k x r, x <> BPending -> await_frame (repeat BPending k ++ x :: r) = (Some x, r)).
  { clear. induction k as [|k IH]; intros x r H; cbn [repeat app await_frame]; [now destruct x|auto]. }
  assert (Hs : forall k (x : polled) r, skipn (S k) (repeat BPending k ++ x :: r) = r).
  { clear. induction k as [|k IH]; intros x r; cbn [repeat app]; [easy|]. exact (IH x r). }
  split.
  - unfold read_body. intros H. destruct (await_frame b) as [[x|] r] eqn:E; [|discriminate].
    apply Ha in E as (k & -> & Hx). exists k.
    destruct x as [|[d|u|]|e]; try discriminate.
    + right. exists d. split; [|easy].
      destruct r as [|[|[d2|u|]|e] r]; try discriminate. cbn in H. injection H as ->.
      replace (skipn (S (S k)) _) with r; [easy|].
      change (S (S k)) with (1 + S k)%nat.
      assert (forall A m n (l : list A), skipn (m + n) l = skipn m (skipn n l)) as Hsk.
      { clear. intros A m n l. revert l. induction n as [|n IH]; intros l; [now rewrite Nat.add_0_r|].
        rewrite Nat.add_succ_r. destruct l; cbn [skipn]; [now rewrite !skipn_nil|apply IH]. }
      rewrite Hsk, Hs. easy.
    + left. split; [|easy]. cbn in H. injection H as ->. now rewrite Hs.
  - intros (k & [[H _]|(d & H & _)]); rewrite H; unfold read_body; rewrite Hr by discriminate; easy.
Qed.

Lemma peek_eos_sound v eos b n x p :
  (forall r, eos r = true -> seen r = []) ->
  Nat.iter n (fun p => snd (poll_frame p)) (map_response v eos b) = p ->
  peek_eos eos p = true -> seen (before_end (polls x p)) = [].
Proof.
  intros He _ Hp. rewrite polls_contents.
  assert (H : seen (contents p) = []).
  { destruct p as [|[d|] [t|]|[f|] [s|] b'|b']; cbn in *; try discriminate; auto. }
  destruct (seen_firstn (contents p) x) as [r Hr]. rewrite H in Hr.
  symmetry in Hr. now apply app_eq_nil in Hr.
Qed.

Lemma peek_hint_sound v hint eos b :
  (forall r, fst (hint r) <= data_len (seen r) /\ forall u, snd (hint r) = Some u -> data_len (seen r) <= u) ->
  (forall r, eos r = true -> seen r = []) ->
  forall n p, Nat.iter n (fun p => snd (poll_frame p)) (map_response v eos b) = p ->
  fst (peek_hint hint p) <= data_len (seen (contents p)) /\
  forall u, snd (peek_hint hint p) = Some u -> data_len (seen (contents p)) <= u.
Proof.
  intros Hh He n p Hp.
  assert (Hinv : match p with Buffered (Some (inr _)) _ _ | Buffered _ (Some (inr _)) _ => False | _ => True end).
  { subst p. induction n as [|n IH].
    - cbn [Nat.iter nat_rect]. unfold map_response. destruct v; auto; destruct (eos b); auto; unfold read_body;
      destruct (await_frame b) as [[[|[d|t|]|e]|] r]; try exact I; destruct r as [|[|[d2|t2|]|e2] r]; exact I.
    - change (Nat.iter (S n) ?f ?x) with (f (Nat.iter n f x)). cbv beta.
      destruct (Nat.iter n _ _) as [|d t|f s b'|b'].
      + exact I.
      + destruct d, t; exact I.
      + destruct f as [[f|f]|], s as [[s|s]|]; try easy; destruct b'; exact I.
      + destruct b'; exact I. }
  clear Hp. destruct p as [|d t|f s b'|b'].
  - cbn. split; [lia|discriminate].
  - destruct d as [[d|d]|]; [|destruct t as [[t|t]|]; cbn; (split; [lia|discriminate])..].
    destruct t as [[t|t]|]; cbn; (split; [lia|intros u Hu; injection Hu as <-; lia]).
  - destruct (Hh b') as [H1 H2]. destruct (hint b') as [lo hi] eqn:Eh.
    cbn [peek_hint]. rewrite Eh.
    destruct f as [[f|f]|], s as [[s|s]|]; try easy; cbn [fst snd option_map contents app of_data seen data_len];
      (split; [cbn in H1; lia|]); destruct hi as [hi|]; cbn; intros u Hu; try discriminate; injection Hu as <-;
      specialize (H2 _ eq_refl); cbn in H2; lia.
  - cbn. apply Hh.
Qed.

Lemma peek_hint_remaining v hint eos b :
  (forall r, fst (hint r) <= data_len (seen r) /\ forall u, snd (hint r) = Some u -> data_len (seen r) <= u) ->
  (forall r, eos r = true -> seen r = []) ->
  forall n p, Nat.iter n (fun p => snd (poll_frame p)) (map_response v eos b) = p ->
  forall m, (forall k, (m <= k)%nat -> seen (before_end (polls k p)) = seen (before_end (polls m p))) ->
  fst (peek_hint hint p) <= data_len (seen (before_end (polls m p))) /\
  forall u, snd (peek_hint hint p) = Some u -> data_len (seen (before_end (polls m p))) <= u.
Proof.
  intros Hh He n p Hp m Hm.
  rewrite <- (Hm (m + length (contents p))%nat) by lia.
  rewrite polls_contents, firstn_all2 by lia. exact (peek_hint_sound v hint eos b Hh He n p Hp).
Qed.

(** What the hint says is exact where that of the body is *)
Lemma peek_hint_exact v hint eos b :
  (forall r, fst (hint r) = data_len (seen r) /\ forall u, snd (hint r) = Some u -> u = data_len (seen r)) ->
  forall n p, Nat.iter n (fun p => snd (poll_frame p)) (map_response v eos b) = p ->
  forall m, (forall k, (m <= k)%nat -> seen (before_end (polls k p)) = seen (before_end (polls m p))) ->
  fst (peek_hint hint p) = data_len (seen (before_end (polls m p))) /\
  forall u, snd (peek_hint hint p) = Some u -> u = data_len (seen (before_end (polls m p))).
Proof.
  intros Hh n p Hp m Hm.
  rewrite <- (Hm (m + length (contents p))%nat) by lia. rewrite polls_contents, firstn_all2 by lia.
  assert (Hinv : match p with Buffered (Some (inr _)) _ _ | Buffered _ (Some (inr _)) _ => False | _ => True end).
  { subst p. clear Hm. induction n as [|n IH].
    - cbn [Nat.iter nat_rect]. unfold map_response. destruct v; auto; destruct (eos b); auto; unfold read_body;
      destruct (await_frame b) as [[[|[d|t|]|e]|] r]; try exact I; destruct r as [|[|[d2|t2|]|e2] r]; exact I.
    - change (Nat.iter (S n) ?f ?x) with (f (Nat.iter n f x)). cbv beta.
      destruct (Nat.iter n _ _) as [|d t|f s b'|b'].
      + exact I.
      + destruct d, t; exact I.
      + destruct f as [[f|f]|], s as [[s|s]|]; try easy; destruct b'; exact I.
      + destruct b'; exact I. }
  clear Hp Hm. destruct p as [|d t|f s b'|b'].
  - cbn. split; [lia|discriminate].
  - destruct d as [[d|d]|]; [|destruct t as [[t|t]|]; cbn; (split; [lia|discriminate])..].
    destruct t as [[t|t]|]; cbn; (split; [lia|intros u Hu; injection Hu as <-; lia]).
  - destruct (Hh b') as [H1 H2]. destruct (hint b') as [lo hi] eqn:Eh.
    cbn [peek_hint]. rewrite Eh.
    destruct f as [[f|f]|], s as [[s|s]|]; try easy; cbn [fst snd option_map contents app of_data seen data_len];
      (split; [cbn in H1; lia|]); destruct hi as [hi|]; cbn; intros u Hu; try discriminate; injection Hu as <-;
      specialize (H2 _ eq_refl); cbn in H2; lia.
  - cbn. apply Hh.
Qed.

(** And the end is known where the body's is *)
Lemma peek_eos_known v eos b n p :
  (forall r, eos r = true <-> seen r = []) ->
  Nat.iter n (fun p => snd (poll_frame p)) (map_response v eos b) = p ->
  (forall x, seen (before_end (polls x p)) = []) -> peek_eos eos p = true.
Proof.
  intros He _ Hp. specialize (Hp (length (contents p))). rewrite polls_contents, firstn_all in Hp.
  destruct p as [|d t|f s b'|b']; cbn [peek_eos contents] in *; try (apply He; exact Hp); [reflexivity| |].
  - destruct d as [[d|d]|], t as [[t|t]|]; cbn in Hp; try discriminate Hp; reflexivity.
  - destruct f as [[f|f]|], s as [[s|s]|]; cbn in Hp; try discriminate Hp; apply He; exact Hp.
Qed.
