From Coq Require Import List NArith ZArith Bool Lia ZifyBool ZifyNat ZifyN.
From Verif Require Import Bytes BytesProofs NameModel IoModel IoSpec IoProofs SniModel SniSpec.
Import ListNotations.
Open Scope N_scope.

(** ** Monotonicity *)

(** A parser is stable when more input does not change what it did. *)
Definition stable {A} (f : bytes -> res A) : Prop :=
  forall i a r q, f i = Done a r -> f (i ++ q) = Done a (r ++ q).

Lemma stable_read_byte : stable read_byte.
Proof. intros [|c i] a r q; cbn; [discriminate|]. intros H; now injection H as <- <-. Qed.
Lemma stable_done {A} (a : A) : stable (fun i => Done a i).
Proof. intros i x r q H. now injection H as <- <-. Qed.
Lemma stable_bind {A B} (f : bytes -> res A) (g : A -> bytes -> res B) :
  stable f -> (forall a, stable (g a)) -> stable (fun i => bind (f i) g).
Proof.
  intros Hf Hg i b r q. unfold bind. destruct (f i) as [|a r1] eqn:E; [discriminate|].
  intros H. rewrite (Hf _ _ _ q E). now apply Hg.
Qed.
Lemma stable_if {A} (c : bool) (f g : bytes -> res A) :
  stable f -> stable g -> stable (fun i => if c then f i else g i).
Proof. intros Hf Hg. destruct c; [exact Hf|exact Hg]. Qed.
Lemma stable_read_bytes n : stable (read_bytes n).
Proof.
  intros i a r q. unfold read_bytes. destruct (n <=? len i) eqn:E; [|discriminate].
  intros H; injection H as <- <-. rewrite len_app. replace (n <=? len i + len q) with true by lia.
  rewrite take_app_le, drop_app_le by lia. reflexivity.
Qed.
Lemma stable_read_u16 : stable read_u16.
Proof.
  unfold read_u16. apply stable_bind; [apply stable_read_byte|]. intros hi.
  apply stable_bind; [apply stable_read_byte|]. intros lo. apply stable_done.
Qed.
Lemma stable_read_vector {A} (f : bytes -> res (option A)) : stable (read_vector f).
Proof.
  unfold read_vector. apply stable_bind; [apply stable_read_u16|]. intros n.
  apply stable_if; [apply stable_done|].
  apply stable_bind; [apply stable_read_bytes|]. intros r.
  destruct (read_all f r); [apply stable_done|]. intros i a x q. discriminate.
Qed.
Lemma stable_extract : stable extract_sni.
Proof.
  unfold extract_sni. apply stable_bind; [apply stable_read_byte|]. intros t.
  apply stable_if; [apply stable_done|]. apply stable_bind; [apply stable_read_byte|]. intros mj.
  apply stable_if; [apply stable_done|]. apply stable_bind; [apply stable_read_byte|]. intros mn.
  apply stable_if; [apply stable_done|]. apply stable_read_vector.
Qed.

Theorem parse_sni_monotone p q a : parse_sni p = Answer a -> parse_sni (p ++ q) = Answer a.
Proof.
  unfold parse_sni. destruct (extract_sni p) as [|[sni|] r] eqn:E; [discriminate| |];
    rewrite (stable_extract _ _ _ q E); auto.
Qed.

Theorem parse_sni_agree p s a b :
  prefix_of p s -> parse_sni p = Answer a -> parse_sni s = Answer b -> a = b.
Proof. intros [q ->] H1 H2. apply (parse_sni_monotone p q) in H1. congruence. Qed.

Lemma decides_whole s a : decides s a <-> parse_sni s = Answer a.
Proof.
  split.
  - intros (p & [q ->] & H). now apply parse_sni_monotone.
  - intros H. exists s. split; [exists []; now rewrite app_nil_r|easy].
Qed.

Lemma stream_answer_unique s a b : stream_answer s a -> stream_answer s b -> a = b.
Proof.
  intros [Ha|[Ha ->]] [Hb|[Hb ->]]; auto.
  - apply decides_whole in Ha, Hb. congruence.
  - now apply Hb in Ha.
  - now apply Ha in Hb.
Qed.

(** ** Detection over arbitrary reads *)
Lemma buffer_sni_spec sizes : forall buf i, 
  (parse_sni buf = Incomplete) ->
  match buffer_sni buf i sizes with
  | Decided a i' => contents i' = buf ++ contents i /\ stream_answer (buf ++ contents i) a
  | Undecided b i' => b ++ contents i' = buf ++ contents i /\ parse_sni b = Incomplete
  end.
Proof.
  induction sizes as [|nk sizes IH]; intros buf i Hb; cbn [buffer_sni]; [easy|].
  destruct (read_buf i nk) as [b i1] eqn:E. apply read_buf_spec in E as [Hc He].
  destruct b as [|c b].
  - cbn [app] in Hc. cbn [contents]. rewrite Hc.
    assert (Hn : contents i = []) by now apply He. rewrite Hn, app_nil_r. split; [easy|].
    right. split; [|easy]. intros x Hx. apply decides_whole in Hx. congruence.
  - destruct (parse_sni (buf ++ c :: b)) as [|a] eqn:Ep.
    + specialize (IH (buf ++ c :: b) i1 Ep).
      destruct (buffer_sni (buf ++ c :: b) i1 sizes); rewrite <- app_assoc, Hc in IH; exact IH.
    + cbn [contents]. rewrite <- app_assoc, Hc. split; [easy|]. left.
      exists (buf ++ c :: b). split; [|easy]. exists (contents i1). now rewrite <- app_assoc, Hc.
Qed.

Theorem detect_sni_spec i sizes a i' :
  detect_sni i sizes = Decided a i' ->
  contents i' = contents i /\ stream_answer (contents i) a.
Proof.
  intros H. pose proof (buffer_sni_spec sizes [] i eq_refl) as Hs. unfold detect_sni in H.
  rewrite H in Hs. exact Hs.
Qed.

Theorem detect_sni_chunking i j s1 s2 a b i' j' :
  contents i = contents j ->
  detect_sni i s1 = Decided a i' -> detect_sni j s2 = Decided b j' ->
  a = b /\ contents i' = contents j'.
Proof.
  intros Hc Ha Hb. apply detect_sni_spec in Ha as [Ha1 Ha2]. apply detect_sni_spec in Hb as [Hb1 Hb2].
  rewrite Hc in *. split; [|congruence]. eapply stream_answer_unique; eassumption.
Qed.

(** ** Bounds *)
Definition malformed : bytes := [22; 3; 1; 0; 2; 2; 0].

Lemma malformed_incomplete q : parse_sni (malformed ++ q) = Incomplete.
Proof.
  assert (E : extract_sni (malformed ++ q) = EndOfInput).
  { unfold malformed, extract_sni. cbn -[read_vector].
    unfold read_vector, read_u16. cbn -[read_bytes read_all].
    unfold read_bytes. replace (2 <=? len (2 :: 0 :: q)) with true
      by (unfold len; cbn [length]; lia).
    reflexivity. }
  unfold parse_sni. now rewrite E.
Qed.

Lemma buffer_unbounded sizes buf i :
  (forall q, parse_sni (buf ++ q) = Incomplete) ->
  exists b i', (buffer_sni buf i sizes = Undecided b i' \/ buffer_sni buf i sizes = Decided None (Prefixed b i'))
    /\ b ++ contents i' = buf ++ contents i.
Proof.
  revert buf i; induction sizes as [|nk sizes IH]; intros buf i Hb; cbn [buffer_sni].
  - exists buf, i. auto.
  - destruct (read_buf i nk) as [b i1] eqn:E. apply read_buf_spec in E as [Hc He].
    destruct b as [|c b].
    + exists buf, i1. split; [now right|]. cbn in Hc. now rewrite Hc.
    + rewrite Hb. destruct (IH (buf ++ c :: b) i1) as (b' & i' & H1 & H2).
      { intros q. rewrite <- app_assoc. apply Hb. }
      exists b', i'. split; [exact H1|]. now rewrite H2, <- app_assoc, Hc.
Qed.

(** For every bound there is a stream of which detection buffers more. *)
Theorem buffering_unbounded n :
  exists s sizes b i', len s <= n + 8 /\ detect_sni (Raw s) sizes = Undecided b i' /\ n < len b.
Proof.
  set (s := malformed ++ repeat 0 (N.to_nat (n + 1))).
  exists s, [(N.succ_pos (len s), N.succ_pos (len s))], s, (Raw []).
  assert (Hl : len s = n + 8).
  { unfold s. rewrite len_app. unfold len. rewrite repeat_length. cbn [malformed length]. lia. }
  split; [lia|]. split; [|lia]. unfold detect_sni. cbn [buffer_sni].
  unfold read_buf. cbn [poll_read fst snd].
  rewrite take_all, drop_all by (rewrite N.succ_pos_spec; lia).
  destruct s as [|c s'] eqn:Es; [discriminate|]. cbn [app]. rewrite <- Es.
  unfold s. now rewrite malformed_incomplete.
Qed.

(** What the parser reads lies within the first 5+8192 bytes. *)
Lemma read_bytes_local n i k : n <= k ->
  match read_bytes n i with
  | EndOfInput => read_bytes n (take k i) = EndOfInput
  | Done a r => read_bytes n (take k i) = Done a (take (k - n) r) 
  end.
Proof.
  intros Hk. unfold read_bytes. rewrite len_take. destruct (n <=? len i) eqn:E.
  - replace (n <=? N.min k (len i)) with true by lia.
    assert (E1 : take n (take k i) = take n i).
    { unfold take. rewrite firstn_firstn. f_equal. lia. }
    assert (E2 : drop n (take k i) = take (k - n) (drop n i)).
    { unfold take, drop. rewrite firstn_skipn_comm. do 2 f_equal. lia. }
    now rewrite E1, E2.
  - replace (n <=? N.min k (len i)) with false by lia. reflexivity.
Qed.

Definition same_answer {A} (a b : res A) : Prop :=
  match a, b with
  | EndOfInput, EndOfInput => True
  | Done x _, Done y _ => x = y
  | _, _ => False
  end.

Lemma read_vector_local {A} (f : bytes -> res (option A)) i k : 8194 <= k ->
  same_answer (read_vector f i) (read_vector f (take k i)).
Proof.
  intros Hk. assert (Hk2 : exists k', k = k' + 2 /\ 8192 <= k') by (exists (k - 2); lia).
  destruct Hk2 as (k' & -> & Hk'). clear Hk.
  destruct i as [|hi [|lo i]].
  - unfold take. rewrite firstn_nil. reflexivity.
  - unfold take. replace (N.to_nat (k' + 2)) with (S (S (N.to_nat k'))) by lia. cbn [firstn]. reflexivity.
  - assert (E : take (k' + 2) (hi :: lo :: i) = hi :: lo :: take k' i).
    { unfold take. replace (N.to_nat (k' + 2)) with (S (S (N.to_nat k'))) by lia. reflexivity. }
    rewrite E. unfold read_vector, read_u16. cbn [bind read_byte].
    destruct (8192 <? hi * 256 + lo) eqn:E8; [reflexivity|].
    pose proof (read_bytes_local (hi * 256 + lo) i k' ltac:(lia)) as H.
    destruct (read_bytes (hi * 256 + lo) i) as [|a r]; rewrite H; cbn [bind]; [exact I|].
    destruct (read_all f a); reflexivity.
Qed.

Lemma take_cons k c i : take (k + 1) (c :: i) = c :: take k i.
Proof. unfold take. replace (N.to_nat (k + 1)) with (S (N.to_nat k)) by lia. reflexivity. Qed.

Theorem parse_sni_local i k : 8197 <= k -> parse_sni i = parse_sni (take k i).
Proof.
  intros Hk. assert (Hs : same_answer (extract_sni i) (extract_sni (take k i))).
  { replace k with ((k - 3) + 1 + 1 + 1) by lia. set (k3 := k - 3). 
    unfold extract_sni. destruct i as [|t i].
    { unfold take. rewrite firstn_nil. exact I. }
    rewrite take_cons. cbn [bind read_byte]. destruct (negb (t =? 22)); [reflexivity|].
    destruct i as [|mj i].
    { unfold take. rewrite firstn_nil. exact I. }
    rewrite take_cons. cbn [bind read_byte]. destruct (negb (mj =? 3)); [reflexivity|].
    destruct i as [|mn i].
    { unfold take. rewrite firstn_nil. exact I. }
    rewrite take_cons. cbn [bind read_byte]. destruct (negb (mn =? 1) && negb (mn =? 3)); [reflexivity|].
    apply read_vector_local. unfold k3. lia. }
  unfold parse_sni. destruct (extract_sni i) as [|[x|] r], (extract_sni (take k i)) as [|[y|] r'];
    cbn in Hs; try contradiction; congruence.
Qed.

Theorem decided_early_or_never p q :
  8197 <= len p -> parse_sni p = Incomplete -> parse_sni (p ++ q) = Incomplete.
Proof.
  intros Hl Hp. rewrite (parse_sni_local (p ++ q) (len p) Hl), take_app_len. exact Hp.
Qed.

(** ** HTTP detection *)
Theorem http_detect_conserves httparse i r d i' :
  http_detect httparse i r = Some (d, i') -> contents i' = contents i.
Proof.
  unfold http_detect. destruct r as [| |nk].
  - intros H; now injection H as _ <-.
  - discriminate.
  - destruct (read_buf i nk) as [b i1] eqn:E. apply read_buf_spec in E as [Hc _].
    destruct b; [discriminate|]. intros H; injection H as _ <-. exact Hc.
Qed.

Theorem http_detect_h2 httparse i nk d i' :
  http_detect httparse i (Read nk) = Some (d, i') ->
  exists b rest, b <> [] /\ contents i = b ++ rest /\
    (d = H2 <-> prefix_of H2_PREFACE b) /\
    (d = Http1 <-> ~ prefix_of H2_PREFACE b /\ 14 <= len b /\ httparse b = true).
Proof.
  unfold http_detect. destruct (read_buf i nk) as [b i1] eqn:E. apply read_buf_spec in E as [Hc _].
  destruct b as [|c b]; [discriminate|]. intros H; injection H as <- <-.
  exists (c :: b), (contents i1). split; [easy|]. split; [easy|]. set (x := c :: b) in *.
  assert (Hp : (len H2_PREFACE <=? len x) && beq (take (len H2_PREFACE) x) H2_PREFACE = true <-> prefix_of H2_PREFACE x).
  { rewrite andb_true_iff, beq_eq. split.
    - intros [_ H]. exists (drop (len H2_PREFACE) x). rewrite <- H at 1. symmetry. apply take_drop.
    - intros [q ->]. rewrite take_app_len, len_app. split; [lia|easy]. }
  unfold classify. destruct ((len H2_PREFACE <=? len x) && _) eqn:Eh.
  - assert (prefix_of H2_PREFACE x) by now apply Hp. split; [tauto|]. split; [discriminate|tauto].
  - assert (Hn : ~ prefix_of H2_PREFACE x) by (rewrite <- Hp; congruence).
    destruct ((14 <=? len x) && httparse x) eqn:E1.
    + apply andb_true_iff in E1 as [E1 E2]. split; [split; [discriminate|tauto]|]. split; auto.
      intros _. repeat split; auto. lia.
    + split; [split; [discriminate|tauto]|]. split; [discriminate|]. intros (_ & H1 & H2).
      rewrite H2, andb_true_r in E1. lia.
Qed.

(** ** Well-formed ClientHello records *)
Lemma read_u16_enc n r : read_u16 (u16 n ++ r) = Done n r.
Proof.
  unfold read_u16, u16. cbn [app bind read_byte]. f_equal. 
  pose proof (N.div_mod n 256 ltac:(lia)). lia.
Qed.
Lemma read_bytes_app a r : read_bytes (len a) (a ++ r) = Done a r.
Proof.
  unfold read_bytes. rewrite len_app. replace (len a <=? len a + len r) with true by lia.
  now rewrite take_app_len, drop_app_len.
Qed.
Lemma read_vector_enc {A} (f : bytes -> res (option A)) b r x :
  len b <= 8192 -> f b = Done x [] -> read_vector f (vec16 b ++ r) = Done x r.
Proof.
  intros Hl Hf. unfold read_vector, vec16. rewrite <- app_assoc, read_u16_enc. cbn [bind].
  replace (8192 <? len b) with false by lia. rewrite read_bytes_app. cbn [bind].
  unfold read_all. now rewrite Hf.
Qed.
Lemma skip_vector_enc b r : len b <= 8192 -> skip_vector (vec16 b ++ r) = Done true r.
Proof. intros H. unfold skip_vector. now rewrite (read_vector_enc _ b r (Some tt) H). Qed.
Lemma skip_vector_u8_enc b r : skip_vector_u8 (vec8 b ++ r) = Done tt r.
Proof. unfold skip_vector_u8, vec8. cbn [app bind read_byte]. now rewrite read_bytes_app. Qed.

Lemma extensions_skip l : forall fuel r,
  no_sni l -> len (enc_extensions l) <= 8192 -> (length (enc_extensions l) <= fuel)%nat ->
  exists fuel', (fuel - length (enc_extensions l) <= fuel')%nat /\
    (fuel' <= fuel)%nat /\
    extensions fuel (enc_extensions l ++ r) = extensions fuel' r.
Proof.
  induction l as [|[t b] l IH]; intros fuel r Hn Hl Hf.
  - exists fuel. split; [lia|]. split; [lia|reflexivity].
  - inversion Hn as [|? ? Ht Hn']; subst. cbn [fst] in Ht.
    unfold enc_extensions in *. cbn [map concat] in *. fold (enc_extensions l) in *.
    rewrite app_length in Hf. rewrite len_app in Hl.
    assert (Hel : (length (enc_extension (t, b)) = 4 + length b)%nat).
    { unfold enc_extension, vec16, u16. cbn [fst snd]. rewrite !app_length. cbn [length]. lia. }
    destruct fuel as [|fuel]; [lia|].
    destruct (IH fuel r Hn') as (fuel' & H1 & H1' & H2); [lia|lia|].
    exists fuel'. rewrite app_length. split; [lia|]. split; [lia|]. rewrite <- H2.
    rewrite <- app_assoc. unfold enc_extension. cbn [fst snd]. rewrite <- app_assoc.
    unfold u16 at 1. cbn [app extensions].
    change (t / 256 :: t mod 256 :: vec16 b ++ enc_extensions l ++ r) with (u16 t ++ vec16 b ++ enc_extensions l ++ r).
    rewrite read_u16_enc. cbn [bind]. replace (negb (t =? 0)) with true by lia.
    rewrite skip_vector_enc; [reflexivity|].
    unfold len in *. lia.
Qed.

Lemma extensions_none l : no_sni l -> len (enc_extensions l) <= 8192 ->
  extensions (length (enc_extensions l)) (enc_extensions l) = Done None [].
Proof.
  intros Hn Hl. destruct (extensions_skip l (length (enc_extensions l)) [] Hn Hl) as (f & _ & _ & H); [lia|].
  rewrite app_nil_r in H. rewrite H. destruct f; reflexivity.
Qed.

Lemma len_vec16 b : len (vec16 b) = 2 + len b.
Proof. unfold vec16, u16. rewrite len_app. unfold len at 1. cbn [length]. lia. Qed.
Lemma len_vec8 b : len (vec8 b) = 1 + len b.
Proof. unfold vec8, len. cbn [length]. lia. Qed.
Lemma len_cons c b : len (c :: b) = 1 + len b.
Proof. unfold len. cbn [length]. lia. Qed.

Lemma extensions_some pre name post :
  no_sni pre ->
  let l := pre ++ sni_extension name :: post in
  len (enc_extensions l) <= 8192 ->
  extensions (length (enc_extensions l)) (enc_extensions l) = Done (Some name) [].
Proof.
  intros Hn l Hl.
  assert (E : enc_extensions l = enc_extensions pre ++ enc_extension (sni_extension name) ++ enc_extensions post).
  { unfold l, enc_extensions. rewrite map_app, concat_app. reflexivity. }
  rewrite E in *. rewrite !len_app in Hl.
  destruct (extensions_skip pre (length (enc_extensions pre ++ enc_extension (sni_extension name) ++ enc_extensions post))
    (enc_extension (sni_extension name) ++ enc_extensions post) Hn) as (f & H1 & _ & H2).
  { lia. } { rewrite !app_length. lia. }
  rewrite H2. rewrite !app_length in H1.
  assert (Hel : (length (enc_extension (sni_extension name)) >= 4)%nat).
  { unfold enc_extension, vec16, u16. cbn [fst snd]. rewrite !app_length. cbn [length]. lia. }
  destruct f as [|f]; [lia|].
  unfold enc_extension, sni_extension. cbn [fst snd]. rewrite <- app_assoc.
  unfold u16 at 1. change (0 / 256) with 0. change (0 mod 256) with 0. cbn [app extensions].
  unfold read_u16. cbn [bind read_byte]. change (negb (0 * 256 + 0 =? 0)) with false. cbn [negb].
  assert (Hlen : len (enc_extension (sni_extension name)) = 9 + len name).
  { unfold enc_extension, sni_extension. cbn [fst snd]. rewrite len_app, !len_vec16, len_cons, len_vec16.
    change (len (u16 0)) with 2. lia. }
  rewrite (read_vector_enc _ (vec16 (0 :: vec16 name)) (enc_extensions post) (Some name));
    [reflexivity| |].
  - rewrite len_vec16, len_cons, len_vec16. lia.
  - rewrite <- (app_nil_r (vec16 (0 :: vec16 name))).
    apply read_vector_enc; [rewrite len_cons, len_vec16; lia|].
    unfold server_name_list. cbn [bind read_byte]. change (negb (0 =? 0)) with false. cbv iota.
    rewrite <- (app_nil_r (vec16 name)). apply read_vector_enc; [lia|reflexivity].
Qed.

Lemma client_hello_enc h x : len (h_random h) = 32 -> len (enc_hello h) <= 8192 ->
  extensions (length (enc_extensions (h_extensions h))) (enc_extensions (h_extensions h)) = Done x [] ->
  client_hello (enc_hello h) = Done x [].
Proof.
  intros Hr Hl He. unfold enc_hello in *. rewrite !len_app, !len_vec16, !len_vec8 in Hl.
  unfold client_hello. cbn [app bind read_byte]. change (negb (3 =? 3)) with false. cbv iota.
  rewrite <- Hr, read_bytes_app. cbn [bind]. rewrite skip_vector_u8_enc. cbn [bind].
  rewrite skip_vector_enc by lia. cbn [bind negb]. rewrite skip_vector_u8_enc. cbn [bind].
  rewrite <- (app_nil_r (vec16 (enc_extensions _))). apply read_vector_enc; [lia|exact He].
Qed.

Lemma extract_enc minor h x rest : (minor = 1 \/ minor = 3) -> fits h ->
  extensions (length (enc_extensions (h_extensions h))) (enc_extensions (h_extensions h)) = Done x [] ->
  extract_sni (enc_record minor h ++ rest) = Done x rest.
Proof.
  intros Hm [Hr Hl] He. unfold enc_record. rewrite <- app_assoc. unfold extract_sni.
  cbn [app bind read_byte]. change (negb (22 =? 22)) with false. change (negb (3 =? 3)) with false. cbv iota.
  replace (negb (minor =? 1) && negb (minor =? 3)) with false by lia.
  apply read_vector_enc; [exact Hl|]. unfold enc_handshake in *. rewrite len_app, len_vec16 in Hl.
  unfold handshake. cbn [app bind read_byte]. change (negb (1 =? 1)) with false.
  change (negb (0 =? 0)) with false. cbv iota.
  rewrite <- (app_nil_r (vec16 (enc_hello h))). apply read_vector_enc; [lia|].
  apply client_hello_enc; auto. lia.
Qed.

Lemma fits_ext h : fits h -> len (enc_extensions (h_extensions h)) <= 8192.
Proof.
  intros [_ H]. unfold enc_handshake, enc_hello in H. rewrite !len_app, !len_vec16, !len_app, !len_vec16 in H. lia.
Qed.

Theorem wellformed_sni minor h pre name post rest :
  (minor = 1 \/ minor = 3) -> fits h ->
  h_extensions h = pre ++ sni_extension name :: post -> no_sni pre ->
  parse_sni (enc_record minor h ++ rest) = Answer (name_from_str name).
Proof.
  intros Hm Hf He Hn. unfold parse_sni. rewrite (extract_enc minor h (Some name)); auto.
  pose proof (fits_ext h Hf) as Hl. rewrite He in *. now apply extensions_some.
Qed.

Theorem wellformed_no_sni minor h rest :
  (minor = 1 \/ minor = 3) -> fits h -> no_sni (h_extensions h) ->
  parse_sni (enc_record minor h ++ rest) = Answer None.
Proof.
  intros Hm Hf Hn. unfold parse_sni. rewrite (extract_enc minor h None); auto.
  apply extensions_none; [exact Hn|now apply fits_ext].
Qed.

(** A proper prefix of such a record is never decided. *)
Lemma record_prefix_incomplete minor h p q : 
  (minor = 1 \/ minor = 3) -> fits h -> q <> [] ->
  enc_record minor h = p ++ q -> parse_sni p = Incomplete.
Proof.
  intros Hm [_ Hl] Hq He. unfold parse_sni.
  assert (E : extract_sni p = EndOfInput).
  { unfold enc_record in He. cbn [app] in He.
    destruct p as [|c0 p]; [reflexivity|]. cbn [app] in He. injection He as <- He.
    destruct p as [|c1 p]; [reflexivity|]. cbn [app] in He. injection He as <- He.
    destruct p as [|c2 p]; [reflexivity|]. cbn [app] in He. injection He as <- He.
    unfold extract_sni. cbn [bind read_byte]. change (negb (22 =? 22)) with false.
    change (negb (3 =? 3)) with false. cbv iota.
    replace (negb (minor =? 1) && negb (minor =? 3)) with false by lia.
    unfold vec16, u16 in He. cbn [app] in He.
    destruct p as [|c0 p]; [reflexivity|]. cbn [app] in He. injection He as <- He.
    destruct p as [|c1 p]; [reflexivity|]. cbn [app] in He. injection He as <- He.
    unfold read_vector, read_u16. cbn [bind read_byte].
    replace (len (enc_handshake h) / 256 * 256 + len (enc_handshake h) mod 256) with (len (enc_handshake h))
      by (pose proof (N.div_mod (len (enc_handshake h)) 256 ltac:(lia)); lia).
    replace (8192 <? len (enc_handshake h)) with false by lia.
    unfold read_bytes. replace (len (enc_handshake h) <=? len p) with false; [reflexivity|].
    assert (len q <> 0) by (rewrite len_nil; exact Hq). rewrite He, len_app. lia. }
  now rewrite E.
Qed.
