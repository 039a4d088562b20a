From Coq Require Import List NArith ZArith Bool Lia ZifyBool ZifyNat ZifyN.
From Verif Require Import Bytes BytesProofs NameModel NameSpec NameProofs IoModel IoSpec IoProofs
  TransportModel TransportSpec.
Import ListNotations.
Open Scope N_scope.

Ltac Zify.zify_post_hook ::= Z.div_mod_to_equations.

(** ** Varints *)
Lemma dec_enc_varint_go fuel : forall v r, v < 2 ^ (7 * N.of_nat fuel + 1) ->
  dec_varint_go fuel (enc_varint_go fuel v ++ r) = Some (v, r).
Proof.
  induction fuel as [|fuel IH]; intros v r Hv.
  - change (2 ^ (7 * N.of_nat 0 + 1)) with 2 in Hv. cbn [enc_varint_go app dec_varint_go].
    replace (v <? 2) with true by lia. reflexivity.
  - cbn [enc_varint_go]. destruct (v <? 128) eqn:E; cbn [app dec_varint_go].
    + now rewrite E.
    + replace (v mod 128 + 128 <? 128) with false by lia. rewrite IH.
      * do 2 f_equal. lia.
      * replace (7 * N.of_nat (S fuel) + 1) with ((7 * N.of_nat fuel + 1) + 7) in Hv by lia.
        rewrite N.pow_add_r in Hv. change (2 ^ 7) with 128 in Hv. 
        apply N.div_lt_upper_bound; lia.
Qed.
Lemma dec_enc_varint v r : v < 2 ^ 64 -> dec_varint (enc_varint v ++ r) = Some (v, r).
Proof. intros H. apply dec_enc_varint_go. exact H. Qed.

Lemma dec_enc_delimited b r : len b < 2 ^ 64 ->
  dec_delimited (enc_varint (len b) ++ b ++ r) = Some (b, r).
Proof.
  intros H. unfold dec_delimited. rewrite dec_enc_varint by exact H.
  rewrite len_app. replace (len b <=? len b + len r) with true by lia.
  now rewrite take_app_len, drop_app_len.
Qed.

Lemma dec_key_small k r : 8 <= k < 128 -> k mod 8 <= 5 -> dec_key (k :: r) = Some (k / 8, k mod 8, r).
Proof.
  intros Hk Hm. unfold dec_key, dec_varint. cbn [dec_varint_go].
  replace (k <? 128) with true by lia.
  replace ((4294967295 <? k) || (5 <? k mod 8) || (k / 8 <? 1)) with false by lia. reflexivity.
Qed.

Lemma merge_step {M} (field : M -> N -> N -> bytes -> option (M * bytes)) fuel m k b m' r :
  8 <= k < 128 -> k mod 8 <= 5 ->
  field m (k / 8) (k mod 8) b = Some (m', r) ->
  merge field (S fuel) m (k :: b) = merge field fuel m' r.
Proof. intros Hk Hm Hf. cbn [merge]. rewrite dec_key_small by assumption. now rewrite Hf. Qed.

(** ** Round trip *)
Lemma name_ascii s n : name_from_str s = Some n -> Forall (fun c => c < 128) n /\ n <> [] /\ len n <= 253.
Proof.
  intros H. pose proof (name_reparse _ _ H) as Hr. apply name_from_str_spec in Hr as [Hd _].
  split; [|split].
  - destruct Hd as (_ & ls & ll & Hls & Hll & _ & Hs).
    assert (Hall : Forall label (ls ++ [ll])) by (apply Forall_app; auto).
    assert (Hj : Forall (fun c => c < 128) (dotted (ls ++ [ll]))).
    { clear -Hall. induction (ls ++ [ll]) as [|x [|y l] IH].
      - constructor.
      - cbn. inversion Hall; subst. destruct H1 as (_ & _ & Hc & _). apply Forall_forall.
        intros c Hin. specialize (Hc c Hin). unfold letter, digit, hyphen, underscore in Hc. lia.
      - inversion Hall; subst. change (dotted (x :: y :: l)) with (x ++ dot :: dotted (y :: l)).
        apply Forall_app. split; [|constructor; [unfold dot; lia|auto]].
        destruct H1 as (_ & _ & Hc & _). apply Forall_forall.
        intros c Hin. specialize (Hc c Hin). unfold letter, digit, hyphen, underscore in Hc. lia. }
    destruct Hs as [-> | ->]; [exact Hj|]. apply Forall_app. split; [exact Hj|]. constructor; [|constructor].
    unfold dot; lia.
  - intros ->. apply valid_dns_iff in Hd. discriminate.
  - destruct Hd as [Hl _]. exact Hl.
Qed.

Lemma session_merge s : merge session_field (length (enc_session s)) None (enc_session s) = Some (Some s).
Proof. destruct s; reflexivity. Qed.

Section RT.
  Variable utf8 : bytes -> bool.
  Hypothesis Hutf8 : utf8_accepts_ascii utf8.

  Lemma proto_tail fuel m n p : (exists s, name_from_str s = Some n) -> (3 <= fuel)%nat ->
    p_session m = None ->
    merge (header_field utf8) fuel m
      (18 :: enc_varint (len n) ++ n ++
        match p with Some s => 26 :: enc_varint (len (enc_session s)) ++ enc_session s | None => [] end)
    = Some (ProtoHeader (p_port m) n (option_map Some p)).
  Proof.
    intros [s Hn] Hf Hm. destruct (name_ascii _ _ Hn) as (Ha & _ & Hl).
    destruct fuel as [|[|fuel]]; try lia.
    rewrite (merge_step _ _ _ _ _ (ProtoHeader (p_port m) n (p_session m))
      (match p with Some s => 26 :: enc_varint (len (enc_session s)) ++ enc_session s | None => [] end));
      [|lia|vm_compute; discriminate|].
    - destruct p as [q|]; [|now rewrite Hm].
      rewrite (merge_step _ _ _ _ _ (ProtoHeader (p_port m) n (Some (Some q))) []);
        [destruct fuel; reflexivity|lia|vm_compute; discriminate|].
      change (26 / 8) with 3. change (26 mod 8) with 2. unfold header_field.
      change (3 =? 1) with false. change (3 =? 2) with false. change (3 =? 3) with true. change (2 =? 2) with true.
      cbv iota. rewrite <- (app_nil_r (enc_session q)) at 2.
      rewrite dec_enc_delimited by (destruct q; reflexivity).
      cbn [p_session p_port p_name]. rewrite Hm. rewrite session_merge. reflexivity.
    - change (18 / 8) with 2. change (18 mod 8) with 2. unfold header_field.
      change (2 =? 1) with false. change (2 =? 2) with true. cbv iota.
      rewrite dec_enc_delimited by lia. rewrite (Hutf8 n Ha). reflexivity.
  Qed.

  Lemma proto_tail_noname fuel m p : (2 <= fuel)%nat -> p_session m = None ->
    merge (header_field utf8) fuel m
      (match p with Some s => 26 :: enc_varint (len (enc_session s)) ++ enc_session s | None => [] end)
    = Some (ProtoHeader (p_port m) (p_name m) (option_map Some p)).
  Proof.
    intros Hf Hm. destruct fuel as [|[|fuel]]; try lia. destruct p as [q|].
    - rewrite (merge_step _ _ _ _ _ (ProtoHeader (p_port m) (p_name m) (Some (Some q))) []);
        [destruct fuel; reflexivity|lia|vm_compute; discriminate|].
      change (26 / 8) with 3. change (26 mod 8) with 2. unfold header_field.
      change (3 =? 1) with false. change (3 =? 2) with false. change (3 =? 3) with true. change (2 =? 2) with true.
      cbv iota. rewrite <- (app_nil_r (enc_session q)) at 2.
      rewrite dec_enc_delimited by (destruct q; reflexivity).
      rewrite Hm. rewrite session_merge. reflexivity.
    - cbn [merge]. destruct m as [a b c]. cbn [p_session] in Hm. subst c. reflexivity.
  Qed.

  Lemma enc_varint_nonnil v : enc_varint v <> [].
  Proof. unfold enc_varint. cbn [enc_varint_go]. destruct (v <? 128); discriminate. Qed.

  Lemma length_pos (l : bytes) : l <> [] -> (1 <= length l)%nat.
  Proof. destruct l; [easy|cbn; lia]. Qed.

  Theorem decode_encode h : sendable h -> decode utf8 (enc_proto h) = Some h.
  Proof.
    intros [Hp Hn]. destruct h as [port name proto]. cbn [h_port h_name h_protocol] in *.
    assert (E : proto_decode utf8 (enc_proto (Header port name proto)) =
      Some (ProtoHeader (Z.of_N port) (match name with Some n => n | None => [] end) (option_map Some proto))).
    { unfold proto_decode, enc_proto. cbn [h_port h_name h_protocol].
      replace (port =? 0) with false by lia.
      set (tail := match proto with Some s => _ | None => _ end).
      set (mid := match name with Some (c :: n) => _ | _ => _ end).
      assert (Hi : as_i32 port = Z.of_N port).
      { unfold as_i32. rewrite N.mod_small by lia. replace (port <? 2147483648) with true by lia. reflexivity. }
      rewrite <- app_comm_cons. cbn [length].
      rewrite (merge_step _ _ _ _ _ (ProtoHeader (Z.of_N port) [] None) (mid ++ tail));
        [|lia|vm_compute; discriminate|].
      2:{ change (8 / 8) with 1. change (8 mod 8) with 0. unfold header_field.
          change (1 =? 1) with true. change (0 =? 0) with true. cbv iota.
          rewrite dec_enc_varint by lia. rewrite Hi. reflexivity. }
      pose proof (length_pos _ (enc_varint_nonnil port)) as Hlp.
      rewrite !app_length.
      destruct name as [n|].
      - destruct Hn as [s Hn]. destruct (name_ascii _ _ Hn) as (_ & Hne & _).
        destruct n as [|c n]; [contradiction|]. unfold mid.
        rewrite <- app_comm_cons, <- app_assoc.
        pose proof (length_pos _ (enc_varint_nonnil (len (c :: n)))) as Hln.
        unfold tail at 2. rewrite proto_tail; [reflexivity|eauto| |reflexivity].
        cbn [length]. rewrite app_length. cbn [length]. lia.
      - unfold mid. cbn [app]. unfold tail at 2. destruct proto as [q|].
        + etransitivity; [apply (proto_tail_noname _ _ (Some q)); [|reflexivity]|reflexivity].
          unfold tail. cbn [length].
          pose proof (length_pos _ (enc_varint_nonnil (len (enc_session q)))). rewrite app_length. lia.
        + clear. destruct (length (enc_varint port) + _)%nat; reflexivity. }
    unfold decode. rewrite E. cbn [p_name p_port p_session].
    assert (En : match match name with Some n => n | None => [] end with
                 | [] => Some None
                 | s => option_map Some (name_from_str s)
                 end = Some name).
    { destruct name as [n|]; [|reflexivity]. destruct Hn as [s Hn].
      destruct (name_ascii _ _ Hn) as (_ & Hne & _). destruct n as [|c n]; [contradiction|].
      now rewrite (name_reparse _ _ Hn). }
    rewrite En. replace ((Z.of_N port <=? 0)%Z || (65535 <? Z.of_N port)%Z) with false by lia.
    rewrite N2Z.id. destruct proto; reflexivity.
  Qed.
End RT.

(** ** Reading *)
Lemma fill_spec n sizes : forall buf i,
  match fill n buf i sizes with
  | Full b i' _ => b ++ contents i' = buf ++ contents i /\ n <= len b /\ (exists x, b = buf ++ x)
  | Eof b i' => b = buf ++ contents i /\ contents i' = [] /\ len b < n
  | Starved b i' => b ++ contents i' = buf ++ contents i
  end.
Proof.
  induction sizes as [|nk sizes IH]; intros buf i; cbn [fill].
  - destruct (n <=? len buf) eqn:E; [|reflexivity].
    split; [reflexivity|]. split; [lia|]. exists []. now rewrite app_nil_r.
  - destruct (n <=? len buf) eqn:E.
    { split; [reflexivity|]. split; [lia|]. exists []. now rewrite app_nil_r. }
    destruct (read_buf i nk) as [b i1] eqn:Er. apply read_buf_spec in Er as [Hc He].
    destruct b as [|c b].
    + cbn [app] in Hc. assert (Hn : contents i = []) by now apply He.
      rewrite Hc, Hn, app_nil_r. split; [easy|]. split; [easy|]. lia.
    + specialize (IH (buf ++ c :: b) i1).
      destruct (fill n (buf ++ c :: b) i1 sizes).
      * rewrite <- app_assoc, Hc in IH. destruct IH as (H1 & H2 & x & ->). split; [easy|].
        split; [easy|]. exists ((c :: b) ++ x). now rewrite app_assoc.
      * rewrite <- app_assoc, Hc in IH. exact IH.
      * rewrite <- app_assoc, Hc in IH. exact IH.
Qed.

(** The outcome as a function of the whole stream [s], and what is left after it. *)
Definition expect (utf8 : bytes -> bool) (capacity : N) (s : bytes) : outcome * bytes :=
  if len s <? PREFACE_AND_SIZE_LEN then (NoHeader, s)
  else if negb (beq (take (len PREFACE) s) PREFACE) then (NoHeader, s)
  else
    let rest := drop 4 (drop (len PREFACE) s) in
    let n := get_u32 (drop (len PREFACE) s) in
    if capacity + PREFACE_AND_SIZE_LEN <? n then (Invalid, rest)
    else if len rest <? n then (Invalid, rest)
    else match decode utf8 (take n rest) with
         | Some h => (Parsed h, drop n rest)
         | None => (Invalid, drop n rest)
         end.

Lemma get_u32_app a b : 4 <= len a -> get_u32 (a ++ b) = get_u32 a.
Proof.
  intros H. destruct a as [|a0 [|a1 [|a2 [|a3 a]]]]; unfold len in H; cbn [length] in H; try lia.
  reflexivity.
Qed.

Theorem read_prefaced_spec utf8 capacity i sizes :
  match read_prefaced utf8 capacity i sizes with
  | Read o buf i' => (o, buf ++ contents i') = expect utf8 capacity (contents i)
  | Waiting _ _ => True
  end.
Proof.
  unfold read_prefaced. pose proof (fill_spec PREFACE_AND_SIZE_LEN sizes [] i) as H1.
  destruct (fill PREFACE_AND_SIZE_LEN [] i sizes) as [buf i1 sz|buf i1|buf i1]; [| |exact I].
  2:{ destruct H1 as (-> & Hc & Hl). cbn [app] in *. rewrite Hc, app_nil_r. unfold expect.
      replace (len (contents i) <? PREFACE_AND_SIZE_LEN) with true by lia. reflexivity. }
  destruct H1 as (Hc & Hl & _). cbn [app] in Hc. unfold expect. rewrite <- Hc.
  rewrite len_app. replace (len buf + len (contents i1) <? PREFACE_AND_SIZE_LEN) with false by lia.
  unfold PREFACE_AND_SIZE_LEN in Hl.
  rewrite (take_app_le (len PREFACE)) by lia. rewrite (drop_app_le (len PREFACE)) by lia.
  destruct (negb (beq (take (len PREFACE) buf) PREFACE)); [reflexivity|].
  set (b2 := drop (len PREFACE) buf) in *.
  assert (Hl2 : 4 <= len b2) by (unfold b2; rewrite len_drop; lia).
  rewrite get_u32_app by exact Hl2. rewrite (drop_app_le 4) by exact Hl2.
  set (n := get_u32 b2). set (b3 := drop 4 b2).
  destruct (capacity + PREFACE_AND_SIZE_LEN <? n); [reflexivity|].
  pose proof (fill_spec n sz b3 i1) as H2. destruct (fill n b3 i1 sz) as [b4 i2 sz2|b4 i2|b4 i2]; [| |exact I].
  2:{ destruct H2 as (-> & Hc2 & Hl3). rewrite Hc2, app_nil_r.
      replace (len (b3 ++ contents i1) <? n) with true by lia. reflexivity. }
  destruct H2 as (Hc2 & Hl3 & _). rewrite <- Hc2.
  replace (len (b4 ++ contents i2) <? n) with false by (rewrite len_app; lia).
  rewrite take_app_le, drop_app_le by lia.
  destruct (decode utf8 (take n b4)); reflexivity.
Qed.

Lemma get_put_u32 v r : v < 2 ^ 32 -> get_u32 (put_u32 v ++ r) = v.
Proof.
  intros H. change (2 ^ 32) with 4294967296 in H. unfold put_u32. cbn [app get_u32]. lia.
Qed.

Lemma enc_varint_len v : len (enc_varint v) <= 10.
Proof.
  unfold enc_varint.
  assert (H : forall f v, len (enc_varint_go f v) <= N.of_nat f + 1).
  { induction f as [|f IH]; intros w; cbn [enc_varint_go]; [reflexivity|].
    destruct (w <? 128); [unfold len; cbn [length]; lia|]. specialize (IH (w / 128)).
    unfold len in *. cbn [length]. lia. }
  apply H.
Qed.

Lemma len_cons' c b : len (c :: b) = 1 + len b.
Proof. unfold len. cbn [length]. lia. Qed.

Lemma enc_proto_len h : sendable h -> len (enc_proto h) <= 300.
Proof.
  intros [_ Hn]. unfold enc_proto. rewrite !len_app.
  assert (H1 : len (if h_port h =? 0 then [] else 8 :: enc_varint (h_port h)) <= 11).
  { destruct (h_port h =? 0); [unfold len; cbn; lia|]. rewrite len_cons'. pose proof (enc_varint_len (h_port h)). lia. }
  assert (H2 : len (match h_name h with Some (c :: n) => 18 :: enc_varint (len (c :: n)) ++ c :: n | _ => [] end) <= 264).
  { destruct (h_name h) as [[|c n]|]; try (unfold len; cbn; lia). destruct Hn as [s Hn].
    destruct (name_ascii _ _ Hn) as (_ & _ & Hl).
    rewrite len_cons', len_app. pose proof (enc_varint_len (len (c :: n))). lia. }
  assert (H3 : len (match h_protocol h with Some s => 26 :: enc_varint (len (enc_session s)) ++ enc_session s | None => [] end) <= 13).
  { destruct (h_protocol h) as [[]|]; vm_compute; discriminate. }
  transitivity (11 + (264 + 13)); [|lia]. apply N.add_le_mono; [exact H1|]. apply N.add_le_mono; [exact H2|exact H3].
Qed.

Theorem read_encoded utf8 h payload : utf8_accepts_ascii utf8 -> sendable h ->
  expect utf8 (65536 - 27) (encode_prefaced h ++ payload) = (Parsed h, payload).
Proof.
  intros Hu Hs. pose proof (enc_proto_len h Hs) as Hl. unfold expect, encode_prefaced.
  rewrite <- !app_assoc.
  replace (len (PREFACE ++ put_u32 (len (enc_proto h)) ++ enc_proto h ++ payload) <? PREFACE_AND_SIZE_LEN) with false.
  2:{ rewrite !len_app. change (len (put_u32 (len (enc_proto h)))) with 4. unfold PREFACE_AND_SIZE_LEN. lia. }
  rewrite take_app_len, drop_app_len.
  replace (beq PREFACE PREFACE) with true by (symmetry; now apply beq_eq). cbn [negb].
  rewrite get_put_u32 by lia.
  change 4 with (len (put_u32 (len (enc_proto h)))). rewrite drop_app_len.
  change (65536 - 27 + PREFACE_AND_SIZE_LEN) with 65536.
  replace (65536 <? len (enc_proto h)) with false by lia.
  replace (len (enc_proto h ++ payload) <? len (enc_proto h)) with false by (rewrite len_app; lia).
  rewrite take_app_len, drop_app_len. now rewrite decode_encode.
Qed.

Theorem serve_round_trip utf8 h payload i sizes :
  utf8_accepts_ascii utf8 -> sendable h -> contents i = encode_prefaced h ++ payload ->
  serve utf8 i sizes = Pending \/
  exists i', serve utf8 i sizes = Next h i' /\ contents i' = payload.
Proof.
  intros Hu Hs Hc. unfold serve. pose proof (read_prefaced_spec utf8 (65536 - 27) i sizes) as H.
  destruct (read_prefaced utf8 (65536 - 27) i sizes) as [o buf i'|]; [|now left]. right.
  rewrite Hc, read_encoded in H by assumption. injection H as -> H.
  exists (Prefixed buf i'). split; [reflexivity|exact H].
Qed.

(** ** Progress: as many reads as there are bytes always reach an outcome. *)
Lemma fill_progress n sizes : forall buf i,
  (length (contents i) < length sizes)%nat ->
  match fill n buf i sizes with
  | Full b i' sizes' => (length (contents i') < length sizes')%nat
  | Eof _ _ => True
  | Starved _ _ => False
  end.
Proof.
  induction sizes as [|nk sizes IH]; intros buf i Hl; [cbn in Hl; lia|]. cbn [fill].
  destruct (n <=? len buf); [exact Hl|].
  destruct (read_buf i nk) as [b i1] eqn:Er. apply read_buf_spec in Er as [Hc _].
  destruct b as [|c b]; [exact I|]. apply IH. apply (f_equal (@length N)) in Hc.
  rewrite app_length in Hc. cbn [length] in *. lia.
Qed.

Theorem read_prefaced_progress utf8 capacity i sizes :
  (length (contents i) < length sizes)%nat ->
  forall b i', read_prefaced utf8 capacity i sizes <> Waiting b i'.
Proof.
  intros Hl b i'. unfold read_prefaced.
  pose proof (fill_progress PREFACE_AND_SIZE_LEN sizes [] i Hl) as H1.
  destruct (fill PREFACE_AND_SIZE_LEN [] i sizes) as [buf i1 sz|buf i1|buf i1]; [|discriminate|easy].
  destruct (negb _); [discriminate|]. destruct (_ <? _); [discriminate|].
  pose proof (fill_progress (get_u32 (drop (len PREFACE) buf)) sz (drop 4 (drop (len PREFACE) buf)) i1 H1) as H2.
  destruct (fill _ _ i1 sz); [|discriminate|easy].
  destruct (decode _ _); discriminate.
Qed.

Theorem serve_round_trip_complete utf8 h payload i sizes :
  utf8_accepts_ascii utf8 -> sendable h -> contents i = encode_prefaced h ++ payload ->
  (length (contents i) < length sizes)%nat ->
  exists i', serve utf8 i sizes = Next h i' /\ contents i' = payload.
Proof.
  intros Hu Hs Hc Hl. destruct (serve_round_trip utf8 h payload i sizes Hu Hs Hc) as [H|H]; [|exact H].
  unfold serve in H. pose proof (read_prefaced_progress utf8 (65536 - 27) i sizes Hl) as Hp.
  destruct (read_prefaced utf8 (65536 - 27) i sizes) as [o b i'|b i'].
  - destruct o; discriminate.
  - exfalso. now apply (Hp b i').
Qed.

(** A stream without the preface. *)
Theorem no_preface_untouched utf8 capacity i sizes o buf i' :
  ~ starts_preface (contents i) -> read_prefaced utf8 capacity i sizes = Read o buf i' ->
  o = NoHeader /\ buf ++ contents i' = contents i.
Proof.
  intros Hn H. pose proof (read_prefaced_spec utf8 capacity i sizes) as Hs. rewrite H in Hs.
  unfold expect in Hs. destruct (len (contents i) <? PREFACE_AND_SIZE_LEN); [injection Hs as -> ->; easy|].
  destruct (beq (take (len PREFACE) (contents i)) PREFACE) eqn:E; cbn [negb] in Hs.
  - exfalso. apply Hn. apply beq_eq in E. exists (drop (len PREFACE) (contents i)). change the_preface with PREFACE.
    rewrite <- E at 1. symmetry. apply take_drop.
  - injection Hs as -> ->. easy.
Qed.

Theorem read_segmentation utf8 capacity i j s1 s2 o1 b1 i1 o2 b2 i2 :
  contents i = contents j ->
  read_prefaced utf8 capacity i s1 = Read o1 b1 i1 ->
  read_prefaced utf8 capacity j s2 = Read o2 b2 i2 ->
  o1 = o2 /\ b1 ++ contents i1 = b2 ++ contents i2.
Proof.
  intros Hc H1 H2. pose proof (read_prefaced_spec utf8 capacity i s1) as Hs1. rewrite H1 in Hs1.
  pose proof (read_prefaced_spec utf8 capacity j s2) as Hs2. rewrite H2 in Hs2.
  rewrite Hc in Hs1. rewrite <- Hs2 in Hs1. now injection Hs1.
Qed.

(** Whatever is accepted has a usable port and a valid name. *)
Theorem accepted_header_valid utf8 i sizes h i' :
  serve utf8 i sizes = Next h i' ->
  1 <= h_port h <= 65535 /\ (forall n, h_name h = Some n -> dns_name n) /\
  exists n, contents i = PREFACE ++ n ++ contents i'.
Proof.
  unfold serve. pose proof (read_prefaced_spec utf8 (65536 - 27) i sizes) as Hs.
  destruct (read_prefaced utf8 (65536 - 27) i sizes) as [[h0| |] buf i0|]; try discriminate.
  intros H; injection H as <- <-. unfold expect in Hs.
  destruct (len (contents i) <? PREFACE_AND_SIZE_LEN) eqn:El; [discriminate|].
  destruct (beq (take (len PREFACE) (contents i)) PREFACE) eqn:E; cbn [negb] in Hs; [|discriminate].
  destruct (_ <? _) in Hs; [discriminate|]. destruct (_ <? _) in Hs; [discriminate|].
  set (b := drop (len PREFACE) (contents i)) in *. set (n := get_u32 b) in *.
  destruct (decode utf8 (take n (drop 4 b))) as [h1|] eqn:Ed; [|discriminate].
  injection Hs as <- Hr.
  unfold decode in Ed. destruct (proto_decode utf8 _) as [p|]; [|discriminate].
  destruct (match p_name p with [] => _ | _ => _ end) as [nm|] eqn:En; [|discriminate].
  destruct ((p_port p <=? 0)%Z || (65535 <? p_port p)%Z) eqn:Ep; [discriminate|].
  injection Ed as <-. cbn [h_port h_name]. split; [lia|]. split.
  - intros x ->. destruct (p_name p) as [|c s]; [discriminate|].
    destruct (name_from_str (c :: s)) as [y|] eqn:Ey; [|discriminate]. injection En as <-.
    apply name_reparse, name_from_str_spec in Ey. tauto.
  - exists (take 4 b ++ take n (drop 4 b)). cbn [contents]. rewrite Hr.
    rewrite <- app_assoc, (take_drop n), (take_drop 4). apply beq_eq in E. rewrite <- E at 1.
    unfold b. symmetry. apply take_drop.
Qed.

Lemma encoded_starts h : starts_preface (encode_prefaced h).
Proof. exists (put_u32 (len (enc_proto h)) ++ enc_proto h). reflexivity. Qed.

(** ** Unknown fields *)
Lemma dec_varint_go_app fuel : forall b s v r, dec_varint_go fuel b = Some (v, r) ->
  dec_varint_go fuel (b ++ s) = Some (v, r ++ s) /\ (length r < length b)%nat.
Proof.
  induction fuel as [|fuel IH]; intros [|c b] s v r H; try discriminate H; cbn [dec_varint_go app] in *.
  - destruct (c <? 2); [|discriminate]. injection H as <- <-. split; [reflexivity|cbn; lia].
  - destruct (c <? 128); [injection H as <- <-; split; [reflexivity|cbn; lia]|].
    destruct (dec_varint_go fuel b) as [[v' r']|] eqn:E; [|discriminate]. injection H as <- <-.
    destruct (IH b s _ _ E) as [-> L]. split; [reflexivity|cbn; lia].
Qed.
Lemma dec_varint_app b s v r : dec_varint b = Some (v, r) -> dec_varint (b ++ s) = Some (v, r ++ s) /\ (length r < length b)%nat.
Proof. apply dec_varint_go_app. Qed.
Lemma len_of_app (a s : bytes) : len (a ++ s) = len a + len s.
Proof. unfold len. rewrite app_length. lia. Qed.
Lemma take_app_le n (a s : bytes) : n <= len a -> take n (a ++ s) = take n a.
Proof.
  intros H. unfold take, len in *. rewrite firstn_app. replace (N.to_nat n - length a)%nat with 0%nat by lia. cbn. now rewrite app_nil_r.
Qed.
Lemma drop_app_le n (a s : bytes) : n <= len a -> drop n (a ++ s) = drop n a ++ s.
Proof.
  intros H. unfold drop, len in *. rewrite skipn_app. replace (N.to_nat n - length a)%nat with 0%nat by lia. reflexivity.
Qed.
Lemma drop_length n (a : bytes) : (length (drop n a) <= length a)%nat.
Proof. unfold drop. rewrite skipn_length. lia. Qed.
Lemma dec_delimited_app b s x r : dec_delimited b = Some (x, r) -> dec_delimited (b ++ s) = Some (x, r ++ s) /\ (length r <= length b)%nat.
Proof.
  unfold dec_delimited. destruct (dec_varint b) as [[n q]|] eqn:E; [|discriminate]. destruct (dec_varint_app b s n q E) as [-> L].
  destruct (n <=? len q) eqn:Q; [|discriminate]. intros H. injection H as <- <-. apply N.leb_le in Q. rewrite len_of_app.
  replace (n <=? len q + len s) with true by (symmetry; apply N.leb_le; lia).
  rewrite take_app_le, drop_app_le by exact Q. split; [reflexivity|]. pose proof (drop_length n q). lia.
Qed.
Lemma dec_key_app b s t w r : dec_key b = Some (t, w, r) -> dec_key (b ++ s) = Some (t, w, r ++ s) /\ (length r < length b)%nat.
Proof.
  unfold dec_key. destruct (dec_varint b) as [[k q]|] eqn:E; [|discriminate]. destruct (dec_varint_app b s k q E) as [-> L].
  destruct (_ || _); [discriminate|]. intros H. injection H as <- <- <-. auto.
Qed.
Lemma skip_field_app w b s r : skip_field w b = Some r -> skip_field w (b ++ s) = Some (r ++ s) /\ (length r <= length b)%nat.
Proof.
  unfold skip_field. destruct (w =? 0).
  { destruct (dec_varint b) as [[v q]|] eqn:E; [|discriminate]. intros H. injection H as <-. destruct (dec_varint_app b s v q E) as [-> L]. cbn. split; [reflexivity|lia]. }
  destruct (w =? 1).
  { destruct (8 <=? len b) eqn:Q; [|discriminate]. intros H. injection H as <-. apply N.leb_le in Q. rewrite len_of_app.
    replace (8 <=? len b + len s) with true by (symmetry; apply N.leb_le; lia). rewrite drop_app_le by exact Q. split; [reflexivity|apply drop_length]. }
  destruct (w =? 2).
  { destruct (dec_delimited b) as [[v q]|] eqn:E; [|discriminate]. intros H. injection H as <-. destruct (dec_delimited_app b s v q E) as [-> L]. cbn. split; [reflexivity|lia]. }
  destruct (w =? 5); [|discriminate].
  destruct (4 <=? len b) eqn:Q; [|discriminate]. intros H. injection H as <-. apply N.leb_le in Q. rewrite len_of_app.
  replace (4 <=? len b + len s) with true by (symmetry; apply N.leb_le; lia). rewrite drop_app_le by exact Q. split; [reflexivity|apply drop_length].
Qed.
Lemma header_field_app utf8 m t w b s m' r : header_field utf8 m t w b = Some (m', r) ->
  header_field utf8 m t w (b ++ s) = Some (m', r ++ s) /\ (length r <= length b)%nat.
Proof.
  unfold header_field. destruct (t =? 1).
  { destruct (w =? 0); [|discriminate]. destruct (dec_varint b) as [[v q]|] eqn:E; [|discriminate]. intros H. injection H as <- <-.
    destruct (dec_varint_app b s v q E) as [-> L]. split; [reflexivity|lia]. }
  destruct (t =? 2).
  { destruct (w =? 2); [|discriminate]. destruct (dec_delimited b) as [[v q]|] eqn:E; [|discriminate].
    destruct (dec_delimited_app b s v q E) as [-> L]. destruct (utf8 v); [|discriminate]. intros H. injection H as <- <-. auto. }
  destruct (t =? 3).
  { destruct (w =? 2); [|discriminate]. destruct (dec_delimited b) as [[v q]|] eqn:E; [|discriminate].
    destruct (dec_delimited_app b s v q E) as [-> L]. destruct (merge session_field _ _ v); [|discriminate]. intros H. injection H as <- <-. auto. }
  destruct (skip_field w b) as [q|] eqn:E; [|discriminate]. intros H. injection H as <- <-.
  destruct (skip_field_app w b s q E) as [-> L]. split; [reflexivity|exact L].
Qed.
Lemma merge_fuel utf8 n : forall n' m b, (length b <= n)%nat -> (length b <= n')%nat ->
  merge (header_field utf8) n m b = merge (header_field utf8) n' m b.
Proof.
  induction n as [|n IH]; intros n' m b L L'.
  - destruct b; [|cbn in L; lia]. destruct n'; reflexivity.
  - destruct b as [|c b]; [destruct n'; reflexivity|]. destruct n' as [|n']; [cbn in L'; lia|]. cbn [merge].
    destruct (dec_key (c :: b)) as [[[t w] r]|] eqn:K; [|reflexivity]. destruct (dec_key_app _ [] _ _ _ K) as [_ A].
    destruct (header_field utf8 m t w r) as [[m' q]|] eqn:F; [|reflexivity]. destruct (header_field_app _ _ _ _ _ [] _ _ F) as [_ B].
    cbn [length] in *. apply IH; lia.
Qed.
Lemma merge_app utf8 n : forall m a m' s, (length a <= n)%nat -> merge (header_field utf8) (length a) m a = Some m' ->
  merge (header_field utf8) (length (a ++ s)) m (a ++ s) = merge (header_field utf8) (length s) m' s.
Proof.
  induction n as [|n IH]; intros m a m' s L H.
  - destruct a; [|cbn in L; lia]. cbn in H. injection H as <-. reflexivity.
  - destruct a as [|c a]; [cbn in H; injection H as <-; reflexivity|].
    change ((c :: a) ++ s) with (c :: (a ++ s)). cbn [length merge] in H |- *.
    destruct (dec_key (c :: a)) as [[[t w] r]|] eqn:K; [|discriminate]. destruct (dec_key_app _ s _ _ _ K) as [K' A].
    change ((c :: a) ++ s) with (c :: (a ++ s)) in K'. rewrite K'.
    destruct (header_field utf8 m t w r) as [[m1 q]|] eqn:F; [|discriminate]. destruct (header_field_app _ _ _ _ _ s _ _ F) as [F' B]. rewrite F'.
    cbn [length] in A, L. rewrite (merge_fuel utf8 _ (length q)) in H by lia.
    rewrite (merge_fuel utf8 _ (length (q ++ s))) by (rewrite ?app_length; lia). apply (IH m1 q m' s); [lia|exact H].
Qed.
Lemma key_of tag w r : 4 <= tag < 2 ^ 29 -> w <= 5 -> dec_key (enc_varint (8 * tag + w) ++ r) = Some (tag, w, r).
Proof.
  intros T W. unfold dec_key. change (2 ^ 29) with 536870912 in T. rewrite dec_enc_varint by (change (2 ^ 64) with 18446744073709551616; lia).
  assert (E : (8 * tag + w) / 8 = tag) by (symmetry; apply (N.div_unique _ _ _ w); lia).
  assert (R : (8 * tag + w) mod 8 = w) by (symmetry; apply (N.mod_unique _ _ tag); lia). rewrite E, R.
  replace (4294967295 <? 8 * tag + w) with false by (symmetry; apply N.ltb_ge; lia).
  replace (5 <? w) with false by (symmetry; apply N.ltb_ge; lia).
  replace (tag <? 1) with false by (symmetry; apply N.ltb_ge; lia). reflexivity.
Qed.
Lemma skipped utf8 m tag w x : 4 <= tag < 2 ^ 29 -> w <= 5 -> skip_field w x = Some [] ->
  merge (header_field utf8) (length (enc_varint (8 * tag + w) ++ x)) m (enc_varint (8 * tag + w) ++ x) = Some m.
Proof.
  intros T W S. pose proof (key_of tag w x T W) as K. destruct (dec_key_app _ [] _ _ _ K) as [_ L].
  set (b := enc_varint (8 * tag + w) ++ x) in *. destruct b as [|c b]; [cbn in L; lia|]. cbn [length merge]. rewrite K.
  unfold header_field. replace (tag =? 1) with false by (symmetry; apply N.eqb_neq; lia).
  replace (tag =? 2) with false by (symmetry; apply N.eqb_neq; lia). replace (tag =? 3) with false by (symmetry; apply N.eqb_neq; lia).
  rewrite S. cbn [option_map]. destruct (length b); reflexivity.
Qed.
Lemma unknown_skipped utf8 m u : unknown_field u -> merge (header_field utf8) (length u) m u = Some m.
Proof.
  intros [tag v T V|tag x T L|tag x T L|tag x T L].
  - replace (8 * tag) with (8 * tag + 0) by lia. apply skipped; [exact T|lia|]. change (skip_field 0 (enc_varint v)) with (option_map snd (dec_varint (enc_varint v))). rewrite <- (app_nil_r (enc_varint v)), dec_enc_varint by exact V. reflexivity.
  - apply skipped; [exact T|lia|]. cbn. rewrite L. cbn. unfold drop. rewrite skipn_all2 by (unfold len in L; lia). reflexivity.
  - apply skipped; [exact T|lia|]. change (skip_field 2 (enc_varint (len x) ++ x)) with (option_map snd (dec_delimited (enc_varint (len x) ++ x))). rewrite <- (app_nil_r x) at 2. rewrite dec_enc_delimited by exact L. reflexivity.
  - apply skipped; [exact T|lia|]. cbn. rewrite L. cbn. unfold drop. rewrite skipn_all2 by (unfold len in L; lia). reflexivity.
Qed.
Theorem unknown_ignored utf8 before u after p : unknown_field u -> proto_decode utf8 before = Some p ->
  decode utf8 (before ++ u ++ after) = decode utf8 (before ++ after).
Proof.
  intros U B. unfold decode. assert (E : proto_decode utf8 (before ++ u ++ after) = proto_decode utf8 (before ++ after)); [|now rewrite E].
  unfold proto_decode in *. rewrite !(merge_app utf8 _ _ before p _ (le_n _) B).
  apply (merge_app utf8 (length u) p u p after (le_n _)). now apply unknown_skipped.
Qed.
