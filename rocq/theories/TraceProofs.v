From Coq Require Import List NArith ZArith Bool Lia ZifyBool ZifyNat ZifyN.
From Verif Require Import Bytes BytesProofs IoModel IoProofs FilterModel FilterSpec TraceModel TraceSpec.
Import ListNotations.
Open Scope N_scope.

Ltac Zify.zify_post_hook ::= Z.div_mod_to_equations.

(** ** Hexadecimal *)
Lemma hex_val_spec a x : hex_val a = Some x <-> digit_value a x.
Proof.
  unfold hex_val. split.
  - destruct ((48 <=? a) && (a <=? 57)) eqn:E1.
    { intros H; injection H as <-. replace a with (48 + (a - 48)) at 1 by lia. constructor. lia. }
    destruct ((97 <=? a) && (a <=? 102)) eqn:E2.
    { intros H; injection H as <-. replace a with (97 + (a - 97)) at 1 by lia.
      replace (a - 87) with (10 + (a - 97)) by lia. constructor. lia. }
    destruct ((65 <=? a) && (a <=? 70)) eqn:E3; [|discriminate].
    intros H; injection H as <-. replace a with (65 + (a - 65)) at 1 by lia.
    replace (a - 55) with (10 + (a - 65)) by lia. apply dv_upper. lia.
  - intros [v Hv|v Hv|v Hv].
    + replace ((48 <=? 48 + v) && (48 + v <=? 57)) with true by lia. f_equal. lia.
    + replace ((48 <=? 97 + v) && (97 + v <=? 57)) with false by lia.
      replace ((97 <=? 97 + v) && (97 + v <=? 102)) with true by lia. f_equal. lia.
    + replace ((48 <=? 65 + v) && (65 + v <=? 57)) with false by lia.
      replace ((97 <=? 65 + v) && (65 + v <=? 102)) with false by lia.
      replace ((65 <=? 65 + v) && (65 + v <=? 70)) with true by lia. f_equal. lia.
Qed.
Lemma digit_value_lt a x : digit_value a x -> x < 16.
Proof. intros [v H|v H|v H]; lia. Qed.
Lemma digit_value_zero a x : digit_value a x -> (a = 48 <-> x = 0).
Proof. intros H; destruct H as [v H|v H|v H]; lia. Qed.
Lemma digit_value_dash x : ~ digit_value dash x.
Proof.
  assert (G : forall a x, digit_value a x -> 48 <= a) by (intros a y H; destruct H as [v H|v H|v H]; lia).
  intros H. apply G in H. unfold dash in H. lia.
Qed.

Lemma hex_decode_spec_n n : forall s b, (length s <= n)%nat -> (hex_decode s = Some b <-> hexes s b).
Proof.
  induction n as [|n IH]; intros s b Hl.
  - destruct s; [|cbn in Hl; lia]. cbn. split; [intros H; injection H as <-; constructor|].
    intros H; inversion H; reflexivity.
  - destruct s as [|a [|c s]].
    + cbn. split; [intros H; injection H as <-; constructor|]. intros H; inversion H; reflexivity.
    + cbn. split; [discriminate|intros H; inversion H].
    + cbn [hex_decode]. split.
      * destruct (hex_val a) as [x|] eqn:Ea; [|discriminate].
        destruct (hex_val c) as [y|] eqn:Ec; [|discriminate].
        destruct (hex_decode s) as [t|] eqn:Et; [|discriminate].
        intros H; injection H as <-. constructor; [now apply hex_val_spec..|].
        apply IH; [cbn in Hl; lia|exact Et].
      * intros H; inversion H; subst.
        assert (Ea : hex_val a = Some x) by now apply hex_val_spec. rewrite Ea.
        assert (Ec : hex_val c = Some y) by now apply hex_val_spec. rewrite Ec.
        assert (Et : hex_decode s = Some t) by (apply IH; [cbn in Hl; lia|assumption]).
        now rewrite Et.
Qed.
Lemma hex_decode_spec s b : hex_decode s = Some b <-> hexes s b.
Proof. apply (hex_decode_spec_n (length s)). lia. Qed.

Lemma hex_char_value n : n < 16 -> digit_value (hex_char n) n.
Proof.
  intros H. unfold hex_char. destruct (n <? 10) eqn:E.
  - constructor. lia.
  - replace (87 + n) with (97 + (n - 10)) by lia. replace n with (10 + (n - 10)) at 2 by lia.
    apply dv_lower. lia.
Qed.

Lemma hexes_encode b : byte_string b -> hexes (hex_encode b) b.
Proof.
  induction 1 as [|c b Hc Hb IH]; cbn [hex_encode flat_map app]; [constructor|].
  replace c with (16 * (c / 16) + c mod 16) at 3 by lia.
  constructor; [apply hex_char_value; lia|apply hex_char_value; lia|exact IH].
Qed.
Lemma hexes_bytes s b : hexes s b -> byte_string b.
Proof.
  induction 1 as [|a x b y s t Ha Hb Hs IH]; constructor; [|exact IH].
  apply digit_value_lt in Ha, Hb. lia.
Qed.
Lemma hexes_no_dash s b : hexes s b -> ~ In dash s.
Proof.
  induction 1 as [|a x b y s t Ha Hb Hs IH]; cbn; [tauto|].
  intros [->|[->|H]]; [now apply (digit_value_dash x)|now apply (digit_value_dash y)|contradiction].
Qed.
Lemma hexes_nonzero s b : hexes s b -> (forallb (fun c => c =? 48) s = false <-> nonzero b).
Proof.
  induction 1 as [|a x b y s t Ha Hb Hs IH].
  - cbn. split; [discriminate|]. intros (c & [] & _).
  - cbn [forallb]. apply digit_value_zero in Ha, Hb.
    rewrite !andb_false_iff. unfold nonzero in *. split.
    + intros [H|[H|H]].
      * exists (16 * x + y). split; [now left|]. lia.
      * exists (16 * x + y). split; [now left|]. lia.
      * apply IH in H as (c & Hin & Hc). exists c. split; [now right|easy].
    + intros (c & [<-|Hin] & Hc).
      * destruct (a =? 48) eqn:E1; [|now left]. destruct (b =? 48) eqn:E2; [|now (right; left)]. lia.
      * right; right. apply IH. eauto.
Qed.
Lemma hexes_det s b c : hexes s b -> hexes s c -> b = c.
Proof. intros H1 H2. apply hex_decode_spec in H1, H2. congruence. Qed.

Lemma hexes_visible s b : hexes s b -> forallb (fun b => ((32 <=? b) && (b <? 127)) || (b =? 9)) s = true.
Proof.
  induction 1 as [|a x b y s t Ha Hb Hs IH]; [reflexivity|]. cbn [forallb].
  rewrite IH. assert (forall a x, digit_value a x -> 48 <= a < 127) by (intros ? ? [v H|v H|v H]; lia).
  pose proof (H _ _ Ha). pose proof (H _ _ Hb). lia.
Qed.

(** ** Base 64 *)
Lemma b64_val_char n : n < 64 -> b64_val (b64_char n) = Some n.
Proof.
  intros H. unfold b64_char.
  destruct (n <? 26) eqn:E1.
  { unfold b64_val. replace ((65 <=? 65 + n) && (65 + n <=? 90)) with true by lia. f_equal. lia. }
  destruct (n <? 52) eqn:E2.
  { unfold b64_val. replace ((65 <=? 71 + n) && (71 + n <=? 90)) with false by lia.
    replace ((97 <=? 71 + n) && (71 + n <=? 122)) with true by lia. f_equal. lia. }
  destruct (n <? 62) eqn:E3.
  { unfold b64_val. replace ((65 <=? n - 4) && (n - 4 <=? 90)) with false by lia.
    replace ((97 <=? n - 4) && (n - 4 <=? 122)) with false by lia.
    replace ((48 <=? n - 4) && (n - 4 <=? 57)) with true by lia. f_equal. lia. }
  destruct (n =? 62) eqn:E4; [cbn; f_equal; lia|]. cbn. f_equal. lia.
Qed.
Lemma b64_char_not_pad n : n < 64 -> (b64_char n =? 61) = false.
Proof.
  intros H. unfold b64_char. destruct (n <? 26) eqn:E1; [lia|]. destruct (n <? 52) eqn:E2; [lia|].
  destruct (n <? 62) eqn:E3; [lia|]. destruct (n =? 62); reflexivity.
Qed.
Lemma b64_char_visible n : n < 64 -> 43 <= b64_char n < 127.
Proof.
  intros H. unfold b64_char. destruct (n <? 26) eqn:E1; [lia|]. destruct (n <? 52) eqn:E2; [lia|].
  destruct (n <? 62) eqn:E3; [lia|]. destruct (n =? 62); lia.
Qed.

Lemma b64_encode_nonnil x r : b64_encode (x :: r) <> [].
Proof. destruct r as [|y [|z r]]; discriminate. Qed.

Lemma b64_round_trip_n n : forall b, (length b <= n)%nat -> byte_string b ->
  b64_decode (b64_encode b) = Some b.
Proof.
  induction n as [|n IH]; intros b Hl Hb; [destruct b; [reflexivity|cbn in Hl; lia]|].
  destruct b as [|x [|y [|z r]]]; [reflexivity| | |].
  - inversion Hb as [|? ? Hx _]; subst. cbn [b64_encode b64_decode].
    rewrite !b64_val_char by lia. change (61 =? 61) with true. cbv iota.
    replace (x mod 4 * 16 mod 16 =? 0) with true by lia. do 2 f_equal. lia.
  - inversion Hb as [|? ? Hx Hb']; subst. inversion Hb' as [|? ? Hy _]; subst.
    cbn [b64_encode b64_decode]. rewrite !b64_val_char by lia. change (61 =? 61) with true. cbv iota.
    rewrite b64_char_not_pad by lia.
    replace (y mod 16 * 4 mod 4 =? 0) with true by lia. f_equal. f_equal; [lia|]. f_equal. lia.
  - inversion Hb as [|? ? Hx Hb']; subst. inversion Hb' as [|? ? Hy Hb'']; subst.
    inversion Hb'' as [|? ? Hz Hr]; subst. cbn [b64_encode b64_decode].
    rewrite !b64_val_char by lia. rewrite b64_char_not_pad by lia.
    assert (IHr : b64_decode (b64_encode r) = Some r) by (apply IH; [cbn in Hl; lia|exact Hr]).
    assert (E1 : x / 4 * 4 + (x mod 4 * 16 + y / 16) / 16 = x) by lia.
    assert (E2 : (x mod 4 * 16 + y / 16) mod 16 * 16 + (y mod 16 * 4 + z / 64) / 4 = y) by lia.
    assert (E3 : (y mod 16 * 4 + z / 64) mod 4 * 64 + z mod 64 = z) by lia.
    rewrite E1, E2, E3. rewrite IHr. destruct (b64_encode r) as [|c cs] eqn:Er; [|reflexivity].
    destruct r as [|w r]; [reflexivity|]. exfalso. now apply (b64_encode_nonnil w r).
Qed.
Lemma b64_round_trip b : byte_string b -> b64_decode (b64_encode b) = Some b.
Proof. apply (b64_round_trip_n (length b)). lia. Qed.

Lemma b64_visible_n n : forall b, (length b <= n)%nat -> byte_string b ->
  forallb (fun b => ((32 <=? b) && (b <? 127)) || (b =? 9)) (b64_encode b) = true.
Proof.
  assert (V : forall n, n < 64 -> ((32 <=? b64_char n) && (b64_char n <? 127)) || (b64_char n =? 9) = true).
  { intros k Hk. pose proof (b64_char_visible k Hk). lia. }
  induction n as [|n IH]; intros b Hl Hb; [destruct b; [reflexivity|cbn in Hl; lia]|].
  destruct b as [|x [|y [|z r]]]; [reflexivity| | |].
  - inversion Hb as [|? ? Hx _]; subst. cbn [b64_encode forallb]. rewrite !V by lia. reflexivity.
  - inversion Hb as [|? ? Hx Hb']; subst. inversion Hb' as [|? ? Hy _]; subst.
    cbn [b64_encode forallb]. rewrite !V by lia. reflexivity.
  - inversion Hb as [|? ? Hx Hb']; subst. inversion Hb' as [|? ? Hy Hb'']; subst.
    inversion Hb'' as [|? ? Hz Hr]; subst. cbn [b64_encode forallb]. rewrite !V by lia.
    rewrite IH; [reflexivity|cbn in Hl; lia|exact Hr].
Qed.
Lemma b64_visible b : byte_string b -> to_str (b64_encode b) = Some (b64_encode b).
Proof. intros H. unfold to_str. now rewrite (b64_visible_n (length b)). Qed.

(** ** Header maps *)
Lemma hm_get_values n hs v : hm_get hs n = Some v <-> first_value n hs v.
Proof.
  unfold hm_get, first_value. induction hs as [|[m w] hs IH].
  - cbn. split; [discriminate|]. intros [vs H]; inversion H.
  - cbn [find fst]. destruct (beq m n) eqn:E.
    + apply beq_eq in E as ->. cbn [option_map snd]. split.
      * intros H; injection H as ->.
        assert (Hex : exists vs, values n hs vs).
        { clear. induction hs as [|[m u] hs [vs IH]]; [exists []; constructor|].
          destruct (bytes_eq_dec m n) as [->|Hn]; [exists (u :: vs)|exists vs]; now constructor. }
        destruct Hex as [vs Hvs]. exists vs. now constructor.
      * intros [vs H]. inversion H; subst; congruence.
    + apply beq_neq in E. rewrite IH. split; intros [vs H]; exists vs.
      * now constructor.
      * inversion H; subst; congruence.
Qed.

Lemma hm_get_insert_same hs n v : hm_get (hm_insert hs n v) n = Some v.
Proof.
  unfold hm_get, hm_insert. 
  assert (E : find (fun h => beq (fst h) n) (hm_remove hs n ++ [(n, v)]) = Some (n, v)).
  { unfold hm_remove. induction hs as [|[m w] hs IH]; cbn [filter app find fst].
    - now rewrite beq_refl.
    - destruct (beq m n) eqn:E; cbn [negb]; [exact IH|]. cbn [app find fst]. now rewrite E. }
  now rewrite E.
Qed.
Lemma hm_get_insert_other hs n v m : m <> n -> hm_get (hm_insert hs n v) m = hm_get hs m.
Proof.
  intros Hm. unfold hm_get, hm_insert. f_equal. unfold hm_remove.
  induction hs as [|[k w] hs IH]; cbn [filter app find fst].
  - replace (beq n m) with false; [reflexivity|]. symmetry. apply beq_neq. congruence.
  - destruct (beq k n) eqn:E; cbn [negb].
    + apply beq_eq in E as ->. rewrite IH. replace (beq n m) with false; [reflexivity|].
      symmetry. apply beq_neq. congruence.
    + cbn [app find fst]. rewrite IH. reflexivity.
Qed.
Lemma get_str_other hs n v m : m <> n -> get_header_str (hm_insert hs n v) m = get_header_str hs m.
Proof. intros H. unfold get_header_str. now rewrite hm_get_insert_other. Qed.
Lemma get_str_same hs n v : to_str v = Some v -> get_header_str (hm_insert hs n v) n = Some v.
Proof. intros H. unfold get_header_str. now rewrite hm_get_insert_same. Qed.

Lemma values_insert_other hs n v m vs : m <> n ->
  (values m (hm_insert hs n v) vs <-> values m hs vs).
Proof.
  intros Hm. unfold hm_insert, hm_remove. revert vs. induction hs as [|[k w] hs IH]; intros vs; cbn [filter app fst].
  - split; intros H; inversion H; subst; try congruence; auto.
    constructor; [congruence|constructor].
  - destruct (beq k n) eqn:E; cbn [negb].
    + apply beq_eq in E as ->. rewrite IH. split; intros H.
      * constructor; [congruence|exact H].
      * inversion H; subst; congruence.
    + cbn [app]. split; intros H; inversion H; subst.
      * constructor. now apply IH.
      * constructor; [easy|now apply IH].
      * constructor. now apply IH.
      * constructor; [easy|now apply IH].
Qed.

(** ** W3C *)
Lemma split_once_app a b : ~ In 45 a -> split_once 45 (a ++ 45 :: b) = Some (a, b).
Proof. intros H. apply split_once_some. auto. Qed.

Lemma decode_id s b pad : hexes s b -> len b = pad -> decode_id_with_padding s pad = Some b.
Proof.
  intros H Hl. unfold decode_id_with_padding. apply hex_decode_spec in H. rewrite H. cbn [option_map].
  replace (len b <? pad) with false by lia. reflexivity.
Qed.

Lemma parse_header_value_ok t tid rest pad : hexes t tid -> nonzero tid -> pad <= len tid ->
  parse_header_value (t ++ 45 :: rest) pad = Some (tid, rest).
Proof.
  intros Ht Hnz Hl. unfold parse_header_value. rewrite split_once_app by (eapply hexes_no_dash; eassumption).
  apply (hexes_nonzero _ _ Ht) in Hnz. rewrite Hnz.
  unfold decode_id_with_padding. apply hex_decode_spec in Ht. rewrite Ht. cbn [option_map].
  replace (len tid <? pad) with false by lia. reflexivity.
Qed.

Lemma parse_context_ok t tid p pid f fl :
  hexes t tid -> hexes p pid -> hexes f [fl] -> 16 <= len tid -> 8 <= len pid -> nonzero tid -> nonzero pid ->
  parse_context ([48; 48] ++ dash :: t ++ dash :: p ++ dash :: f) = Ctx (Context W3CHttp tid pid fl).
Proof.
  intros Ht Hp Hf Hlt Hlp Hnt Hnp. unfold parse_context, dash.
  rewrite split_once_app by (cbn; intuition discriminate).
  change (negb (beq [48; 48] VERSION_00)) with false. cbv iota.
  rewrite (parse_header_value_ok t tid) by assumption.
  rewrite (parse_header_value_ok p pid) by assumption.
  apply hex_decode_spec in Hf. now rewrite Hf.
Qed.

Lemma visible_app a b :
  forallb (fun b => ((32 <=? b) && (b <? 127)) || (b =? 9)) (a ++ b) =
  forallb (fun b => ((32 <=? b) && (b <? 127)) || (b =? 9)) a && forallb (fun b => ((32 <=? b) && (b <? 127)) || (b =? 9)) b.
Proof. apply forallb_app. Qed.

Lemma traceparent_visible t tid p pid f fl : hexes t tid -> hexes p pid -> hexes f fl ->
  to_str ([48; 48] ++ dash :: t ++ dash :: p ++ dash :: f) = Some ([48; 48] ++ dash :: t ++ dash :: p ++ dash :: f).
Proof.
  intros Ht Hp Hf. unfold to_str, dash.
  rewrite visible_app. cbn [forallb]. rewrite visible_app. cbn [forallb]. rewrite visible_app. cbn [forallb].
  now rewrite (hexes_visible _ _ Ht), (hexes_visible _ _ Hp), (hexes_visible _ _ Hf).
Qed.

Theorem w3c_valid hs v tid pid fl :
  first_value TRACEPARENT hs v -> traceparent v tid pid fl ->
  unpack_trace_context hs = Ctx (Context W3CHttp tid pid fl).
Proof.
  intros Hv (t & p & f & -> & Ht & Hp & Hf & Hlt & Hlp & Hnt & Hnp).
  unfold unpack_trace_context, unpack_w3c, get_header_str. apply hm_get_values in Hv. rewrite Hv.
  rewrite (traceparent_visible t tid p pid f [fl]) by assumption.
  rewrite (parse_context_ok t tid p pid f fl) by (assumption || lia). reflexivity.
Qed.

(** The length and validity of parsed ids. *)
Lemma decode_id_len s pad b : decode_id_with_padding s pad = Some b -> pad <= len b /\ byte_string b.
Proof.
  unfold decode_id_with_padding. destruct (hex_decode s) as [d|] eqn:E; [|discriminate].
  apply hex_decode_spec in E. pose proof (hexes_bytes _ _ E) as Hb. cbn [option_map].
  destruct (len d <? pad) eqn:El; intros H; injection H as <-.
  - rewrite len_app. unfold len at 1. rewrite repeat_length. split; [lia|].
    apply Forall_app. split; [|exact Hb]. clear. induction (N.to_nat _); constructor; [lia|auto].
  - split; [lia|exact Hb].
Qed.
Lemma parse_header_value_inv v pad id rest : parse_header_value v pad = Some (id, rest) ->
  pad <= len id /\ byte_string id /\ nonzero id /\ exists t, v = t ++ 45 :: rest /\ ~ In 45 t.
Proof.
  unfold parse_header_value. destruct (split_once 45 v) as [[t r]|] eqn:Es; [|discriminate].
  destruct (forallb (fun c => c =? 48) t) eqn:Ez; [discriminate|].
  destruct (decode_id_with_padding t pad) as [i|] eqn:Ed; [|discriminate].
  intros H; injection H as -> ->. pose proof (decode_id_len _ _ _ Ed) as [Hl Hb].
  split; [exact Hl|]. split; [exact Hb|]. split; [|exists t; now apply split_once_some in Es].
  unfold decode_id_with_padding in Ed. destruct (hex_decode t) as [d|] eqn:E; [|discriminate].
  apply hex_decode_spec in E. apply (hexes_nonzero _ _ E) in Ez. destruct Ez as (c & Hin & Hc).
  cbn [option_map] in Ed. exists c. split; [|exact Hc].
  destruct (len d <? pad); injection Ed as <-; [|exact Hin]. apply in_or_app. now right.
Qed.
Lemma parse_context_inv v c : parse_context v = Ctx c ->
  c_propagation c = W3CHttp /\ 16 <= len (c_trace_id c) /\ byte_string (c_trace_id c) /\
  nonzero (c_trace_id c) /\ c_flags c < 256.
Proof.
  unfold parse_context. destruct (split_once 45 v) as [[ver rest]|]; [|discriminate].
  destruct (negb _); [discriminate|].
  destruct (parse_header_value rest 16) as [[tid r1]|] eqn:E1; [|discriminate].
  destruct (parse_header_value r1 8) as [[pid r2]|] eqn:E2; [|discriminate].
  destruct (hex_decode r2) as [[|f fs]|] eqn:E3; try discriminate.
  intros H; injection H as <-. cbn [c_propagation c_trace_id c_flags].
  apply parse_header_value_inv in E1 as (Hl & Hb & Hn & _). repeat split; auto.
  apply hex_decode_spec, hexes_bytes in E3. now inversion E3.
Qed.

Lemma w3c_forward hs c id : unpack_w3c hs = Ctx c -> span_id_ok id ->
  unpack_w3c (increment_w3c hs c id) = Ctx (Context W3CHttp (c_trace_id c) id (c_flags c)).
Proof.
  intros Hu (Hil & Hib & Hin). unfold unpack_w3c in Hu.
  destruct (get_header_str hs TRACEPARENT) as [v|]; [|discriminate].
  apply parse_context_inv in Hu as (Hp & Hl & Hb & Hn & Hf).
  assert (Ht : hexes (hex_encode (c_trace_id c)) (c_trace_id c)) by now apply hexes_encode.
  assert (Hi : hexes (hex_encode id) id) by now apply hexes_encode.
  assert (Hfl : hexes (hex_encode [c_flags c]) [c_flags c])
    by (apply hexes_encode; constructor; [exact Hf|constructor]).
  unfold unpack_w3c, increment_w3c.
  change (VERSION_00 ++ [45] ++ hex_encode (c_trace_id c) ++ [45] ++ hex_encode id ++ [45] ++ hex_encode [c_flags c])
    with ([48; 48] ++ dash :: hex_encode (c_trace_id c) ++ dash :: hex_encode id ++ dash :: hex_encode [c_flags c]).
  rewrite get_str_same by (eapply traceparent_visible; eassumption).
  apply parse_context_ok; auto; lia.
Qed.

(** ** gRPC *)
Lemma b64_val_lt c n : b64_val c = Some n -> n < 64.
Proof.
  unfold b64_val. destruct ((65 <=? c) && (c <=? 90)) eqn:E1; [intros H; injection H as <-; lia|].
  destruct ((97 <=? c) && (c <=? 122)) eqn:E2; [intros H; injection H as <-; lia|].
  destruct ((48 <=? c) && (c <=? 57)) eqn:E3; [intros H; injection H as <-; lia|].
  destruct (c =? 43); [intros H; injection H as <-; lia|].
  destruct (c =? 47); [intros H; injection H as <-; lia|discriminate].
Qed.
Lemma b64_decode_bytes_n n : forall s b, (length s <= n)%nat -> b64_decode s = Some b -> byte_string b.
Proof.
  induction n as [|n IH]; intros s b Hl.
  { destruct s; [|cbn in Hl; lia]. intros H; injection H as <-. constructor. }
  destruct s as [|a0 [|b0 [|c0 [|d0 r]]]]; try discriminate.
  { intros H; injection H as <-. constructor. }
  cbn [b64_decode]. destruct (b64_val a0) as [a|] eqn:Ea; [|discriminate].
  destruct (b64_val b0) as [b1|] eqn:Eb; [|discriminate]. apply b64_val_lt in Ea, Eb.
  destruct r as [|r0 r].
  - destruct (d0 =? 61).
    + destruct (c0 =? 61).
      * destruct (b1 mod 16 =? 0); [|discriminate]. intros H; injection H as <-.
        constructor; [lia|constructor].
      * destruct (b64_val c0) as [c|] eqn:Ec; [|discriminate]. apply b64_val_lt in Ec.
        destruct (c mod 4 =? 0); [|discriminate]. intros H; injection H as <-.
        constructor; [lia|]. constructor; [lia|constructor].
    + destruct (b64_val c0) as [c|] eqn:Ec; [|discriminate].
      destruct (b64_val d0) as [d|] eqn:Ed; [|discriminate]. apply b64_val_lt in Ec, Ed.
      intros H; injection H as <-. constructor; [lia|]. constructor; [lia|]. constructor; [lia|constructor].
  - destruct (b64_val c0) as [c|] eqn:Ec; [|discriminate].
    destruct (b64_val d0) as [d|] eqn:Ed; [|discriminate]. apply b64_val_lt in Ec, Ed.
    destruct (b64_decode (r0 :: r)) as [t|] eqn:Er; [|discriminate].
    intros H; injection H as <-. constructor; [lia|]. constructor; [lia|]. constructor; [lia|].
    eapply IH; [|exact Er]. cbn in Hl |- *. lia.
Qed.

Lemma byte_string_take n b : byte_string b -> byte_string (take n b).
Proof.
  intros H. unfold byte_string, take in *. rewrite Forall_forall in *. intros x Hx. apply H.
  rewrite <- (firstn_skipn (N.to_nat n) b). apply in_or_app. now left.
Qed.
Lemma byte_string_drop n b : byte_string b -> byte_string (drop n b).
Proof.
  intros H. unfold byte_string, drop in *. rewrite Forall_forall in *. intros x Hx. apply H.
  rewrite <- (firstn_skipn (N.to_nat n) b). apply in_or_app. now right.
Qed.

Definition grpc_ok (c : context) : Prop :=
  c_propagation c = B3Grpc /\ byte_string (c_trace_id c) /\ c_flags c < 256 /\
  (c_trace_id c = [] \/ len (c_trace_id c) = 16).

Lemma parse_grpc_fields_ok fuel : forall buf c c', byte_string buf -> grpc_ok c ->
  parse_grpc_fields fuel buf c = Some c' -> grpc_ok c'.
Proof.
  induction fuel as [|fuel IH]; intros buf c c' Hb Hc.
  - destruct buf; [|discriminate]. cbn. intros H; now injection H as <-.
  - destruct buf as [|i buf]; [cbn; intros H; now injection H as <-|].
    cbn [parse_grpc_fields]. inversion Hb as [|? ? Hi Hb']; subst.
    destruct (parse_grpc_field (i :: buf) c) as [c1 r| |] eqn:E; [|intros H; now injection H as <-|discriminate].
    assert (H1 : grpc_ok c1 /\ byte_string r).
    { unfold parse_grpc_field, try_split_to in E. destruct Hc as (H1 & H2 & H3 & H4).
      destruct (i =? 1); [|destruct (i =? 0); [|destruct (i =? 2); [|discriminate]]].
      - destruct (8 <=? len buf) eqn:El; [|discriminate]. injection E as <- <-.
        split; [|now apply byte_string_drop]. repeat split; auto.
      - destruct (16 <=? len buf) eqn:El; [|discriminate]. injection E as <- <-.
        split; [|now apply byte_string_drop]. split; [auto|]. cbn [c_propagation c_trace_id c_parent_id c_flags]. split; [now apply byte_string_take|].
        split; [auto|]. right. rewrite len_take. lia.
      - destruct (1 <=? len buf) eqn:El; [|discriminate].
        pose proof (byte_string_take 1 buf Hb') as Ht.
        destruct (take 1 buf) as [|f fs] eqn:Et; [discriminate|]. injection E as <- <-.
        split; [|now apply byte_string_drop]. split; [auto|]. cbn [c_propagation c_trace_id c_parent_id c_flags]. split; [auto|]. split; [|auto].
        now inversion Ht. }
    destruct H1 as [H1 H2]. intros H. exact (IH r c1 c' H2 H1 H).
Qed.

Lemma unpack_grpc_ok hs c : unpack_grpc hs = Some c -> grpc_ok c.
Proof.
  unfold unpack_grpc. destruct (get_header_str hs GRPC_TRACE_BIN) as [v|]; [|discriminate].
  destruct (b64_decode v) as [[|ver buf]|] eqn:E; try discriminate.
  pose proof (b64_decode_bytes_n _ _ _ (le_n _) E) as Hb. inversion Hb; subst.
  apply parse_grpc_fields_ok; [assumption|]. split; [reflexivity|]. split; [apply Forall_nil|]. split; [reflexivity|now left].
Qed.

Lemma try_split_app a b n : len a = n -> try_split_to (a ++ b) n = Some (a, b).
Proof.
  intros <-. unfold try_split_to. rewrite len_app.
  replace (len a <=? len a + len b) with true by lia. now rewrite take_app_len, drop_app_len.
Qed.

Lemma grpc_fields_ok tid pid fl fuel c : len tid = 16 -> len pid = 8 -> (3 <= fuel)%nat ->
  parse_grpc_fields fuel (0 :: tid ++ 1 :: pid ++ [2; fl]) c =
  Some (Context (c_propagation c) tid pid fl).
Proof.
  intros Ht Hp Hf. destruct fuel as [|[|[|fuel]]]; try lia.
  cbn [parse_grpc_fields]. unfold parse_grpc_field at 1. change (0 =? 1) with false. change (0 =? 0) with true.
  cbv iota. rewrite (try_split_app tid) by exact Ht.
  unfold parse_grpc_field at 1. change (1 =? 1) with true. cbv iota.
  rewrite (try_split_app pid) by exact Hp.
  unfold parse_grpc_field at 1. change (2 =? 1) with false. change (2 =? 0) with false. change (2 =? 2) with true.
  cbv iota. unfold try_split_to. change (1 <=? len [fl]) with true. cbv iota.
  change (take 1 [fl]) with [fl]. change (drop 1 [fl]) with (@nil N).
  destruct fuel; reflexivity.
Qed.

(** The binary format, as the gRPC / census encoding has it. *)
Theorem grpc_valid hs tid pid fl ver :
  hm_get hs TRACEPARENT = None ->
  byte_string (ver :: 0 :: tid ++ 1 :: pid ++ [2; fl]) -> len tid = 16 -> len pid = 8 ->
  first_value GRPC_TRACE_BIN hs (b64_encode (ver :: 0 :: tid ++ 1 :: pid ++ [2; fl])) ->
  unpack_trace_context hs = Ctx (Context B3Grpc tid pid fl).
Proof.
  intros Hn Hb Ht Hp Hv. apply hm_get_values in Hv.
  unfold unpack_trace_context, unpack_w3c, unpack_grpc. unfold get_header_str. rewrite Hn, Hv.
  rewrite b64_visible by exact Hb. rewrite b64_round_trip by exact Hb.
  rewrite (grpc_fields_ok tid pid fl) by (try assumption; cbn [length]; rewrite app_length; cbn [length]; unfold len in Ht; lia).
  reflexivity.
Qed.

Lemma grpc_forward hs c id : unpack_grpc hs = Some c -> c_trace_id c <> [] -> span_id_ok id ->
  unpack_grpc (increment_grpc hs c id) = Some (Context B3Grpc (c_trace_id c) id (c_flags c)).
Proof.
  intros Hu Hne (Hil & Hib & _). apply unpack_grpc_ok in Hu as (Hp & Hb & Hf & [He|Hl]); [contradiction|].
  unfold unpack_grpc, increment_grpc.
  set (b := [0] ++ [0] ++ c_trace_id c ++ [1] ++ id ++ [2] ++ [c_flags c]).
  assert (Hbb : byte_string b).
  { unfold b, byte_string. repeat (apply Forall_app; split); auto; constructor; try constructor; lia. }
  rewrite get_str_same by now apply b64_visible. rewrite b64_round_trip by exact Hbb.
  unfold b. cbn [app].
  rewrite (grpc_fields_ok (c_trace_id c) id (c_flags c)); [reflexivity|exact Hl|exact Hil|].
  cbn [length]. rewrite app_length. unfold len in Hl. lia.
Qed.

Lemma b3_forward hs c id : unpack_b3 hs = Some c -> span_id_ok id ->
  unpack_b3 (increment_b3 hs id) = Some (Context B3Http (c_trace_id c) id (c_flags c)).
Proof.
  intros Hu (Hil & Hib & _). unfold unpack_b3 in *. unfold parse_header_id in *. unfold increment_b3.
  assert (Hi : hexes (hex_encode id) id) by now apply hexes_encode.
  rewrite get_str_same by (unfold to_str; now rewrite (hexes_visible _ _ Hi)).
  rewrite (decode_id _ id) by assumption.
  rewrite !get_str_other by discriminate.
  destruct (get_header_str hs X_B3_SPANID) as [p|]; [|discriminate].
  destruct (decode_id_with_padding p 8); [|discriminate].
  destruct (get_header_str hs X_B3_TRACEID) as [t|]; [|discriminate].
  destruct (decode_id_with_padding t 16); [|discriminate].
  injection Hu as <-. reflexivity.
Qed.

Theorem forward_links hs c id hs' emit :
  unpack_trace_context hs = Ctx c -> span_id_ok id -> c_trace_id c <> [] ->
  trace_call true hs id = Forward hs' emit ->
  unpack_trace_context hs' = Ctx (Context (c_propagation c) (c_trace_id c) id (c_flags c)) /\
  emit = (if N.odd (c_flags c) then Some (Span (c_trace_id c) id (c_parent_id c)) else None).
Proof.
  intros Hu Hid Hne. unfold trace_call. rewrite Hu. unfold is_sampled.
  intros H.
  assert (E : hs' = increment_span_id hs c id /\ emit = (if N.odd (c_flags c) then Some (Span (c_trace_id c) id (c_parent_id c)) else None)).
  { destruct (N.odd (c_flags c)); now injection H as <- <-. }
  destruct E as [-> ->]. split; [|reflexivity]. clear H.
  unfold unpack_trace_context in Hu. destruct (unpack_w3c hs) as [c0| |] eqn:E1; [| |discriminate].
  - injection Hu as ->. pose proof E1 as E1'. unfold unpack_w3c in E1'.
    destruct (get_header_str hs TRACEPARENT) as [v|]; [|discriminate].
    apply parse_context_inv in E1' as (Hp & _). unfold increment_span_id. rewrite Hp.
    unfold unpack_trace_context. now rewrite (w3c_forward _ _ _ E1 Hid).
  - destruct (unpack_grpc hs) as [c0|] eqn:E2.
    + injection Hu as ->. pose proof (unpack_grpc_ok _ _ E2) as (Hp & _). unfold increment_span_id. rewrite Hp.
      unfold unpack_trace_context. rewrite (grpc_forward _ _ _ E2 Hne Hid).
      assert (Ew : unpack_w3c (increment_grpc hs c id) = NoCtx).
      { unfold unpack_w3c, increment_grpc in *. now rewrite get_str_other by discriminate. }
      now rewrite Ew.
    + destruct (unpack_b3 hs) as [c0|] eqn:E3; [|discriminate]. injection Hu as ->.
      assert (Hp : c_propagation c = B3Http).
      { unfold unpack_b3 in E3. destruct (parse_header_id hs X_B3_SPANID 8); [|discriminate].
        destruct (parse_header_id hs X_B3_TRACEID 16); [|discriminate]. now injection E3 as <-. }
      unfold increment_span_id. rewrite Hp. unfold unpack_trace_context.
      rewrite (b3_forward _ _ _ E3 Hid).
      assert (Ew : unpack_w3c (increment_b3 hs id) = NoCtx).
      { unfold unpack_w3c, increment_b3 in *. now rewrite get_str_other by discriminate. }
      assert (Eg : unpack_grpc (increment_b3 hs id) = None).
      { unfold unpack_grpc, increment_b3 in *. now rewrite get_str_other by discriminate. }
      now rewrite Ew, Eg.
Qed.

(** Only the header that carries the context changes. *)
Theorem forward_other_headers enabled hs id hs' emit n vs :
  trace_call enabled hs id = Forward hs' emit ->
  n <> TRACEPARENT -> n <> GRPC_TRACE_BIN -> n <> X_B3_SPANID ->
  (values n hs' vs <-> values n hs vs).
Proof.
  intros H H1 H2 H3. unfold trace_call in H. destruct enabled; [|injection H as <- _; reflexivity].
  destruct (unpack_trace_context hs) as [c| |]; [| |discriminate].
  - assert (E : hs' = increment_span_id hs c id) by (destruct (is_sampled c); now injection H as <- _).
    subst hs'. unfold increment_span_id. destruct (c_propagation c).
    + apply values_insert_other. exact H3.
    + apply values_insert_other. exact H2.
    + apply values_insert_other. exact H1.
  - injection H as <- _. reflexivity.
Qed.

Theorem no_context_untouched enabled hs id :
  unpack_trace_context hs = NoCtx \/ enabled = false -> trace_call enabled hs id = Forward hs None.
Proof. intros [H| ->]; [|reflexivity]. unfold trace_call. rewrite H. destruct enabled; reflexivity. Qed.

(** ** Crashes *)
Theorem crash_iff enabled hs id :
  trace_call enabled hs id = Crash <->
  enabled = true /\ exists v, first_value TRACEPARENT hs v /\
    exists t p tid pid, v = [48; 48] ++ dash :: t ++ dash :: p ++ [dash] /\
      hexes t tid /\ hexes p pid /\ nonzero tid /\ nonzero pid.
Proof.
  split.
  - unfold trace_call. destruct enabled; [|discriminate].
    destruct (unpack_trace_context hs) as [c| |] eqn:E; [destruct (is_sampled c); discriminate|discriminate|].
    intros _. split; [reflexivity|]. unfold unpack_trace_context in E.
    destruct (unpack_w3c hs) as [c| |] eqn:Ew; [discriminate| |].
    { destruct (unpack_grpc hs); [discriminate|]. destruct (unpack_b3 hs); discriminate. }
    unfold unpack_w3c, get_header_str in Ew. destruct (hm_get hs TRACEPARENT) as [v|] eqn:Ev; [|discriminate].
    exists v. split; [now apply hm_get_values|].
    unfold to_str in Ew. destruct (forallb _ v); [|discriminate]. unfold parse_context in Ew.
    destruct (split_once 45 v) as [[ver rest]|] eqn:Es; [|discriminate].
    destruct (beq ver VERSION_00) eqn:Eb; cbn [negb] in Ew; [|discriminate].
    apply beq_eq in Eb as ->. apply split_once_some in Es as [-> _].
    destruct (parse_header_value rest 16) as [[tid r1]|] eqn:E1; [|discriminate].
    destruct (parse_header_value r1 8) as [[pid r2]|] eqn:E2; [|discriminate].
    destruct (hex_decode r2) as [[|f fs]|] eqn:E3; try discriminate.
    apply hex_decode_spec in E3. inversion E3; subst r2.
    assert (Hinv : forall v pad id rest, parse_header_value v pad = Some (id, rest) ->
      exists t d, v = t ++ 45 :: rest /\ hexes t d /\ nonzero d).
    { clear. intros v pad id rest. unfold parse_header_value.
      destruct (split_once 45 v) as [[t r]|] eqn:Es; [|discriminate].
      destruct (forallb (fun c => c =? 48) t) eqn:Ez; [discriminate|].
      unfold decode_id_with_padding. destruct (hex_decode t) as [d|] eqn:E; [|discriminate].
      cbn [option_map]. intros H; injection H as _ <-. exists t, d. apply hex_decode_spec in E.
      split; [now apply split_once_some in Es|]. split; [exact E|]. now apply (hexes_nonzero t). }
    apply Hinv in E1 as (t & td & -> & Ht & Hnt). apply Hinv in E2 as (p & pd & -> & Hp & Hnp).
    exists t, p, td, pd. split; [reflexivity|]. auto.
  - intros [-> (v & Hv & t & p & tid & pid & -> & Ht & Hp & Hnt & Hnp)].
    unfold trace_call, unpack_trace_context, unpack_w3c, get_header_str.
    apply hm_get_values in Hv. rewrite Hv.
    rewrite (traceparent_visible t tid p pid [] []) by (assumption || constructor).
    assert (E : parse_context ([48; 48] ++ dash :: t ++ dash :: p ++ [dash]) = Panic).
    { unfold parse_context, dash. rewrite split_once_app by (cbn; intuition discriminate).
      change (negb (beq [48; 48] VERSION_00)) with false. cbv iota.
      assert (Hph : forall t tid rest pad, hexes t tid -> nonzero tid ->
        exists i, parse_header_value (t ++ 45 :: rest) pad = Some (i, rest)).
      { clear. intros t tid rest pad Ht Hn. unfold parse_header_value.
        rewrite split_once_app by (eapply hexes_no_dash; eassumption).
        apply (hexes_nonzero _ _ Ht) in Hn. rewrite Hn. unfold decode_id_with_padding.
        apply hex_decode_spec in Ht. rewrite Ht. cbn [option_map]. eauto. }
      destruct (Hph t tid (p ++ [45]) 16 Ht Hnt) as [i1 ->].
      destruct (Hph p pid [] 8 Hp Hnp) as [i2 ->]. reflexivity. }
    now rewrite E.
Qed.

Lemma decode_id_padded s b pad r : hexes s b -> padded (N.to_nat pad) b r -> decode_id_with_padding s pad = Some r.
Proof.
  intros H (k & -> & Hl). unfold decode_id_with_padding. apply hex_decode_spec in H. rewrite H. cbn [option_map].
  rewrite app_length, repeat_length in Hl. unfold len. destruct (N.of_nat (length b) <? pad) eqn:E.
  - do 3 f_equal. lia.
  - replace k with 0%nat by lia. reflexivity.
Qed.

Theorem b3_valid hs s sid sid' t tid tid' :
  hm_get hs TRACEPARENT = None -> hm_get hs GRPC_TRACE_BIN = None ->
  first_value X_B3_SPANID hs s -> hexes s sid -> padded 8 sid sid' ->
  first_value X_B3_TRACEID hs t -> hexes t tid -> padded 16 tid tid' ->
  exists fl, unpack_trace_context hs = Ctx (Context B3Http tid' sid' fl) /\
    fl < 2 /\ (fl = 1 <-> first_value X_B3_SAMPLED hs [49]).
Proof.
  intros Hw Hg Hs1 Hs2 Hs3 Ht1 Ht2 Ht3.
  apply hm_get_values in Hs1, Ht1.
  unfold unpack_trace_context, unpack_w3c, unpack_grpc, get_header_str. rewrite Hw, Hg.
  unfold unpack_b3, parse_header_id, get_header_str. rewrite Hs1, Ht1. unfold to_str.
  rewrite (hexes_visible _ _ Hs2), (hexes_visible _ _ Ht2).
  rewrite (decode_id_padded _ _ 8 _ Hs2 Hs3), (decode_id_padded _ _ 16 _ Ht2 Ht3).
  eexists. split; [reflexivity|]. rewrite <- hm_get_values.
  destruct (hm_get hs X_B3_SAMPLED) as [v|]; [|split; [lia|split; discriminate]].
  destruct (forallb _ v) eqn:Ev.
  - destruct (beq v [49]) eqn:Eb.
    + apply beq_eq in Eb. subst v. split; [lia|]. split; reflexivity.
    + split; [lia|]. split; [discriminate|]. intros H. injection H as ->.  discriminate Eb.
  - split; [lia|]. split; [discriminate|]. intros H. injection H as ->. discriminate Ev.
Qed.

Theorem forward_only_own_header hs c id hs' emit n vs :
  unpack_trace_context hs = Ctx c -> trace_call true hs id = Forward hs' emit ->
  n <> span_header (c_propagation c) -> (values n hs' vs <-> values n hs vs).
Proof.
  intros Hc Hf Hn. unfold trace_call in Hf. rewrite Hc in Hf.
  assert (E : hs' = increment_span_id hs c id) by (destruct (is_sampled c); injection Hf as <- _; reflexivity).
  subst hs'. unfold increment_span_id. destruct (c_propagation c); cbn [span_header] in Hn;
    apply values_insert_other; assumption.
Qed.
