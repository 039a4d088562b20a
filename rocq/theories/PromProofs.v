(** Proofs of C118 *)
From Coq Require Import String List NArith Arith Bool Lia ZifyBool ZifyN ZifyNat.
From Verif Require Import Bytes BytesProofs NameModel NameSpec NameProofs FilterModel TraceModel PromModel PromSpec.
Import ListNotations.
Open Scope N_scope.

(** ** Errors *)

Lemma cause_ref_none : forall A (f : cause -> option A) e, cause_ref f e = None <-> forall c, In c e -> f c = None.
Proof.
  intros A f e. induction e as [|c e IH]; cbn.
  - split; [intros _ c []|reflexivity].
  - destruct (f c) eqn:F.
    + split; [discriminate|intros H; rewrite (H c (or_introl eq_refl)) in F; discriminate].
    + rewrite IH. split; intros H d; [intros [<-|I]; auto|intros I; apply H; now right].
Qed.

Lemma cause_ref_some : forall A (f : cause -> option A) e a,
  cause_ref f e = Some a ->
  exists outer c inner, e = outer ++ c :: inner /\ f c = Some a /\ forall d, In d outer -> f d = None.
Proof.
  intros A f e a. induction e as [|c e IH]; cbn; [discriminate|]. destruct (f c) eqn:F.
  - intros [= ->]. exists [], c, e. repeat split; auto. intros d [].
  - intros H. destruct (IH H) as (o & d & i & -> & D & N). exists (c :: o), d, i. repeat split; auto.
    intros x [<-|I]; auto.
Qed.

(** A search for one kind of cause, of which all higher kinds are absent, finds what says most. *)
Lemma pick : forall A (f : cause -> option A) e a rank v,
  cause_ref f e = Some a ->
  (forall c, f c = Some a -> says c = Some (rank, v)) ->
  (forall c r w, In c e -> says c = Some (r, w) -> (rank <= r)%nat /\ (f c = None -> (rank < r)%nat)) ->
  verdict e v.
Proof.
  intros A f e a rank v H S L. destruct (cause_ref_some _ _ _ _ H) as (o & c & i & -> & F & N).
  right. exists o, c, i, rank. repeat split; auto.
  - intros d r w I E. apply (L d r w); auto. apply in_or_app. now left.
  - intros d r w I E. eapply (L d r w); auto. apply in_or_app. right. now right.
Qed.

Lemma reset_says : forall r, says (C_h2 (H2_reset r)) = Some (10%nat, inl (reset_label r)).
Proof.
  intros [r|]; [|reflexivity]. unfold reset_label.
  destruct (r =? 8) eqn:A; [apply N.eqb_eq in A; subst; reflexivity|].
  destruct (r =? 7) eqn:B; [apply N.eqb_eq in B; subst; reflexivity|].
  destruct (r =? 11) eqn:C; [apply N.eqb_eq in C; subst; reflexivity|].
  apply N.eqb_neq in A, B, C. cbn. destruct r as [|p]; [reflexivity|].
  repeat (destruct p as [p|p|]; try reflexivity; try congruence).
Qed.

Lemma says_h2 : forall h, exists l, says (C_h2 h) = Some (10%nat, inl l) /\
  l = match h with H2_reset r => reset_label r | H2_go_away => GoAway | H2_io => Io | H2_other => Unknown end.
Proof. intros [r| | |]; eexists; split; try reflexivity. apply reset_says. Qed.

Lemma rank_of : forall c r w, says c = Some (r, w) ->
  match c with
  | C_fail_fast => r = 1 | C_load_shed => r = 2 | C_redirect _ => r = 3 | C_http_failure _ => r = 4 | C_grpc_failure _ => r = 5
  | C_headers_timeout => r = 6 | C_stream_timeout => r = 7 | C_deadline => r = 8 | C_idle => r = 9 | C_h2 _ => r = 10
  | C_other => False
  end%nat.
Proof.
  intros c r w. destruct c as [| | | | | | | | |h|]; try (cbn; intros [= <- _]; reflexivity).
  destruct (says_h2 h) as (l & E & _). rewrite E. intros [= <- _]. reflexivity.
Qed.

Ltac kind n :=
  match goal with
  | |- verdict _ (match ?x with Some _ => _ | None => _ end) =>
      let K := fresh "K" in
      destruct x eqn:K;
      [apply (pick _ _ _ _ n _ K)|pose proof (proj1 (cause_ref_none _ _ _) K); clear K]
  end.
Ltac says_tac := let c := fresh "c" in intros c; destruct c; cbn; try discriminate; intros [= E]; subst; reflexivity.
Ltac less :=
  let I := fresh "I" in let S := fresh "S" in
  intros c r w I S; apply rank_of in S;
  repeat match goal with Q : forall c, In c _ -> _ |- _ => specialize (Q _ I) end;
  destruct c; try contradiction; try discriminate; subst r; split; try lia; cbn; discriminate.

Lemma verdict_ok : forall e, verdict e (new_or_status e).
Proof.
  intros e. unfold new_or_status.
  kind 1%nat; [says_tac|less|]. kind 2%nat; [says_tac|less|]. kind 3%nat; [says_tac|less|]. kind 4%nat; [says_tac|less|].
  kind 5%nat; [says_tac|less|]. kind 6%nat; [says_tac|less|]. kind 7%nat; [says_tac|less|]. kind 8%nat; [says_tac|less|].
  kind 9%nat; [says_tac|less|].
  match goal with |- context [cause_ref ?f ?e] => destruct (cause_ref f e) as [h|] eqn:K9 end.
  - destruct (says_h2 h) as (l & S & L).
    replace (match h with H2_reset r => _ | _ => _ end) with (@inl error_label N l) by (rewrite L; now destruct h).
    apply (pick _ _ _ _ 10%nat _ K9); [|less].
    intros c. destruct c; try discriminate. intros [= ->]. exact S.
  - pose proof (proj1 (cause_ref_none _ _ _) K9); clear K9. left. split; [reflexivity|]. intros c I.
    repeat match goal with Q : forall c, In c _ -> _ |- _ => specialize (Q _ I) end.
    destruct c; try discriminate. reflexivity.
Qed.

Lemma verdict_unique : forall e v w, verdict e v -> verdict e w -> v = w.
Proof.
  intros e v w [[-> A]|(o & c & i & r & -> & S & L & M)] [[-> B]|(o' & c' & i' & r' & E & S' & L' & M')]; auto.
  - rewrite A in S'; [discriminate|]. rewrite E. apply in_or_app. right. now left.
  - rewrite B in S; [discriminate|]. apply in_or_app. right. now left.
  - revert o' E L' M'. induction o as [|d o IH]; intros [|d' o'] E L' M'; cbn in E; injection E as -> E.
    + congruence.
    + assert (In c' i) by (rewrite E; apply in_or_app; right; now left).
      specialize (M _ _ _ H S'). specialize (L' _ _ _ (or_introl eq_refl) S). lia.
    + assert (In c i') by (rewrite <- E; apply in_or_app; right; now left).
      specialize (M' _ _ _ H S). specialize (L _ _ _ (or_introl eq_refl) S'). lia.
    + apply (IH (fun d r w I => L d r w (or_intror I)) o' E (fun d r w I => L' d r w (or_intror I)) M').
Qed.

Lemma verdict_iff : forall e v, verdict e v <-> new_or_status e = v.
Proof.
  intros e v. split; [|intros <-; apply verdict_ok]. intros H. exact (verdict_unique _ _ _ (verdict_ok e) H).
Qed.

(** ** Codes *)

Lemma code_ok : forall v n, code_from_bytes v = n <-> code_header n v \/ (n = 2 /\ forall m, ~ code_header m v).
Proof.
  assert (U : forall v n m, code_header n v -> code_header m v -> n = m).
  { intros v n m [[A ->]|[A ->]] [[B E]|[B E]]; try discriminate; apply (f_equal (fun l => last l 0)) in E; cbv [last] in E; lia. }
  assert (K : forall v, code_header (code_from_bytes v) v \/ (code_from_bytes v = 2 /\ forall m, ~ code_header m v)).
  { intros [|a [|b [|c v]]]; cbn [code_from_bytes].
    - right. split; [reflexivity|]. intros m [[_ E]|[_ E]]; discriminate.
    - destruct ((48 <=? a) && (a <=? 57)) eqn:R.
      + left. left. split; [lia|]. f_equal. lia.
      + right. split; [reflexivity|]. intros m [[A E]|[_ E]]; [|discriminate]. apply (f_equal (fun l => last l 0)) in E. cbv [last] in E. lia.
    - destruct ((a =? 49) && (48 <=? b) && (b <=? 54)) eqn:R.
      + left. right. split; [lia|]. repeat (f_equal; try lia).
      + right. split; [reflexivity|]. intros m [[_ E]|[A E]]; [discriminate|].
        pose proof (f_equal (fun l => last l 0) E) as E2. pose proof (f_equal (fun l => hd 0 l) E) as E1. cbv [last hd] in E1, E2. lia.
    - right. split; [reflexivity|]. intros m [[_ E]|[_ E]]; discriminate. }
  intros v n. split.
  - intros <-. apply K.
  - intros [H|[-> H]]; destruct (K v) as [J|[E J]]; auto.
    + exact (U _ _ _ J H).
    + exfalso. exact (J _ H).
    + exfalso. exact (H _ J).
Qed.

Lemma grpc_code_iff : forall hs c, grpc_code hs c <-> get_grpc_status hs = c.
Proof.
  intros hs c. unfold grpc_code, get_grpc_status, hm_get.
  destruct (find _ hs) as [[k v]|]; cbn; [|split; intros; auto].
  split.
  - intros (n & -> & H). f_equal. now apply code_ok.
  - intros <-. eexists. split; [reflexivity|]. now apply code_ok.
Qed.

(** ** Labels *)

(** What a labeler says of a stream, from its start to its end *)
Definition labels_at (k : labeler) (rsp : option (N * headers)) (x : ending) : rsp_labels :=
  status_labels (end_response k (match rsp with Some (s, hs) => init_response k unseen s hs | None => unseen end) x).

Lemma has_error_iff : forall x e, has_error x e <-> error_of x = Some e.
Proof. intros x e; destruct x; cbn; split; intros H; try contradiction; try discriminate; first [subst; reflexivity|injection H as H; now subst]. Qed.

Lemma no_error_iff : forall x, (forall e, ~ has_error x e) <-> error_of x = None.
Proof.
  intros x. destruct (error_of x) as [e|] eqn:E.
  - split; [|discriminate]. intros H. now apply has_error_iff, H in E.
  - split; [reflexivity|]. intros _ e H. apply has_error_iff in H. congruence.
Qed.

Lemma http_labels_iff : forall status x l,
  http_labels status x l <->
  l = apply (apply (Labels None None) (option_map (fun s => Labels (Some s) None) status)) (option_map http_of_error (error_of x)).
Proof.
  intros status x l. unfold http_labels. rewrite no_error_iff.
  assert (B : forall code, ((100 <=? code) && (code <=? 999)) = ((100 <=? code) && (code <? 1000))) by (intros; lia).
  destruct (error_of x) as [e|] eqn:E; cbn [option_map].
  - split.
    + intros [[? _]|(e' & v & H & V & L)]; [discriminate|]. apply has_error_iff in H. rewrite E in H. injection H as <-.
      apply verdict_iff in V. unfold http_of_error. rewrite V. destruct v as [x'|c].
      * rewrite L. now destruct status.
      * rewrite B in L. destruct ((100 <=? c) && (c <? 1000)); rewrite L; now destruct status.
    + intros ->. right. exists e, (new_or_status e). split; [now apply has_error_iff|]. split; [apply verdict_ok|].
      unfold http_of_error. destruct (new_or_status e) as [x'|c]; [now destruct status|].
      rewrite B. destruct ((100 <=? c) && (c <? 1000)); now destruct status.
  - split.
    + intros [[_ ->]|(e' & v & H & _)]; [now destruct status|]. apply has_error_iff in H. congruence.
    + intros ->. left. split; [reflexivity|]. now destruct status.
Qed.

Lemma labelled_iff : forall k rsp x l, labelled k rsp x l <-> l = labels_at k rsp x.
Proof.
  intros k rsp x l. destruct k; cbn [labelled].
  - rewrite http_labels_iff. unfold labels_at, end_response, status_labels, unseen.
    destruct rsp as [[s hs]|]; cbn; destruct (error_of x); reflexivity.
  - unfold grpc_labels, labels_at, end_response, status_labels, unseen.
    set (code := match x, option_map snd rsp with
                 | Trailers_were t, _ => get_grpc_status t
                 | _, Some hs => get_grpc_status hs
                 | _, None => None end).
    assert (C : forall c, match x, option_map snd rsp with
                          | Trailers_were t, _ => grpc_code t c
                          | _, Some hs => grpc_code hs c
                          | _, None => c = None end <-> c = code).
    { intros c. unfold code. destruct x, (option_map snd rsp); rewrite ?grpc_code_iff; split; congruence. }
    match goal with |- _ <-> l = ?R => assert (R = apply (Labels code None) (option_map grpc_of_error (error_of x))) as -> end.
    { unfold code. destruct rsp as [[s hs]|], x; cbn; try (destruct (get_grpc_status _)); reflexivity. }
    clearbody code. setoid_rewrite no_error_iff. split.
    + intros (c & H & J). apply C in H. subst c. destruct J as [[-> ->]|(e & v & H & V & L)]; [reflexivity|].
      apply has_error_iff in H. rewrite H. cbn. apply verdict_iff in V. unfold grpc_of_error. rewrite V.
      destruct v; rewrite L; now destruct code.
    + intros ->. exists code. split; [now apply C|]. destruct (error_of x) as [e|] eqn:E; [|left; auto].
      right. exists e, (new_or_status e). split; [now apply has_error_iff|]. split; [apply verdict_ok|].
      cbn. unfold grpc_of_error. destruct (new_or_status e); now destruct code.
  - unfold labels_at, end_response, status_labels, unseen. destruct rsp as [[s hs]|]; reflexivity.
  - unfold labels_at, end_response, status_labels, unseen.
    destruct l as [ls le]; cbn [l_error l_status].
    destruct rsp as [[s hs]|], x; cbn; rewrite ?grpc_code_iff;
      try (destruct (get_grpc_status _)); split; try (intros [-> <-]; reflexivity); try (intros [-> ->]; reflexivity);
      intros [= -> ->]; split; reflexivity.
Qed.

Lemma hostname_iff : forall export host n,
  hostname export host = Some n <-> export = true /\ exists h, host = Some h /\ dns_name h /\ n = lowers h.
Proof.
  intros [] host n; cbn.
  - destruct host as [h|].
    + rewrite name_from_str_spec. split; [intros [H ->]; eauto|].
      intros (_ & h' & [= <-] & H & ->). auto.
    + split; [discriminate|]. intros (_ & h & H & _). discriminate.
  - split; [discriminate|]. intros [H _]. discriminate.
Qed.

(** ** Text *)

Lemma error_text_inj : forall a b, error_text a = error_text b -> a = b.
Proof. intros [] []; try reflexivity; discriminate. Qed.
Lemma error_text_ne : forall a, error_text a <> [].
Proof. intros []; discriminate. Qed.

Lemma code_text_inj : forall a b, a <= 16 -> b <= 16 -> code_text a = code_text b -> a = b.
Proof.
  assert (E : forall a, a <= 16 -> In a (map N.of_nat (seq 0 17))).
  { intros a L. apply in_map_iff. exists (N.to_nat a). split; [lia|]. apply in_seq. lia. }
  intros a b A B. apply E in A, B. cbn in A, B.
  repeat (destruct A as [<-|A]; [repeat (destruct B as [<-|B]; [first [reflexivity|discriminate]|]); contradiction|]); contradiction.
Qed.

Section Decimal.
Variable decimal : N -> bytes.
Hypothesis decimal_inj : forall a b, decimal a = decimal b -> a = b.
Hypothesis decimal_ne : forall a, decimal a <> [].

Lemma error_part : forall a b : option error_label,
  match a with Some x => error_text x | None => [] end = match b with Some x => error_text x | None => [] end -> a = b.
Proof.
  intros [a|] [b|] H; auto.
  - f_equal. now apply error_text_inj.
  - now apply error_text_ne in H.
  - symmetry in H. now apply error_text_ne in H.
Qed.

Lemma encode_inj : forall k a b, k <> Out_grpc -> encode decimal k a = encode decimal k b -> a = b.
Proof.
  intros k [sa ea] [sb eb] K H. unfold encode in H. cbn [l_status l_error] in H. injection H as S E.
  apply error_part in E. f_equal; auto.
  destruct k; try congruence; destruct sa as [sa|], sb as [sb|]; auto; try (f_equal; now apply decimal_inj);
    try (now apply decimal_ne in S); symmetry in S; now apply decimal_ne in S.
Qed.

Lemma encode_grpc : forall a b,
  (forall n, l_status a = Some n -> n <= 16) -> (forall n, l_status b = Some n -> n <= 16) ->
  (encode decimal Out_grpc a = encode decimal Out_grpc b <->
   l_error a = l_error b /\
   match l_status a with Some n => n | None => 2 end = match l_status b with Some n => n | None => 2 end).
Proof.
  intros [sa ea] [sb eb] A B. unfold encode. cbn [l_status l_error] in *. split.
  - intros H. injection H as S E. split; [now apply error_part|].
    apply code_text_inj in S; auto; [destruct sa|destruct sb]; cbn; auto; lia.
  - intros [-> ->]. reflexivity.
Qed.
End Decimal.
