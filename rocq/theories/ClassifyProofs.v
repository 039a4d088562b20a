From Coq Require Import String List NArith Bool Lia ZifyBool ZifyNat ZifyN.
From Verif Require Import Bytes BytesProofs FilterModel TraceModel RetrySpec RetryParseProofs BreakerModel
  ClassifyModel ClassifySpec HintSpec HintProofs.
Import ListNotations.
Open Scope N_scope.

Lemma is_match_iff : forall m status, is_match m status = true <-> describes m status.
Proof.
  fix IH 1. intros [lo hi|m|ms|ms] status; cbn [is_match describes].
  - lia.
  - rewrite negb_true_iff, <- IH. now rewrite not_true_iff_false.
  - induction ms as [|m ms IHms]; cbn [forallb fold_right]; [tauto|]. rewrite andb_true_iff, IHms, (IH m). tauto.
  - induction ms as [|m ms IHms]; cbn [existsb fold_right]; [intuition discriminate|]. rewrite orb_true_iff, IHms, (IH m). tauto.
Qed.

Lemma number_printable t n : number t n -> printable t.
Proof. intros H. apply number_shape in H as (x & m & _ & _ & _ & _ & H). apply to_str_iff. unfold to_str. now rewrite H. Qed.
Lemma grpc_code_iff hs c : grpc_code hs = Some c <-> has_status hs c.
Proof.
  unfold grpc_code, has_status. change (2 ^ 16) with (u16_max + 1).
  destruct (hm_get hs (bs "grpc-status")) as [v|].
  2:{ split; [discriminate|]. intros (v & n & H & _). discriminate H. }
  split.
  - intros H. destruct (to_str v) as [s|] eqn:E; [|discriminate]. pose proof (to_str_id _ _ E) as ->.
    destruct (parse_uint u16_max v) as [n|] eqn:En; [|discriminate]. exists v, n.
    assert (n <= u16_max) by (apply parse_uint_some in En as (? & ? & ? & ? & ? & ?); lia).
    split; [reflexivity|]. split; [now apply (number_iff u16_max)|]. split; [lia|].
    cbn [option_map] in H. injection H as <-. destruct (n <=? 16) eqn:E16; lia.
  - intros (v' & n & Hv & Hn & Hl & Hc). injection Hv as <-.
    pose proof (number_printable _ _ Hn) as P. apply to_str_iff in P. rewrite P.
    apply (number_iff u16_max) in Hn; [|lia]. rewrite Hn. cbn [option_map]. f_equal. destruct (n <=? 16) eqn:E16; lia.
Qed.
Lemma grpc_code_none hs : grpc_code hs = None <-> no_status hs.
Proof.
  unfold no_status. split.
  - intros H [c Hc]. apply grpc_code_iff in Hc. congruence.
  - intros H. destruct (grpc_code hs) as [c|] eqn:E; [|reflexivity]. exfalso. apply H. exists c. now apply grpc_code_iff.
Qed.
Lemma is_grpc_iff hs : is_grpc hs = true <-> grpc_request hs.
Proof.
  unfold is_grpc, grpc_request. destruct (hm_get hs (bs "content-type")) as [v|].
  2:{ split; [discriminate|]. intros (v & r & H & _). discriminate H. }
  destruct (to_str_cases v) as [[-> P]|[-> P]].
  - rewrite starts_with_iff. split; [intros [r H]; now exists v, r|]. intros (v' & r & E & _ & H). injection E as <-. now exists r.
  - split; [discriminate|]. intros (v' & r & E & H & _). injection E as <-. tauto.
Qed.
Theorem classify_effective r hs : effective r hs (classify r hs).
Proof.
  unfold effective, classify. destruct r; try reflexivity;
    destruct (is_grpc hs) eqn:E; try (left; split; [now apply is_grpc_iff|reflexivity]);
    right; (split; [rewrite <- is_grpc_iff; congruence|reflexivity]).
Qed.

Lemma ranges_iff l s : ranges_contain l s = true <-> exists lo hi, In (lo, hi) l /\ lo <= s <= hi.
Proof.
  unfold ranges_contain. rewrite existsb_exists. split.
  - intros ([lo hi] & H & E). exists lo, hi. cbn [fst snd] in E. split; [exact H|lia].
  - intros (lo & hi & H & E). exists (lo, hi). cbn [fst snd]. split; [exact H|lia].
Qed.
Lemma codes_iff l c : codes_contain l c = true <-> In c l.
Proof.
  unfold codes_contain. rewrite existsb_exists. split.
  - intros (x & H & E). apply N.eqb_eq in E. now subst.
  - intros H. exists c. split; [exact H|apply N.eqb_refl].
Qed.
Lemma find_iff cs st : match find (fun c => is_match (rc_match c) st) cs with
  | Some c => first_match cs st c
  | None => ~ exists c, first_match cs st c
  end.
Proof.
  induction cs as [|x cs IH]; cbn [find].
  - intros (c & a & b & E & _). destruct a; discriminate E.
  - destruct (is_match (rc_match x) st) eqn:E.
    + exists [], cs. split; [reflexivity|]. split; [now apply is_match_iff|]. intros y [].
    + assert (Hx : ~ describes (rc_match x) st) by (rewrite <- is_match_iff; congruence).
      destruct (find _ cs) as [c|].
      * destruct IH as (a & b & -> & H1 & H2). exists (x :: a), b. split; [reflexivity|]. split; [exact H1|].
        intros y [<-|Hy]; auto.
      * intros (c & a & b & Ec & H1 & H2). apply IH. destruct a as [|y a].
        { injection Ec as <- _. contradiction. }
        injection Ec as <- ->. exists c, a, b. split; [reflexivity|]. split; [exact H1|]. intros z Hz. apply H2. now right.
Qed.

Lemma final_cases hs tr :
  match grpc_code hs with
  | Some c => final_status hs tr c
  | None => match match tr with Some t => grpc_code t | None => None end with
            | Some c => final_status hs tr c
            | None => no_final_status hs tr
            end
  end.
Proof.
  destruct (grpc_code hs) as [c|] eqn:E; [left; now apply grpc_code_iff|].
  apply grpc_code_none in E. destruct tr as [t|].
  - destruct (grpc_code t) as [c|] eqn:Et.
    + right. split; [exact E|]. exists t. split; [reflexivity|now apply grpc_code_iff].
    + apply grpc_code_none in Et. intros [c [H|[_ (t' & Ht & H)]]]; [apply E; now exists c|].
      injection Ht as <-. apply Et. now exists c.
  - intros [c [H|[_ (t' & Ht & H)]]]; [apply E; now exists c|discriminate Ht].
Qed.

Theorem class_correct r st hs tr : class_of r st hs tr (at_eos (start r st hs) tr).
Proof.
  destruct r as [ranges|codes|cs]; cbn [start].
  - cbn [at_eos]. constructor. apply ranges_iff.
  - pose proof (final_cases hs tr) as F. destruct (grpc_code hs) as [c|]; cbn [at_eos].
    + constructor; [exact F|apply codes_iff].
    + destruct (match tr with Some t => grpc_code t | None => None end) as [c|].
      * constructor; [exact F|apply codes_iff].
      * now constructor.
  - unfold match_class. pose proof (find_iff cs st) as M.
    destruct (find _ cs) as [c|]; cbn [option_map at_eos]; [now constructor|].
    pose proof (final_cases hs tr) as F. destruct (grpc_code hs) as [c|]; cbn [at_eos].
    + apply Class_profile_grpc; [exact M|exact F|apply codes_iff].
    + destruct (match tr with Some t => grpc_code t | None => None end) as [c|].
      * apply Class_profile_grpc; [exact M|exact F|apply codes_iff].
      * apply Class_profile_http; [exact M|exact F|]. unfold fails_iff. lia.
Qed.

(** The class is a function of the response. *)
Lemma has_status_fun hs c c' : has_status hs c -> has_status hs c' -> c = c'.
Proof. intros H H'. apply grpc_code_iff in H, H'. congruence. Qed.
Lemma final_status_fun hs tr c c' : final_status hs tr c -> final_status hs tr c' -> c = c'.
Proof.
  intros [H|[N (t & E & H)]] [H'|[N' (t' & E' & H')]].
  - now apply has_status_fun with hs.
  - exfalso. apply N'. now exists c.
  - exfalso. apply N. now exists c'.
  - apply has_status_fun with t; congruence.
Qed.
Lemma first_match_fun cs st c c' : first_match cs st c -> first_match cs st c' -> c = c'.
Proof.
  intros (a & b & E & H1 & H2) (a' & b' & E' & H1' & H2'). subst cs. revert a' E' H2'.
  induction a as [|x a IH]; intros [|x' a'] E' H2'; cbn [app] in E'.
  - now injection E'.
  - injection E' as <- _. exfalso. apply (H2' c); [now left|exact H1].
  - injection E' as -> _. exfalso. apply (H2 c'); [now left|exact H1'].
  - injection E' as <- E'. apply IH with a'; auto; intros y Hy; [apply H2|apply H2']; now right.
Qed.
Lemma fails_fun a b P : fails_iff a P -> fails_iff b P -> a = b.
Proof. unfold fails_iff. intros H1 H2. destruct a, b; intuition congruence. Qed.
Theorem class_of_fun r st hs tr c c' : class_of r st hs tr c -> class_of r st hs tr c' -> c = c'.
Proof.
  intros H H'. destruct H; inversion H'; subst; f_equal; try reflexivity.
  all: try (eapply fails_fun; eassumption).
  all: try match goal with
    | H : final_status ?h ?t ?a, H' : final_status ?h ?t ?b |- _ =>
        assert (a = b) by (eapply final_status_fun; eassumption); subst
    | H : no_final_status ?h ?t, H' : final_status ?h ?t ?b |- _ => exfalso; apply H; now exists b
    | H : first_match ?h ?t ?a, H' : first_match ?h ?t ?b |- _ =>
        assert (a = b) by (eapply first_match_fun; eassumption); subst
    | H : ~ (exists _, first_match ?h ?t _), H' : first_match ?h ?t ?b |- _ => exfalso; apply H; now exists b
    end.
  all: try reflexivity. all: try (eapply fails_fun; eassumption).
Qed.

(** ** One class each *)
Lemma run_gone es : run Gone es = (Gone, []).
Proof. induction es as [|e es IH]; [reflexivity|]. cbn [run step]. now rewrite IH. Qed.
Lemma run_body_none es : snd (run (Body None) es) = [].
Proof.
  induction es as [|e es IH]; [reflexivity|]. cbn [run].
  destruct e; cbn [step]; try (destruct (run (Body None) es); exact IH). now rewrite run_gone.
Qed.
Lemma run_no_classifier es : snd (run (call None) es) = [].
Proof.
  unfold call. induction es as [|e es IH]; [reflexivity|]. cbn [run].
  destruct e; cbn [step option_map]; try (destruct (run (Future None) es); exact IH); try now rewrite run_gone.
  pose proof (run_body_none es). now destruct (run (Body None) es).
Qed.
Lemma run_body_ends c es tr : ends es tr ->
  snd (run (Body (Some c)) es) = [match tr with Some t => at_eos c t | None => Failed end].
Proof.
  intros (n & rest & e & -> & He). induction n as [|n IH]; cbn [repeat app run step].
  - destruct e; try contradiction; subst tr; cbn [step];
      try (pose proof (run_body_none rest); destruct (run (Body None) rest) as [s l]; cbn [snd] in *; now subst l).
    now rewrite run_gone.
  - destruct (run (Body (Some c)) _) as [s l]. exact IH.
Qed.
Theorem one_class r st hs es tr : ends es tr ->
  exists c, snd (run (call (Some r)) (Responds st hs :: es)) = [c] /\
    match tr with Some t => class_of r st hs t c | None => c = Failed end.
Proof.
  intros He. unfold call. cbn [run step option_map]. pose proof (run_body_ends (start r st hs) es tr He) as H.
  destruct (run _ es) as [s l]. cbn [snd app] in *. subst l.
  destruct tr as [t|]; eexists; (split; [reflexivity|]); [apply class_correct|reflexivity].
Qed.
Theorem failed_class r es : snd (run (call (Some r)) (Fails :: es)) = [Failed].
Proof. unfold call. cbn [run step]. now rewrite run_gone. Qed.
Theorem dropped_class r es : snd (run (call r) (Drop :: es)) = [].
Proof. unfold call. cbn [run step]. now rewrite run_gone. Qed.
Theorem at_most_one r es : (length (snd (run (call r) es)) <= 1)%nat.
Proof.
  assert (B : forall c, (length (snd (run (Body c) es)) <= 1)%nat).
  { clear r. intros [c|]; [|rewrite run_body_none; cbn; lia].
    induction es as [|e es IH]; [cbn; lia|]. cbn [run].
    pose proof (run_body_none es) as Hn. pose proof (run_gone es) as Hg.
    destruct e; cbn [step]; rewrite ?Hg; try (destruct (run (Body (Some c)) es); exact IH);
      destruct (run (Body None) es) as [s l]; cbn [snd] in *; subst; cbn; lia. }
  unfold call. revert B. induction es as [|e es IH]; intros B; [cbn; lia|]. cbn [run].
  assert (B' : forall c, (length (snd (run (Body c) es)) <= 1)%nat).
  { intros c. specialize (B c). cbn [run] in B.
    clear - es. destruct c as [c|]; [|rewrite run_body_none; cbn; lia].
    induction es as [|e es IH]; [cbn; lia|]. cbn [run].
    pose proof (run_body_none es) as Hn. pose proof (run_gone es) as Hg.
    destruct e; cbn [step]; rewrite ?Hg; try (destruct (run (Body (Some c)) es); exact IH);
      destruct (run (Body None) es) as [s l]; cbn [snd] in *; subst; cbn; lia. }
  specialize (IH B').
  destruct e; cbn [step]; rewrite ?run_gone; try (destruct (run (Future r) es); exact IH).
  - destruct r; cbn; lia.
  - specialize (B' (option_map (fun c => start c status hs) r)). destruct (run (Body _) es). exact B'.
  - cbn. lia.
Qed.
