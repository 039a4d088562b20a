From Coq Require Import List NArith Bool Arith Lia.
From Verif Require Import Bytes RegexModel ProfileModel ProfileSpec.
Import ListNotations.
Open Scope N_scope.

(** ** Matching *)

Lemma den_star_inv a pre mid post : den (Star a) pre mid post ->
  mid = [] \/ exists m m', m <> [] /\ mid = m ++ m' /\ den a pre m (m' ++ post) /\ den (Star a) (pre ++ m) m' post.
Proof.
  intro H. remember (Star a) as e eqn:E. induction H; inversion E; subst; [left; reflexivity|].
  destruct m as [|x m].
  - rewrite app_nil_r in *. exact (IHden2 E).
  - right. exists (x :: m), m'. repeat split; trivial. discriminate.
Qed.

Lemma try_iff e : forall pre rest k,
  try e pre rest k = true <-> exists mid post, rest = mid ++ post /\ den e pre mid post /\ k (pre ++ mid) post = true.
Proof.
  induction e; intros pre rest k.
  - cbn. split.
    + intro H. exists [], rest. rewrite app_nil_r. repeat split; trivial. constructor.
    + intros (m & p & -> & D & K). inversion D; subst. rewrite app_nil_r in K. exact K.
  - cbn. destruct rest as [|x r].
    + split; [discriminate|]. intros (m & p & E & D & K). inversion D; subst. discriminate.
    + rewrite andb_true_iff, N.eqb_eq. split.
      * intros [-> K]. exists [c], r. repeat split; trivial. constructor.
      * intros (m & p & E & D & K). inversion D; subst. inversion E; subst. split; trivial.
  - cbn. destruct rest as [|x r].
    + split; [discriminate|]. intros (m & p & E & D & K). inversion D; subst. discriminate.
    + rewrite andb_true_iff, negb_true_iff, N.eqb_neq. split.
      * intros [Q K]. exists [x], r. repeat split; trivial. constructor; exact Q.
      * intros (m & p & E & D & K). inversion D; subst. inversion E; subst. split; trivial.
  - cbn. destruct pre as [|y pre].
    + split.
      * intro K. exists [], rest. repeat split; trivial. constructor.
      * intros (m & p & -> & D & K). inversion D; subst. exact K.
    + split; [discriminate|]. intros (m & p & E & D & K). inversion D.
  - cbn. destruct rest as [|y r].
    + split.
      * intro K. exists [], []. rewrite (app_nil_r pre). repeat split; trivial. constructor.
      * intros (m & p & E & D & K). inversion D; subst. rewrite app_nil_r in K. exact K.
    + split; [discriminate|]. intros (m & p & E & D & K). inversion D; subst. discriminate.
  - cbn. rewrite IHe1. split.
    + intros (m & p & -> & D & K). apply IHe2 in K. destruct K as (m' & p' & -> & D' & K).
      exists (m ++ m'), p'. rewrite !app_assoc in *. repeat split; trivial. constructor; trivial.
    + intros (m & p & -> & D & K). inversion D; subst. exists m0, (m' ++ p). rewrite <- app_assoc. repeat split; trivial.
      apply IHe2. exists m', p. rewrite <- app_assoc. repeat split; trivial.
  - cbn. rewrite orb_true_iff, IHe1, IHe2. split.
    + intros [(m & p & -> & D & K)|(m & p & -> & D & K)]; exists m, p; repeat split; trivial; [apply Den_left|apply Den_right]; trivial.
    + intros (m & p & -> & D & K). inversion D; subst; [left|right]; exists m, p; repeat split; trivial.
  - cbn [try].
    match goal with |- ?f _ _ _ = true <-> _ => set (star := f) end.
    enough (G : forall n pre rest, (length rest <= n)%nat -> (star n pre rest = true <->
      exists mid post, rest = mid ++ post /\ den (Star e) pre mid post /\ k (pre ++ mid) post = true))
      by (apply G; lia).
    clear pre rest. induction n as [|n IH]; intros pre rest L.
    + destruct rest; [|cbn in L; lia]. cbn. rewrite orb_false_r. split.
      * intro K. exists [], []. rewrite (app_nil_r pre). repeat split; trivial. constructor.
      * intros (m & p & E & D & K). symmetry in E. apply app_eq_nil in E. destruct E as [-> ->]. rewrite app_nil_r in K. exact K.
    + change (star (S n) pre rest) with
        (k pre rest || try e pre rest (fun pre' rest' => (length rest' <? length rest)%nat && star n pre' rest')).
      rewrite orb_true_iff, IHe. split.
      * intros [K|(m & p & -> & D & K)].
        -- exists [], rest. rewrite app_nil_r. repeat split; trivial. constructor.
        -- apply andb_true_iff in K. destruct K as [Lt K]. apply Nat.ltb_lt in Lt.
           apply IH in K; [|lia]. destruct K as (m' & p' & -> & D' & K).
           exists (m ++ m'), p'. rewrite !app_assoc in *. repeat split; trivial. constructor; trivial.
      * intros (m & p & -> & D & K). apply den_star_inv in D.
        destruct D as [->|(a & b & A & -> & D & D')]; [left; rewrite app_nil_r in K; exact K|].
        right. exists a, (b ++ p). rewrite <- app_assoc. repeat split; trivial.
        apply andb_true_iff. split.
        -- apply Nat.ltb_lt. rewrite !app_length. destruct a; [congruence|]. cbn. lia.
        -- apply IH.
           ++ rewrite !app_length in *. destruct a; [congruence|]. cbn in L. lia.
           ++ exists b, p. rewrite <- app_assoc. repeat split; trivial.
Qed.

Lemma search_iff e : forall rest pre,
  search e pre rest = true <-> exists a mid post, rest = a ++ mid ++ post /\ den e (pre ++ a) mid post.
Proof.
  induction rest as [|c r IH]; intro pre; cbn [search]; rewrite orb_true_iff, try_iff.
  - split.
    + intros [(m & p & E & D & _)|H]; [|discriminate]. exists [], m, p. rewrite app_nil_r. split; trivial.
    + intros (a & m & p & E & D). left. symmetry in E. apply app_eq_nil in E. destruct E as [-> E].
      rewrite app_nil_r in D. exists m, p. repeat split; trivial. symmetry. exact E.
  - rewrite IH. split.
    + intros [(m & p & E & D & _)|(a & m & p & -> & D)].
      * exists [], m, p. rewrite app_nil_r. split; trivial.
      * exists (c :: a), m, p. rewrite <- app_assoc in D. split; trivial.
    + intros ([|x a] & m & p & E & D).
      * left. rewrite app_nil_r in D. exists m, p. repeat split; trivial.
      * right. inversion E; subst. exists a, m, p. rewrite <- app_assoc. split; trivial.
Qed.

Lemma match_iff t p e : parse t = Some e ->
  (re_match t p = true <-> exists a mid post, p = a ++ mid ++ post /\ den e a mid post).
Proof. intro H. unfold re_match. rewrite H. apply (search_iff e p []). Qed.

(** ** Reading *)

Lemma reads_app a b s : reads s (a ++ b) = match reads s a with Some s => reads s b | None => None end.
Proof. revert s. induction a as [|c a IH]; intro s; cbn [reads app]; trivial. destruct (read s c); trivial. Qed.

Lemma seq_acc cur : forall acc pre mid post,
  den (fold_left (fun acc x => Seq x acc) cur acc) pre mid post <->
  exists m m', mid = m ++ m' /\ den (seq_of cur) pre m (m' ++ post) /\ den acc (pre ++ m) m' post.
Proof.
  induction cur as [|x cur IH]; intros acc pre mid post; unfold seq_of; cbn [fold_left].
  - split.
    + intro D. exists [], mid. rewrite app_nil_r. repeat split; trivial. constructor.
    + intros (m & m' & -> & D & D'). inversion D; subst. rewrite app_nil_r in D'. exact D'.
  - rewrite IH. split.
    + intros (m & m' & -> & D & D'). inversion D'; subst. exists (m ++ m0), m'0.
      rewrite <- !app_assoc in *. repeat split; trivial.
      apply IH. exists m, m0. repeat split; trivial. rewrite <- (app_nil_r m0). apply Den_seq; [rewrite app_nil_l; assumption|constructor].
    + intros (m & m' & -> & D & D'). apply IH in D. destruct D as (a & b & -> & D & E). inversion E; subst.
      assert (m'0 = []) by (match goal with H : den Eps _ m'0 _ |- _ => inversion H; reflexivity end). subst m'0.
      rewrite app_nil_r in *. cbn [app] in *. exists a, (m ++ m'). rewrite <- !app_assoc in *. repeat split; trivial.
      constructor; [trivial|]. rewrite <- app_assoc. exact D'.
Qed.

Lemma seq_cons x cur pre mid post : den (seq_of (x :: cur)) pre mid post <->
  exists m m', mid = m ++ m' /\ den (seq_of cur) pre m (m' ++ post) /\ den x (pre ++ m) m' post.
Proof.
  unfold seq_of at 1. cbn [fold_left]. rewrite seq_acc. split.
  - intros (m & m' & -> & D & D'). inversion D'; subst.
    assert (m'0 = []) by (match goal with H : den Eps _ m'0 _ |- _ => inversion H; reflexivity end). subst m'0.
    rewrite app_nil_r in *. cbn [app] in *. exists m, m0. repeat split; trivial.
  - intros (m & m' & -> & D & D'). exists m, m'. repeat split; trivial.
    rewrite <- (app_nil_r m'). apply Den_seq; [rewrite app_nil_l; exact D'|constructor].
Qed.

Lemma seq_eol cur pre mid post : den (seq_of (Eol :: cur)) pre mid post <-> post = [] /\ den (seq_of cur) pre mid [].
Proof.
  rewrite seq_cons. split.
  - intros (m & m' & -> & D & E). inversion E; subst. rewrite app_nil_r. split; trivial.
  - intros [-> D]. exists mid, []. rewrite app_nil_r. repeat split; trivial. constructor.
Qed.

Lemma seq_bol cur : seq_of (cur ++ [Bol]) = Seq Bol (seq_of cur).
Proof. unfold seq_of. rewrite fold_left_app. reflexivity. Qed.

Lemma den_bol_seq b pre mid post : den (Seq Bol b) pre mid post <-> pre = [] /\ den b [] mid post.
Proof.
  split.
  - intro D. inversion D; subst. match goal with H : den Bol _ _ _ |- _ => inversion H; subst end. split; trivial.
  - intros [-> D]. change mid with ([] ++ mid). constructor; [constructor|exact D].
Qed.

(** One step of two readers that differ only at the bottom *)
Inductive atop (R : frame -> frame -> Prop) : reader -> reader -> Prop :=
| Atop_here : forall esc f f', R f f' -> atop R (Reader esc f []) (Reader esc f' [])
| Atop_below : forall esc t fs f f', R f f' -> atop R (Reader esc t (fs ++ [f])) (Reader esc t (fs ++ [f'])).

Record closed (R : frame -> frame -> Prop) : Prop := {
  c_add : forall x f f', R f f' -> R (add x f) (add x f');
  c_bar : forall f f', R f f' -> R (seq_of (snd f) :: fst f, []) (seq_of (snd f') :: fst f', []);
  c_rep : forall g f f' f1, R f f' -> repeat_last g f = Some f1 -> exists f1', repeat_last g f' = Some f1' /\ R f1 f1' }.

Lemma read_atop R s s' c t : closed R -> atop R s s' -> read s c = Some t -> exists t', read s' c = Some t' /\ atop R t t'.
Proof.
  intros [CA CB CR] A H. destruct A as [esc f f' F|esc tp fs f f' F].
  - unfold read in *. destruct esc.
    { destruct (alnum c); [discriminate|]. inversion H; subst. eexists. split; [reflexivity|]. constructor. apply CA; exact F. }
    destruct (c =? 92). { inversion H; subst. eexists. split; [reflexivity|]. constructor; exact F. }
    destruct (c =? 124). { inversion H; subst. eexists. split; [reflexivity|]. constructor. apply CB; exact F. }
    destruct (c =? 40). { inversion H; subst. eexists. split; [reflexivity|]. apply (Atop_below R false ([],[]) []). exact F. }
    destruct (c =? 41); [discriminate|].
    assert (REP : forall g, match repeat_last g f with Some f => Some (Reader false f []) | None => None end = Some t ->
      exists t', match repeat_last g f' with Some f => Some (Reader false f []) | None => None end = Some t' /\ atop R t t').
    { intros g G. destruct (repeat_last g f) eqn:E; [|discriminate]. inversion G; subst.
      destruct (CR _ _ _ _ F E) as (f1' & -> & Q). eexists. split; [reflexivity|]. constructor; exact Q. }
    destruct (c =? 42); [apply REP; exact H|]. destruct (c =? 43); [apply REP; exact H|]. destruct (c =? 63); [apply REP; exact H|].
    destruct (c =? 46). { inversion H; subst. eexists. split; [reflexivity|]. constructor. apply CA; exact F. }
    destruct (c =? 94). { inversion H; subst. eexists. split; [reflexivity|]. constructor. apply CA; exact F. }
    destruct (c =? 36). { inversion H; subst. eexists. split; [reflexivity|]. constructor. apply CA; exact F. }
    destruct (existsb (N.eqb c) [91; 93; 123; 125]); [discriminate|].
    inversion H; subst. eexists. split; [reflexivity|]. constructor. apply CA; exact F.
  - unfold read in *. destruct esc.
    { destruct (alnum c); [discriminate|]. inversion H; subst. eexists. split; [reflexivity|]. constructor; exact F. }
    destruct (c =? 92). { inversion H; subst. eexists. split; [reflexivity|]. constructor; exact F. }
    destruct (c =? 124). { inversion H; subst. eexists. split; [reflexivity|]. constructor; exact F. }
    destruct (c =? 40). { inversion H; subst. eexists. split; [reflexivity|]. apply (Atop_below R false ([],[]) (tp :: fs)). exact F. }
    destruct (c =? 41).
    { destruct fs as [|g fs]; cbn [app] in *; inversion H; subst; eexists; (split; [reflexivity|]); constructor; trivial.
      apply CA; exact F. }
    assert (REP : forall g, match repeat_last g tp with Some f0 => Some (Reader false f0 (fs ++ [f])) | None => None end = Some t ->
      exists t', match repeat_last g tp with Some f0 => Some (Reader false f0 (fs ++ [f'])) | None => None end = Some t' /\ atop R t t').
    { intros g G. destruct (repeat_last g tp) eqn:E; [|discriminate]. inversion G; subst.
      eexists. split; [reflexivity|]. constructor; exact F. }
    destruct (c =? 42); [apply REP; exact H|]. destruct (c =? 43); [apply REP; exact H|]. destruct (c =? 63); [apply REP; exact H|].
    destruct (c =? 46). { inversion H; subst. eexists. split; [reflexivity|]. constructor; exact F. }
    destruct (c =? 94). { inversion H; subst. eexists. split; [reflexivity|]. constructor; exact F. }
    destruct (c =? 36). { inversion H; subst. eexists. split; [reflexivity|]. constructor; exact F. }
    destruct (existsb (N.eqb c) [91; 93; 123; 125]); [discriminate|].
    inversion H; subst. eexists. split; [reflexivity|]. constructor; exact F.
Qed.

Lemma reads_atop R r : closed R -> forall s s' t, atop R s s' -> reads s r = Some t -> exists t', reads s' r = Some t' /\ atop R t t'.
Proof.
  intro C. induction r as [|c r IH]; intros s s' t A H; cbn [reads] in *.
  - inversion H; subst. eauto.
  - destruct (read s c) eqn:E; [|discriminate]. destruct (read_atop _ _ _ _ _ C A E) as (s1 & -> & A1). eauto.
Qed.

(** With a circumflex before *)
Definition lead (f f' : frame) : Prop :=
  (fst f = [] /\ fst f' = [] /\ snd f' = snd f ++ [Bol]) \/
  (exists xs b, fst f = xs ++ [b] /\ fst f' = xs ++ [Seq Bol b] /\ snd f' = snd f).
Lemma lead_closed : closed lead.
Proof.
  constructor.
  - intros x [a c] [a' c'] [(A & B & C)|(xs & b & A & B & C)]; cbn [fst snd app] in *; subst.
    + left. repeat split; trivial.
    + right. exists xs, b. repeat split; trivial.
  - intros [a c] [a' c'] [(A & B & C)|(xs & b & A & B & C)]; cbn [fst snd app] in *; subst; right.
    + exists [], (seq_of c). rewrite seq_bol. repeat split; trivial.
    + exists (seq_of c :: xs), b. repeat split; trivial.
  - intros g [a c] [a' c'] f1 L E. unfold repeat_last in *. cbn [fst snd app] in *. destruct c as [|x c]; [discriminate|]. inversion E; subst.
    destruct L as [(A & B & C)|(xs & b & A & B & C)]; cbn [fst snd app] in *; subst; (eexists; split; [reflexivity|]).
    + left. repeat split; trivial.
    + right. exists xs, b. repeat split; trivial.
Qed.
(** With other alternatives before *)
Definition after (x : list re) (f f' : frame) : Prop := fst f' = fst f ++ x /\ snd f' = snd f.
Lemma after_closed x : closed (after x).
Proof.
  constructor.
  - intros y [a c] [a' c'] [A B]; cbn [fst snd app] in *; subst. split; trivial.
  - intros [a c] [a' c'] [A B]; cbn [fst snd app] in *; subst. split; trivial.
  - intros g [a c] [a' c'] f1 [A B] E. unfold repeat_last in *. cbn [fst snd app] in *. subst. destruct c as [|y c]; [discriminate|]. inversion E; subst.
    eexists. split; [reflexivity|]. split; trivial.
Qed.

(** What has been read of an expression that can be read *)
Lemma parse_state t l : parse_branches t = Some l -> exists f, reads start t = Some (Reader false f []) /\ l = branches f.
Proof.
  unfold parse_branches. intro H. destruct (reads start t) as [[e f b]|]; [|discriminate]. destruct e; [discriminate|].
  destruct b; [|discriminate]. inversion H; subst. exists f. split; trivial.
Qed.
Lemma state_parse t f : reads start t = Some (Reader false f []) -> parse_branches t = Some (branches f).
Proof. intro H. unfold parse_branches. rewrite H. reflexivity. Qed.

Lemma atop_top R f s : atop R (Reader false f []) s -> exists f', s = Reader false f' [] /\ R f f'.
Proof.
  intro A. inversion A; subst.
  - eauto.
  - destruct fs; discriminate.
Qed.

Lemma parse_bol t f : reads start t = Some (Reader false f []) ->
  exists f', reads start (94 :: t) = Some (Reader false f' []) /\ lead f f'.
Proof.
  intro H. cbn [reads]. change (read start 94) with (Some (Reader false ([], [Bol]) [])).
  assert (A : atop lead start (Reader false ([], [Bol]) [])) by (constructor; left; repeat split; trivial).
  destruct (reads_atop _ _ lead_closed _ _ _ A H) as (s & R & L). apply atop_top in L. destruct L as (f' & -> & L). eauto.
Qed.

Lemma lead_one f f' : fst f = [] -> lead f f' -> fst f' = [] /\ seq_of (snd f') = Seq Bol (seq_of (snd f)).
Proof.
  intros E [(A & B & C)|(xs & b & A & _)].
  - split; trivial. rewrite C. apply seq_bol.
  - rewrite E in A. destruct xs; discriminate.
Qed.

Lemma parse_eol t f : reads start t = Some (Reader false f []) -> reads start (t ++ [36]) = Some (Reader false (add Eol f) []).
Proof. intro H. rewrite reads_app, H. reflexivity. Qed.

Lemma parse_bar a b f g : reads start a = Some (Reader false f []) -> fst f = [] -> reads start b = Some (Reader false g []) ->
  exists f', reads start (a ++ [124] ++ b) = Some (Reader false f' []) /\ after [seq_of (snd f)] g f'.
Proof.
  intros A F B. rewrite reads_app, A. cbn [app reads]. 
  change (read (Reader false f []) 124) with (Some (Reader false (seq_of (snd f) :: fst f, []) [])). rewrite F.
  assert (Q : atop (after [seq_of (snd f)]) start (Reader false ([seq_of (snd f)], []) [])) by (constructor; split; trivial).
  destruct (reads_atop _ _ (after_closed _) _ _ _ Q B) as (s & R & L). apply atop_top in L. destruct L as (f' & -> & L). eauto.
Qed.

(** The scan follows the reader. *)
Lemma scan_app r : forall c s t, reads s r = Some t ->
  scan (r_esc s) (length (r_below s)) (r ++ [c]) = scan (r_esc s) (length (r_below s)) r ++ [(c, r_esc t, length (r_below t))].
Proof.
  induction r as [|x r IH]; intros c s t H; cbn [reads app scan] in *.
  - inversion H; subst. destruct (r_esc t), (c =? 92), (c =? 40), (c =? 41); reflexivity.
  - destruct (read s x) as [s1|] eqn:E; [|discriminate]. f_equal.
    specialize (IH c _ _ H). destruct s as [esc top below]. unfold read in E. cbn [r_esc r_below] in *.
    destruct esc; [destruct (alnum x); inversion E; subst; exact IH|].
    destruct (x =? 92); [inversion E; subst; exact IH|].
    destruct (x =? 124) eqn:Bar. { apply N.eqb_eq in Bar. subst x. inversion E; subst; exact IH. }
    destruct (x =? 40); [inversion E; subst; exact IH|].
    destruct (x =? 41). { destruct below; inversion E; subst; exact IH. }
    assert (REP : forall g, match repeat_last g top with Some f => Some (Reader false f below) | None => None end = Some s1 ->
       r_esc s1 = false /\ r_below s1 = below) by (intros g G; destruct (repeat_last g top); inversion G; subst; split; trivial).
    destruct (x =? 42); [destruct (REP _ E) as [Q1 Q2]; rewrite Q1, Q2 in IH; exact IH|].
    destruct (x =? 43); [destruct (REP _ E) as [Q1 Q2]; rewrite Q1, Q2 in IH; exact IH|].
    destruct (x =? 63); [destruct (REP _ E) as [Q1 Q2]; rewrite Q1, Q2 in IH; exact IH|].
    destruct (x =? 46); [inversion E; subst; exact IH|].
    destruct (x =? 94); [inversion E; subst; exact IH|].
    destruct (x =? 36); [inversion E; subst; exact IH|].
    destruct (existsb (N.eqb x) [91; 93; 123; 125]); [discriminate|]. inversion E; subst; exact IH.
Qed.

Definition bottom (s : reader) : frame := last (r_below s) (r_top s).

(** Alternatives come from bars. *)
Lemma no_bar_read r : forall s t, reads s r = Some t ->
  ~ In (124, false, O) (scan (r_esc s) (length (r_below s)) r) -> fst (bottom t) = fst (bottom s).
Proof.
  induction r as [|x r IH]; intros s t H B; cbn [reads scan] in *.
  - inversion H; subst. reflexivity.
  - destruct (read s x) as [s1|] eqn:E; [|discriminate].
    assert (NB : (x, r_esc s, length (r_below s)) <> (124, false, O)) by (intro Q; apply B; left; exact Q).
    assert (SC : scan (r_esc s1) (length (r_below s1)) r = 
      (if r_esc s then scan false (length (r_below s)) r
       else if x =? 92 then scan true (length (r_below s)) r
       else if x =? 40 then scan false (S (length (r_below s))) r
       else if x =? 41 then scan false (pred (length (r_below s))) r
       else scan false (length (r_below s)) r) /\ fst (bottom s1) = fst (bottom s)).
    { clear H IH B. destruct s as [esc top below]. unfold read, bottom in *. cbn [r_esc r_below r_top] in *.
      assert (BOT : forall f, fst f = fst top -> fst (last below f) = fst (last below top)).
      { intros f F. destruct below as [|b below]; [exact F|]. replace (last (b :: below) f) with (last (b :: below) top); trivial.
        clear. revert b. induction below as [|y l IH]; intro b; [reflexivity|]. exact (IH y). }
      destruct esc. { destruct (alnum x); inversion E; subst. split; [reflexivity|]. apply BOT. reflexivity. }
      destruct (x =? 92). { inversion E; subst. split; reflexivity. }
      destruct (x =? 124) eqn:Bar.
      { apply N.eqb_eq in Bar. subst x. inversion E; subst. split; [reflexivity|].
        destruct below as [|b below]; [exfalso; apply NB; reflexivity|]. cbn [r_below r_top].
        match goal with |- fst ?a = fst ?b => replace a with b; [reflexivity|] end.
        clear. revert b. induction below as [|y l IH]; intro b; [reflexivity|]. exact (IH y). }
      destruct (x =? 40) eqn:Open.
      { inversion E; subst. split; [reflexivity|]. cbn [r_below r_top].
        destruct below as [|b below]; [reflexivity|].
        match goal with |- fst ?a = fst ?b => replace a with b; [reflexivity|] end.
        change (last (top :: b :: below) ([], [])) with (last (b :: below) ([] : list re, [] : list re)).
        clear. revert b. induction below as [|y l IH]; intro b; [reflexivity|]. exact (IH y). }
      destruct (x =? 41) eqn:Close.
      { destruct below as [|b below]; inversion E; subst. split; [reflexivity|]. cbn [r_below r_top].
        destruct below as [|y below]; [reflexivity|].
        match goal with |- fst ?a = fst ?b => replace a with b; [reflexivity|] end.
        change (last (b :: y :: below) top) with (last (y :: below) top).
        clear. revert y. induction below as [|z l IH]; intro y; [reflexivity|]. exact (IH z). }
      assert (REP : forall g, match repeat_last g top with Some f => Some (Reader false f below) | None => None end = Some s1 ->
         r_esc s1 = false /\ r_below s1 = below /\ fst (r_top s1) = fst top).
      { intros g G. unfold repeat_last in G. destruct (snd top); inversion G; subst. repeat split; trivial. }
      destruct (x =? 42); [destruct (REP _ E) as (Q1 & Q2 & Q3); rewrite Q1, Q2; split; [reflexivity|apply BOT; exact Q3]|].
      destruct (x =? 43); [destruct (REP _ E) as (Q1 & Q2 & Q3); rewrite Q1, Q2; split; [reflexivity|apply BOT; exact Q3]|].
      destruct (x =? 63); [destruct (REP _ E) as (Q1 & Q2 & Q3); rewrite Q1, Q2; split; [reflexivity|apply BOT; exact Q3]|].
      destruct (x =? 46); [inversion E; subst; split; [reflexivity|apply BOT; reflexivity]|].
      destruct (x =? 94); [inversion E; subst; split; [reflexivity|apply BOT; reflexivity]|].
      destruct (x =? 36); [inversion E; subst; split; [reflexivity|apply BOT; reflexivity]|].
      destruct (existsb (N.eqb x) [91; 93; 123; 125]); [discriminate|]. inversion E; subst; split; [reflexivity|apply BOT; reflexivity]. }
    destruct SC as [SC BT]. rewrite <- BT. apply IH; trivial. rewrite SC. intro Q. apply B. right. exact Q.
Qed.

Lemma no_bar_one r f : reads start r = Some (Reader false f []) -> no_bar r -> fst f = [].
Proof. intros H B. exact (no_bar_read _ _ _ H B). Qed.

(** A dollar sign at the end *)
Lemma eol_last r f : reads start (r ++ [36]) = Some (Reader false f []) -> ends_plain (r ++ [36]) ->
  exists g, f = add Eol g /\ reads start r = Some (Reader false g []).
Proof.
  intros H P. rewrite reads_app in H. destruct (reads start r) as [s|] eqn:E; [|discriminate].
  pose proof (scan_app r 36 _ _ E) as SC. cbn [reads] in H.
  destruct s as [esc top below]. cbn [r_esc r_below] in SC.
  destruct esc. { exfalso. apply (P (length below)). eexists. exact SC. }
  change (read (Reader false top below) 36) with (Some (Reader false (add Eol top) below)) in H.
  injection H as Hf Hb. subst below f. exists top. split; [reflexivity|trivial].
Qed.

(** A circumflex at the beginning *)
Definition fresh (s : reader) : Prop := s = start.
Lemma not_fresh s c t : read s c = Some t -> t <> start.
Proof.
  destruct s as [esc top below]. unfold read. intros E ->. unfold start in E.
  destruct esc; [destruct (alnum c); inversion E|].
  destruct (c =? 92); [inversion E|]. destruct (c =? 124); [inversion E|]. destruct (c =? 40); [inversion E|].
  destruct (c =? 41); [destruct below; inversion E|].
  assert (REP : forall g, match repeat_last g top with Some f => Some (Reader false f below) | None => None end = Some start -> False).
  { intros g G. unfold repeat_last in G. destruct (snd top); inversion G. }
  destruct (c =? 42); [exact (REP _ E)|]. destruct (c =? 43); [exact (REP _ E)|]. destruct (c =? 63); [exact (REP _ E)|].
  destruct (c =? 46); [inversion E|]. destruct (c =? 94); [inversion E|]. destruct (c =? 36); [inversion E|].
  destruct (existsb (N.eqb c) [91; 93; 123; 125]); inversion E.
Qed.

Lemma read_back s s' c t' : atop lead s s' -> (s <> start \/ ~ In c [42; 43; 63]) -> read s' c = Some t' ->
  exists t, read s c = Some t /\ atop lead t t'.
Proof.
  intros A NF H. destruct (read s c) as [t|] eqn:E.
  - destruct (read_atop _ _ _ _ _ lead_closed A E) as (t1 & E1 & A1). exists t. split; trivial. congruence.
  - exfalso. destruct A as [esc f f' F|esc tp fs f f' F].
    + unfold read in *. destruct esc; [destruct (alnum c); discriminate|].
      destruct (c =? 92); [discriminate|]. destruct (c =? 124); [discriminate|]. destruct (c =? 40); [discriminate|].
      destruct (c =? 41); [discriminate|].
      assert (REP : forall g, match repeat_last g f with Some f => Some (Reader false f []) | None => None end = None ->
        match repeat_last g f' with Some f => Some (Reader false f []) | None => None end = Some t' -> In c [42; 43; 63] -> False).
      { intros g G G' IN. unfold repeat_last in *. destruct f as [a [|x cur]]; [|discriminate]. cbn in *.
        destruct F as [(A & B & C)|(xs & b & A & B & C)]; cbn in *.
        - destruct NF as [NF|NF]; [|exact (NF IN)]. apply NF. unfold start. rewrite A. reflexivity.
        - rewrite C in G'. discriminate. }
      destruct (c =? 42) eqn:C1; [apply N.eqb_eq in C1; apply (REP _ E H); rewrite C1; cbn; tauto|].
      destruct (c =? 43) eqn:C2; [apply N.eqb_eq in C2; apply (REP _ E H); rewrite C2; cbn; tauto|].
      destruct (c =? 63) eqn:C3; [apply N.eqb_eq in C3; apply (REP _ E H); rewrite C3; cbn; tauto|].
      destruct (c =? 46); [discriminate|]. destruct (c =? 94); [discriminate|]. destruct (c =? 36); [discriminate|].
      destruct (existsb (N.eqb c) [91; 93; 123; 125]); discriminate.
    + unfold read in *. destruct esc; [destruct (alnum c); discriminate|].
      destruct (c =? 92); [discriminate|]. destruct (c =? 124); [discriminate|]. destruct (c =? 40); [discriminate|].
      destruct (c =? 41); [destruct fs; discriminate|].
      destruct (c =? 42); [destruct (repeat_last Star tp); discriminate|].
      destruct (c =? 43); [destruct (repeat_last (fun x => Seq x (Star x)) tp); discriminate|].
      destruct (c =? 63); [destruct (repeat_last (fun x => Or x Eps) tp); discriminate|].
      destruct (c =? 46); [discriminate|]. destruct (c =? 94); [discriminate|]. destruct (c =? 36); [discriminate|].
      destruct (existsb (N.eqb c) [91; 93; 123; 125]); discriminate.
Qed.

Lemma reads_back r : forall s s' t', atop lead s s' -> s <> start -> reads s' r = Some t' -> exists t, reads s r = Some t /\ atop lead t t'.
Proof.
  induction r as [|c r IH]; intros s s' t' A NF H; cbn [reads] in *.
  - inversion H; subst. eauto.
  - destruct (read s' c) as [s1'|] eqn:E; [|discriminate].
    destruct (read_back _ _ _ _ A (or_introl NF) E) as (s1 & E1 & A1). rewrite E1.
    apply (IH _ _ _ A1); trivial. exact (not_fresh _ _ _ E1).
Qed.

Lemma bol_first r f : reads start (94 :: r) = Some (Reader false f []) -> begins_plain (94 :: r) -> no_bar (94 :: r) ->
  exists b, fst f = [] /\ seq_of (snd f) = Seq Bol b.
Proof.
  intros H P B. pose proof (no_bar_one _ _ H B) as F. cbn [reads] in H.
  change (read start 94) with (Some (Reader false ([], [Bol]) [])) in H. cbv iota in H.
  assert (A : atop lead start (Reader false ([], [Bol]) [])) by (constructor; left; repeat split; trivial).
  destruct r as [|c r]; cbn [reads] in H.
  - inversion H; subst. exists Eps. split; reflexivity.
  - destruct (read (Reader false ([], [Bol]) []) c) as [s1'|] eqn:E; [|discriminate].
    assert (NI : ~ In c [42; 43; 63]) by (intro IN; exact (P c r IN eq_refl)).
    destruct (read_back _ _ _ _ A (or_intror NI) E) as (s1 & E1 & A1).
    destruct (reads_back _ _ _ _ A1 (not_fresh _ _ _ E1) H) as (t & R & L).
    inversion L; subst.
    + exists (seq_of (snd f0)). split; [exact F|].
      match goal with K : lead f0 f |- _ => destruct K as [(X & Y & Z)|(xs & b & X & Y & Z)] end.
      * rewrite Z. apply seq_bol.
      * rewrite F in Y. destruct xs; discriminate.
    + destruct fs; discriminate.
Qed.
