(** That what is written in the format is read back. *)
From Coq Require Import String List NArith Bool Lia.
From Verif Require Import Bytes BytesProofs LabelModel LabelSpec.
Import ListNotations.
Open Scope N_scope.

Definition pair_text (p : pair) : bytes := lab (fst p) (snd p).
Definition label_text (ls : list pair) : bytes := join 44 (map pair_text ls).
Definition good (p : pair) : Prop := word (fst p) = true /\ clean (snd p).

Lemma join_app c a b : a <> [] -> b <> [] -> join c (a ++ b) = join c a ++ [c] ++ join c b.
Proof.
  intros A B. induction a as [|x a IH]; [easy|]. destruct a as [|y a].
  - cbn [app join]. destruct b; [easy|]. reflexivity.
  - change (join c ((x :: y :: a) ++ b)) with (x ++ [c] ++ join c ((y :: a) ++ b)).
    rewrite IH by easy. change (join c (x :: y :: a)) with (x ++ [c] ++ join c (y :: a)). now rewrite !app_assoc.
Qed.

Definition renders (t : bytes) (ls : list pair) : Prop := ls <> [] /\ t = label_text ls.

Lemma renders_lab k v : renders (lab k v) [(k, v)].
Proof. split; [easy|reflexivity]. Qed.
Lemma renders_app a b x y : renders a x -> renders b y -> renders (a ++ [44] ++ b) (x ++ y).
Proof.
  intros [A ->] [B ->]. split; [destruct x; easy|]. unfold label_text. rewrite map_app, join_app; [easy| |].
  - destruct x; easy.
  - destruct y; easy.
Qed.
Lemma renders_both a b x y : renders a x -> renders b y -> renders (both a b) (x ++ y).
Proof. apply renders_app. Qed.
Lemma renders_cons k v b y : renders b y -> renders (both (lab k v) b) ((k, v) :: y).
Proof. intros H. apply (renders_both (lab k v) b [(k, v)] y); [apply renders_lab|exact H]. Qed.
Lemma renders_cons_app k v b y : renders b y -> renders (lab k v ++ [44] ++ b) ((k, v) :: y).
Proof. apply renders_cons. Qed.

(* ---- the reader of labels ---- *)

Lemma word_char_not c : word_char c = true -> c <> 61 /\ c <> 125 /\ c <> 32 /\ c <> 123 /\ c <> 10 /\ c <> 35.
Proof.
  unfold word_char, letter, is_digit. intros H.
  repeat split; intros ->; vm_compute in H; discriminate.
Qed.

Lemma word_chars k : word k = true -> forallb word_char k = true.
Proof. destruct k; [easy|]. intros H. apply andb_true_iff in H. easy. Qed.

Lemma scan_key k : forall k0 done s, forallb word_char k = true ->
  scan (Key k0) done (k ++ 61 :: s) = if word (k0 ++ k) then scan (Quote (k0 ++ k)) done s else None.
Proof.
  induction k as [|c k IH]; intros k0 done s H.
  - cbn. now rewrite app_nil_r.
  - cbn [forallb] in H. apply andb_true_iff in H as [C H]. apply word_char_not in C as (C1 & C2 & _).
    cbn [app scan]. apply N.eqb_neq in C1, C2. rewrite C1, C2. cbn [andb].
    rewrite IH by exact H. now rewrite <- app_assoc.
Qed.

Lemma scan_value v : forall k v0 done s, clean v ->
  scan (Value k v0) done (v ++ 34 :: s) = scan After (done ++ [(k, v0 ++ v)]) s.
Proof.
  induction v as [|c v IH]; intros k v0 done s H.
  - cbn. now rewrite app_nil_r.
  - inversion H as [|? ? (C1 & C2 & _) H']; subst. cbn [app scan]. apply N.eqb_neq in C1, C2. rewrite C1, C2.
    rewrite IH by exact H'. now rewrite <- app_assoc.
Qed.

Lemma scan_pair k v done s : good (k, v) ->
  scan (Key []) done (lab k v ++ s) = scan After (done ++ [(k, v)]) s.
Proof.
  intros [W C]. cbn [fst snd] in W, C. unfold lab. rewrite <- !app_assoc.
  change ([61; 34] ++ v ++ [34] ++ s) with (61 :: 34 :: v ++ 34 :: s).
  rewrite scan_key by (apply word_chars; exact W). cbn [app]. rewrite W.
  cbn [scan]. change (34 =? 34) with true. cbv iota. now rewrite scan_value by exact C.
Qed.

Lemma scan_labels ls : forall done rest, ls <> [] -> Forall good ls ->
  scan (Key []) done (label_text ls ++ 125 :: rest) = Some (done ++ ls, rest).
Proof.
  induction ls as [|[k v] ls IH]; intros done rest N G; [easy|].
  inversion G as [|? ? G1 G2]; subst. destruct ls as [|p ls].
  - unfold label_text, pair_text. cbn [map join fst snd]. rewrite scan_pair by exact G1. reflexivity.
  - change (label_text ((k, v) :: p :: ls)) with (lab k v ++ [44] ++ label_text (p :: ls)).
    rewrite <- !app_assoc. rewrite scan_pair by exact G1. cbn [app scan]. change (44 =? 44) with true. cbv iota.
    rewrite IH by easy. now rewrite <- app_assoc.
Qed.

Lemma number_dec v : number (to_dec v) = Some v.
Proof.
  unfold number. destruct (to_dec v) as [|c s] eqn:E; [now apply to_dec_nonempty in E|].
  rewrite <- E, to_dec_digits. f_equal.
  assert (F : forall s a, fold_left (fun a c => a * 10 + (c - 48)) s a = dec_value a s)
    by (induction s0 as [|x s0 IH]; intros a; [reflexivity|apply IH]).
  now rewrite F, to_dec_value.
Qed.

Lemma span_word n s : forallb word_char n = true -> match s with c :: _ => word_char c = false | [] => True end ->
  span (n ++ s) = (n, s).
Proof.
  intros H S. induction n as [|c n IH].
  - cbn [app]. destruct s; [reflexivity|]. cbn [span]. now rewrite S.
  - cbn [forallb] in H. apply andb_true_iff in H as [C H]. cbn [app span]. now rewrite C, IH.
Qed.

Definition sample_line (s : sample) : bytes :=
  match m_labels s with
  | [] => m_name s ++ [32] ++ to_dec (m_value s)
  | ls => m_name s ++ [123] ++ label_text ls ++ [125; 32] ++ to_dec (m_value s)
  end.
Definition good_sample (s : sample) : Prop := word (m_name s) = true /\ Forall good (m_labels s).

Lemma read_sample_line s : good_sample s -> read_sample (sample_line s) = Some s.
Proof.
  destruct s as [n ls v]. intros [W G]. cbn [m_name m_labels] in *. unfold sample_line, read_sample.
  cbn [m_name m_labels m_value]. destruct ls as [|p ls].
  - rewrite span_word; [|apply word_chars; exact W|reflexivity]. rewrite W. cbn [app]. now rewrite number_dec.
  - rewrite span_word; [|apply word_chars; exact W|reflexivity]. rewrite W. cbn [app].
    change (125 :: 32 :: to_dec v) with (125 :: (32 :: to_dec v)).
    rewrite scan_labels by easy. cbn [app]. now rewrite number_dec.
Qed.

Lemma strip_prefix_no p s c : match s with x :: _ => x <> c | [] => True end -> strip_prefix (c :: p) s = None.
Proof. destruct s as [|x s]; [easy|]. intros H. cbn. destruct (c =? x) eqn:E; [apply N.eqb_eq in E; congruence|easy]. Qed.

Lemma read_line_sample s : good_sample s -> read_line (sample_line s) = Some (Value_of s).
Proof.
  intros G. pose proof G as [W _].
  assert (H : match sample_line s with x :: _ => x <> 35 | [] => True end).
  { unfold sample_line. destruct (m_name s) as [|c n]; [discriminate W|].
    assert (C : c <> 35). { apply word_chars in W. cbn in W. apply andb_true_iff in W as [W _]. now apply word_char_not in W. }
    destruct (m_labels s); exact C. }
  unfold read_line. change (bs "# HELP ") with (35 :: bs " HELP "). change (bs "# TYPE ") with (35 :: bs " TYPE ").
  rewrite !strip_prefix_no by exact H. now rewrite read_sample_line.
Qed.

Lemma strip_prefix_app p s : strip_prefix p (p ++ s) = Some s.
Proof. induction p as [|c p IH]; [reflexivity|]. cbn. now rewrite N.eqb_refl. Qed.

Lemma word_no_space n : word n = true -> ~ In 32 n.
Proof.
  intros W H. apply word_chars in W. rewrite forallb_forall in W. apply W in H. now apply word_char_not in H.
Qed.

Lemma read_line_help n h : word n = true -> read_line (bs "# HELP " ++ n ++ [32] ++ h) = Some (Help n h).
Proof.
  intros W. unfold read_line. rewrite strip_prefix_app.
  assert (E : split_once 32 (n ++ [32] ++ h) = Some (n, h)) by (apply split_once_some; split; [reflexivity|now apply word_no_space]).
  now rewrite E.
Qed.
Lemma read_line_kind n k : word n = true -> read_line (bs "# TYPE " ++ n ++ [32] ++ k) = Some (Kind n k).
Proof.
  intros W. unfold read_line.
  change (strip_prefix (bs "# HELP ") (bs "# TYPE " ++ n ++ [32] ++ k)) with (@None bytes). cbv iota.
  rewrite strip_prefix_app.
  assert (E : split_once 32 (n ++ [32] ++ k) = Some (n, k)) by (apply split_once_some; split; [reflexivity|now apply word_no_space]).
  now rewrite E.
Qed.

(* ---- lines ---- *)

Definition line_text (x : line) : bytes :=
  match x with
  | Help n h => bs "# HELP "%string ++ n ++ [32] ++ h
  | Kind n k => bs "# TYPE "%string ++ n ++ [32] ++ k
  | Value_of s => sample_line s
  end.
Definition no_newline (s : bytes) : Prop := ~ In 10 s.
Definition good_line (x : line) : Prop :=
  match x with
  | Help n h => word n = true /\ no_newline h
  | Kind n k => word n = true /\ no_newline k
  | Value_of s => good_sample s
  end.

Lemma word_no_newline n : word n = true -> no_newline n.
Proof.
  intros W H. apply word_chars in W. rewrite forallb_forall in W. apply W in H. now apply word_char_not in H.
Qed.
Lemma no_newline_app a b : no_newline a -> no_newline b -> no_newline (a ++ b).
Proof. unfold no_newline. intros A B H. apply in_app_iff in H. tauto. Qed.
Lemma no_newline_dec v : no_newline (to_dec v).
Proof.
  intros H. pose proof (to_dec_digits v) as D. rewrite forallb_forall in D. apply D in H. discriminate H.
Qed.
Lemma no_newline_clean v : clean v -> no_newline v.
Proof. intros C H. unfold clean in C. rewrite Forall_forall in C. apply C in H. lia. Qed.
Lemma no_newline_labels ls : Forall good ls -> no_newline (label_text ls).
Proof.
  intros G. assert (P : forall p, good p -> no_newline (pair_text p)).
  { intros [k v] [W C]. unfold pair_text, lab. cbn [fst snd] in *.
    apply no_newline_app; [now apply word_no_newline|].
    apply no_newline_app; [intros [H|[H|[]]]; discriminate|].
    apply no_newline_app; [now apply no_newline_clean|]. intros [H|[]]; discriminate. }
  induction ls as [|p ls IH]; [easy|]. inversion G; subst. destruct ls as [|q ls]; [now apply P|].
  change (label_text (p :: q :: ls)) with (pair_text p ++ [44] ++ label_text (q :: ls)).
  apply no_newline_app; [now apply P|]. apply no_newline_app; [intros [H'|[]]; discriminate|]. now apply IH.
Qed.

Lemma good_line_no_newline x : good_line x -> no_newline (line_text x).
Proof.
  destruct x as [n h|n k|s]; cbn [good_line line_text].
  1, 2: intros [W H]; repeat apply no_newline_app;
    [vm_compute; intuition discriminate|now apply word_no_newline|intros [X|[]]; discriminate|exact H].
  intros [W G]. unfold sample_line. destruct (m_labels s) as [|p ls] eqn:E; repeat apply no_newline_app;
    try (now apply word_no_newline); try apply no_newline_dec; try (intros [X|[]]; discriminate);
    try (intros [X|[X|[]]]; discriminate).
  now apply no_newline_labels.
Qed.

Lemma good_line_read x : good_line x -> read_line (line_text x) = Some x.
Proof.
  destruct x as [n h|n k|s]; cbn [good_line line_text]; intros H.
  - now apply read_line_help.
  - now apply read_line_kind.
  - now apply read_line_sample.
Qed.

Definition page (ls : list line) : bytes := flat_map (fun x => line_text x ++ [10]) ls.

Lemma split_page ls : Forall good_line ls -> split 10 (page ls) = map line_text ls ++ [[]].
Proof.
  induction 1 as [|x ls G H IH]; [reflexivity|]. cbn [page flat_map]. rewrite <- app_assoc. cbn [app].
  rewrite split_app_sep by now apply good_line_no_newline. cbn [map app]. f_equal. exact IH.
Qed.

Lemma read_page ls : Forall good_line ls -> read (page ls) = Some ls.
Proof.
  intros G. unfold read. rewrite split_page by exact G. rewrite rev_app_distr. cbn [rev app].
  rewrite rev_involutive. induction G as [|x ls G1 G2 IH]; [reflexivity|]. cbn [map all].
  now rewrite good_line_read, IH.
Qed.

Lemma page_app a b : page (a ++ b) = page a ++ page b.
Proof. apply flat_map_app. Qed.
