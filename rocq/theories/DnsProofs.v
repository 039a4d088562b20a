(** Proofs of C63 and C64 *)
From Coq Require Import String List NArith Bool Lia ZifyBool ZifyN.
From Verif Require Import Bytes BytesProofs NameModel EndpointModel DnsModel DnsSpec.
Import ListNotations.
Open Scope N_scope.

(** ** Texts *)

Definition digits : list N := [48; 49; 50; 51; 52; 53; 54; 55; 56; 57].
Lemma digit_in c : is_digit c = true -> In c digits.
Proof. unfold is_digit, digits. cbn [In]. lia. Qed.
Definition octet_ok (s : bytes) : bool := match parse_octet s with Some n => (n <=? 255) && beq s (to_dec n) | None => true end.
Lemma octets_ok : forallb (fun a => octet_ok [a] && forallb (fun b => octet_ok [a; b] && forallb (fun c => octet_ok [a; b; c]) digits) digits) digits = true.
Proof. vm_compute. reflexivity. Qed.
Lemma octets_back : forallb (fun n => match parse_octet (to_dec n) with Some m => n =? m | None => false end) (map N.of_nat (seq 0 256)) = true.
Proof. vm_compute. reflexivity. Qed.

Lemma parse_octet_iff s n : parse_octet s = Some n <-> n <= 255 /\ s = to_dec n.
Proof.
  split.
  - intros E. assert (octet_ok s = true) as O.
    { assert (len s <= 3 /\ s <> [] /\ forallb is_digit s = true) as (L & NE & D).
      { unfold parse_octet in E. destruct ((len s <=? 3) && _) eqn:C; [|discriminate]. apply andb_true_iff in C as [C1 C2].
        split; [lia|]. split; [intros ->; discriminate|]. apply parse_digits_some in E; [|unfold u8_max; lia]. apply E. }
      pose proof octets_ok as F. rewrite forallb_forall in F.
      destruct s as [|a [|b [|c [|x s]]]]; cbn [forallb] in D.
      - destruct NE. reflexivity.
      - apply andb_true_iff in D as [D _]. specialize (F a (digit_in a D)). apply andb_true_iff in F as [F _]. exact F.
      - apply andb_true_iff in D as [D1 D]. apply andb_true_iff in D as [D2 _]. specialize (F a (digit_in a D1)). apply andb_true_iff in F as [_ F].
        rewrite forallb_forall in F. specialize (F b (digit_in b D2)). apply andb_true_iff in F as [F _]. exact F.
      - apply andb_true_iff in D as [D1 D]. apply andb_true_iff in D as [D2 D]. apply andb_true_iff in D as [D3 _].
        specialize (F a (digit_in a D1)). apply andb_true_iff in F as [_ F].
        rewrite forallb_forall in F. specialize (F b (digit_in b D2)). apply andb_true_iff in F as [_ F].
        rewrite forallb_forall in F. exact (F c (digit_in c D3)).
      - exfalso. unfold len in L. cbn [List.length] in L. lia. }
    unfold octet_ok in O. rewrite E in O. apply andb_true_iff in O as [O1 O2]. apply beq_eq in O2. split; [lia|exact O2].
  - intros [L ->]. pose proof octets_back as F. rewrite forallb_forall in F. specialize (F n).
    assert (In n (map N.of_nat (seq 0 256))) as J by (apply in_map_iff; exists (N.to_nat n); split; [lia|apply in_seq; lia]).
    specialize (F J). destruct (parse_octet (to_dec n)) as [m|]; [|discriminate]. f_equal. lia.
Qed.

Lemma dec_no c n : is_digit c = false -> ~ In c (to_dec n).
Proof. intros D J. pose proof (to_dec_digits n) as F. rewrite forallb_forall in F. specialize (F c J). congruence. Qed.

Lemma parse_v4_iff s ip : parse_v4 s = Some ip <-> v4_text s ip.
Proof.
  unfold parse_v4, v4_text. split.
  - intros E. pose proof (split_join 46 s) as J. destruct (split 46 s) as [|a [|b [|c [|d [|x l]]]]]; try discriminate.
    destruct (parse_octet a) as [a'|] eqn:Ea; [|discriminate]. destruct (parse_octet b) as [b'|] eqn:Eb; [|discriminate].
    destruct (parse_octet c) as [c'|] eqn:Ec; [|discriminate]. destruct (parse_octet d) as [d'|] eqn:Ed; [|discriminate].
    injection E as <-. apply parse_octet_iff in Ea as [La ->], Eb as [Lb ->], Ec as [Lc ->], Ed as [Ld ->].
    exists a', b', c', d'. repeat (split; [first [reflexivity|assumption]|]). symmetry. exact J.
  - intros (a & b & c & d & -> & La & Lb & Lc & Ld & ->). change (bs ".") with [46].
    assert (forall n, ~ In 46 (to_dec n)) as N0 by (intros; apply dec_no; reflexivity).
    cbn [app]. rewrite !(split_app_sep 46) by apply N0. rewrite (split_none 46) by apply N0.
    assert (forall n, n <= 255 -> parse_octet (to_dec n) = Some n) as P by (intros; apply parse_octet_iff; split; [assumption|reflexivity]).
    rewrite !P by assumption. reflexivity.
Qed.

Lemma replace_dashes c label : replace 45 c label = dashes c label.
Proof. unfold replace. induction label as [|x l IH]; [reflexivity|]. cbn [map dashes]. rewrite IH. reflexivity. Qed.
Lemma dashes_no c x label : x <> c -> ~ In x label -> ~ In x (dashes c label).
Proof.
  intros D. induction label as [|y l IH]; [tauto|]. cbn [dashes In]. intros N0 [E|J]; [|tauto].
  destruct (y =? 45); [congruence|]. apply N0. left. exact E.
Qed.
Lemma v4_dot s ip : v4_text s ip -> In 46 s.
Proof. intros (a & b & c & d & _ & _ & _ & _ & _ & ->). apply in_or_app. right. left. reflexivity. Qed.

Section Addresses.
Variable v6 : bytes -> option (list N).
Hypothesis V6 : v6_ok v6.

Lemma srv_to_socket_addr_iff label rest port sa : plain label ->
  srv_to_socket_addr v6 (label :: rest) port = Some sa <-> exists ip, label_ip v6 label ip /\ sa = Sock ip port.
Proof.
  intros [P1 P2]. unfold srv_to_socket_addr, parse_ip, label_ip. rewrite !replace_dashes.
  assert (v6 (dashes 46 label) = None) as ->.
  { destruct (v6 (dashes 46 label)) as [ip|] eqn:E; [|reflexivity]. apply V6 in E. exfalso. revert E. apply dashes_no; [discriminate|exact P2]. }
  assert (parse_v4 (dashes 58 label) = None) as ->.
  { destruct (parse_v4 (dashes 58 label)) as [ip|] eqn:E; [|reflexivity]. apply parse_v4_iff, v4_dot in E. exfalso. revert E. apply dashes_no; [discriminate|exact P1]. }
  destruct (parse_v4 (dashes 46 label)) as [ip|] eqn:E.
  - apply parse_v4_iff in E. split.
    + intros [= <-]. exists ip. split; [left; exact E|reflexivity].
    + intros (ip' & [V|[V _]] & ->); [|destruct (V ip E)]. apply parse_v4_iff in E, V. congruence.
  - assert (forall ip', ~ v4_text (dashes 46 label) ip') as N0 by (intros ip' V; apply parse_v4_iff in V; congruence).
    destruct (v6 (dashes 58 label)) as [ip|].
    + split; [intros [= <-]; exists ip; split; [right; split; [exact N0|reflexivity]|reflexivity]|].
      intros (ip' & [V|[_ [= <-]]] & ->); [destruct (N0 ip' V)|reflexivity].
    + split; [discriminate|]. intros (ip' & [V|[_ [=]]] & _). destruct (N0 ip' V).
Qed.

Definition records (answers : list rdata) : list (option sock) :=
  flat_map (fun r => match r with Srv t p => [srv_to_socket_addr v6 t p] | Other_record => [] end) answers.
Lemma records_iff : forall answers addrs, Forall plain_record answers ->
  collect (records answers) = Some addrs <-> records_say v6 answers addrs.
Proof.
  induction answers as [|r answers IH]; intros addrs P.
  - cbn. split; [intros [= <-]; constructor|intros H; inversion H; reflexivity].
  - inversion P as [|? ? P1 P2]; subst. destruct r as [[|label rest] port|].
    + cbn. split; [discriminate|]. intros H. inversion H.
    + change (records (Srv (label :: rest) port :: answers)) with (srv_to_socket_addr v6 (label :: rest) port :: records answers).
      cbn [plain_record] in P1. pose proof (srv_to_socket_addr_iff label rest port) as S0. cbn [collect].
      destruct (srv_to_socket_addr v6 (label :: rest) port) as [sa|].
      * destruct (proj1 (S0 sa P1) eq_refl) as (ip & L & ->). destruct (collect (records answers)) as [xs|] eqn:C.
        -- split.
           ++ intros [= <-]. constructor; [exact L|]. apply IH; [exact P2|reflexivity].
           ++ intros H. inversion H as [|? ? ? ip' ? addrs' L' R'|]; subst. apply IH in R'; [|exact P2]. injection R' as <-.
              pose proof (proj2 (S0 (Sock ip' port) P1) (ex_intro _ ip' (conj L' eq_refl))) as E. congruence.
        -- split; [discriminate|]. intros H. inversion H as [|? ? ? ip' ? addrs' L' R'|]; subst. apply IH in R'; [discriminate|exact P2].
      * split; [discriminate|]. intros H. inversion H as [|? ? ? ip' ? addrs' L' R'|]; subst.
        pose proof (proj2 (S0 (Sock ip' port) P1) (ex_intro _ ip' (conj L' eq_refl))). discriminate.
    + change (records (Other_record :: answers)) with (records answers). rewrite (IH addrs P2). split; [intros H; constructor; exact H|].
      intros H. inversion H; subst. assumption.
Qed.

Lemma resolve_addrs_spec m srv ips port :
  (forall answers until, srv = inl (answers, until) -> Forall plain_record answers) ->
  let res := resolve_addrs v6 m srv ips port in
  (forall answers until addrs, srv = inl (answers, until) -> records_say v6 answers addrs ->
     snd res = inl (addrs, until) /\
     fst res = Metrics (a_resolved m) (a_not_found m) (srv_resolved m + 1) (srv_not_found m)) /\
  ((forall answers until addrs, srv = inl (answers, until) -> ~ records_say v6 answers addrs) ->
     (forall l until, ips = inl (l, until) ->
        snd res = inl (map (fun ip => Sock ip port) l, until) /\
        fst res = Metrics (a_resolved m + 1) (a_not_found m) (srv_resolved m) (srv_not_found m + 1)) /\
     (forall e, ips = inr e -> exists e', snd res = inr (ResolveError e e') /\
        e' = (match srv with inr e => Srv_failed e | inl _ => Invalid_srv end) /\
        fst res = Metrics (a_resolved m) (a_not_found m + 1) (srv_resolved m) (srv_not_found m + 1))).
Proof.
  intros P. cbv zeta. unfold resolve_addrs, resolve_srv. destruct srv as [[answers until]|e].
  - specialize (P answers until eq_refl). pose proof (fun addrs => records_iff answers addrs P) as R. fold (records answers).
    destruct (collect (records answers)) as [addrs|].
    + pose proof (proj1 (R addrs) eq_refl) as Ra. split.
      * intros answers' until' addrs' [= <- <-] R'. apply R in R'. injection R' as <-. split; reflexivity.
      * intros N0. destruct (N0 answers until addrs eq_refl Ra).
    + split.
      * intros answers' until' addrs' [= <- <-] R'. apply R in R'. discriminate.
      * intros _. split; [intros l u ->; split; reflexivity|]. intros e ->. eexists. split; [reflexivity|]. split; reflexivity.
  - split; [discriminate|]. intros _. split; [intros l u ->; split; reflexivity|]. intros e' ->. eexists. split; [reflexivity|]. split; reflexivity.
Qed.

Lemma pod a b c d rest port : a <= 255 -> b <= 255 -> c <= 255 -> d <= 255 ->
  srv_to_socket_addr v6 ((to_dec a ++ bs "-" ++ to_dec b ++ bs "-" ++ to_dec c ++ bs "-" ++ to_dec d) :: rest) port = Some (Sock [a; b; c; d] port).
Proof.
  intros La Lb Lc Ld.
  assert (forall c s t, dashes c (s ++ t) = dashes c s ++ dashes c t) as DA.
  { intros x s t. induction s as [|y s IH]; [reflexivity|]. cbn [app dashes]. rewrite IH. reflexivity. }
  assert (forall c n, dashes c (to_dec n) = to_dec n) as DD.
  { intros x n. pose proof (dec_no 45 n eq_refl) as N0. revert N0. generalize (to_dec n). induction b0 as [|y s IH]; [reflexivity|].
    cbn [dashes In]. intros N0. destruct (y =? 45) eqn:E; [apply N.eqb_eq in E; subst y; destruct N0; left; reflexivity|]. rewrite IH; [reflexivity|tauto]. }
  apply srv_to_socket_addr_iff.
  - change (bs "-") with [45]. split; intros J; repeat (apply in_app_or in J as [J|J]);
      first [revert J; apply dec_no; reflexivity | destruct J as [J|[]]; discriminate J].
  - exists [a; b; c; d]. split; [|reflexivity]. left. exists a, b, c, d. repeat (split; [first [reflexivity|assumption]|]).
    rewrite !DA, !DD. reflexivity.
Qed.
End Addresses.

Lemma target_fixed t :
  (forall sa, t = Socket sa -> dns_resolve t = Fixed [sa]) /\
  (forall na, t = Name na -> lowers (na_name na) = bs "localhost." -> dns_resolve t = Fixed [Sock [127; 0; 0; 1] (na_port na)]) /\
  (forall na, t = Name na -> lowers (na_name na) <> bs "localhost." -> dns_resolve t = Resolved na).
Proof.
  split; [intros sa ->; reflexivity|]. unfold dns_resolve, is_localhost, eq_ignore_case.
  change (lowers LOCALHOST_DOT) with (bs "localhost."). split; intros na -> E.
  - apply beq_eq in E. rewrite E. reflexivity.
  - apply beq_neq in E. rewrite E. reflexivity.
Qed.

(** ** Times *)

Lemma negative_ttl_spec e :
  match a_error e, srv_error e with
  | No_records (Some secs), _ => negative_ttl e = Some (N.max (secs * 1000000000) five_seconds)
  | _, Srv_failed (No_records (Some secs)) => negative_ttl e = Some (N.max (secs * 1000000000) five_seconds)
  | _, _ => negative_ttl e = None
  end.
Proof.
  assert (forall s, with_minimum_duration (s * 1000000000) = N.max (s * 1000000000) five_seconds) as W.
  { intros s. unfold with_minimum_duration. change MINIMUM_TTL with five_seconds. destruct (N.ltb_spec (s * 1000000000) five_seconds); lia. }
  unfold negative_ttl, negative_ttl_of. destruct e as [[[s|]|] [|[[s'|]|]]]; cbn [a_error srv_error]; rewrite ?W; reflexivity.
Qed.
Lemma negative_ttl_min e ttl : negative_ttl e = Some ttl -> five_seconds <= ttl.
Proof.
  pose proof (negative_ttl_spec e) as S0. intros E. destruct e as [[[s|]|] [|[[s'|]|]]]; cbn [a_error srv_error] in S0; rewrite S0 in E; try discriminate; injection E as <-; lia.
Qed.
Lemma expiry_min now v : with_minimum_expiry now v = N.max v (now + five_seconds).
Proof. unfold with_minimum_expiry. change MINIMUM_TTL with five_seconds. destruct (N.leb_spec (now + five_seconds) v); lia. Qed.

Section Runs.
Variables min_backoff t0 : N.

(** Steps that are seen one at a time *)
Lemma asks_app l l' : asks (l ++ l') = asks l + asks l'.
Proof. induction l as [|[t [| | | |]] l IH]; cbn [app asks]; rewrite ?IH; lia. Qed.
Lemma found_app l l' : found (l ++ l') = found l ++ found l'.
Proof. induction l as [|[t [| | | |]] l IH]; cbn [app found]; rewrite ?IH; reflexivity. Qed.
Lemma given_app l l' : given (l ++ l') = given l ++ given l'.
Proof. induction l as [|[t [| | | |]] l IH]; cbn [app given]; rewrite ?IH; reflexivity. Qed.

(** Not too often *)
Definition soon (s : state) (n b : N) : Prop :=
  match s with
  | Connecting (Some (Negative_ttl next ttl)) => five_seconds <= ttl /\ t0 + n * b <= next
  | Connected (Sleeping until) _ => t0 + n * b <= until
  | Backing_off (Negative_ttl next ttl) => five_seconds <= ttl /\ t0 + n * b <= next
  | Backing_off (Exponential until) => t0 + n * b <= until
  | _ => True
  end.
Lemma paced t l s : run min_backoff t0 t l s ->
  1 <= asks l /\ t0 + (asks l - 1) * N.min five_seconds min_backoff <= t /\ soon s (asks l) (N.min five_seconds min_backoff).
Proof.
  set (b := N.min five_seconds min_backoff). assert (b <= five_seconds /\ b <= min_backoff) as [B1 B2] by (unfold b; lia). clearbody b.
  intros R. induction R as [|t l s t' i s' l' R IH LE E]; [cbn; lia|].
  destruct IH as (I1 & I2 & I3). rewrite asks_app. set (n := asks l) in *. clearbody n.
  assert (t0 + n * b <= t' + b) as I4 by nia.
  assert (forall e w, w <? min_backoff = false -> soon (Backing_off (recover t' e w)) (n + 0) b) as RE.
  { intros e w W. unfold recover. destruct (negative_ttl e) as [ttl|] eqn:NT; cbn [soon].
    - apply negative_ttl_min in NT. split; [exact NT|lia].
    - lia. }
  assert (forall p, 1 <= n + 0 /\ t0 + (n + 0 - 1) * b <= t' /\ p <-> p) as TR by (intros; rewrite N.add_0_r; split; [tauto|intros; repeat split; try assumption; lia]).
  destruct s as [[[next ttl|u]|]|[addrs ex|u| |e|] [[c|c]|]|[next ttl|u]], i as [[[ad ex']|e'] w| | |w|]; cbn [step] in E; try discriminate E.
  all: repeat match type of E with
    | (if ?c then _ else _) = _ => destruct c eqn:?; try discriminate E
    end; injection E as <- <-; cbn [map asks continue]; try (apply TR; cbn [soon]; first [exact Logic.I | apply RE; assumption | rewrite ?N.add_0_r; cbn [soon] in I3; rewrite ?expiry_min; lia]);
    cbn [soon] in *; rewrite ?expiry_min; try nia.
Qed.

(** Nothing is lost *)
Definition waiting (s : state) : list (list sock) :=
  match s with
  | Connected t c =>
      (match c with Some (Update a) => [a] | _ => [] end) ++ (match t with Sending a _ => [a] | _ => [] end)
  | _ => []
  end.
Definition ends (s : state) : Prop :=
  match s with
  | Connected Ended c => exists e, c = Some (Failure e)
  | Connected _ (Some (Failure _)) => False
  | _ => True
  end.
Lemma in_order t l s : run min_backoff t0 t l s -> found l = given l ++ waiting s /\ ends s.
Proof.
  intros R. induction R as [|t l s t' i s' l' R IH LE E]; [split; [reflexivity|exact Logic.I]|].
  destruct IH as (I1 & I2). rewrite found_app, given_app, I1. clear I1 R.
  destruct s as [[[next ttl|u]|]|[addrs ex|u| |e|] [[c|c]|]|[next ttl|u]], i as [[[ad ex']|e'] w| | |w|]; cbn [step] in E; try discriminate E.
  all: repeat match type of E with
    | (if ?c then _ else _) = _ => destruct c eqn:?; try discriminate E
    end; injection E as <- <-; cbn [map found given waiting app ends] in *; rewrite ?app_nil_r, <- ?app_assoc; cbn [app];
    try (split; [reflexivity|first [exact Logic.I|contradiction|eauto]]).
  all: try contradiction; try (destruct I2 as [? I2]; discriminate I2).
Qed.
Lemma order t l s : run min_backoff t0 t l s -> exists w, found l = given l ++ w /\ (List.length w <= 2)%nat.
Proof.
  intros R. exists (waiting s). split; [apply (in_order t l s R)|]. destruct s as [|[| | | |] [[|]|]|]; cbn; lia.
Qed.

(** Not too soon *)
Definition pend (l : list (N * event)) (t1 exp : N) : Prop :=
  exists pre a mid, l = pre ++ (t1, Got a exp) :: mid /\ no_ask mid.
Definition refreshes (l : list (N * event)) : Prop :=
  forall pre t1 a exp mid t2 post, l = pre ++ (t1, Got a exp) :: mid ++ (t2, Asked) :: post -> no_ask mid ->
    exp <= t2 /\ t1 + five_seconds <= t2.
Lemma snoc_split {A} (l : list A) x pre y post : l ++ [x] = pre ++ y :: post ->
  (post = [] /\ pre = l /\ y = x) \/ exists post', post = post' ++ [x] /\ l = pre ++ y :: post'.
Proof.
  destruct post as [|z post _] using rev_ind; intros E.
  - apply app_inj_tail in E as [-> ->]. left. repeat split.
  - right. rewrite app_comm_cons, app_assoc in E. apply app_inj_tail in E as [-> ->]. exists post. split; reflexivity.
Qed.
Lemma no_ask_snoc l t e : no_ask (l ++ [(t, e)]) <-> no_ask l /\ e <> Asked.
Proof.
  unfold no_ask. split.
  - intros H. split; [intros t1 J; apply (H t1), in_or_app; left; exact J|]. intros ->. apply (H t), in_or_app. right. left. reflexivity.
  - intros [H1 H2] t1 J. apply in_app_or in J as [J|[J|[]]]; [exact (H1 t1 J)|congruence].
Qed.
Lemma pend_snoc l t e t1 exp : pend (l ++ [(t, e)]) t1 exp -> ((exists a, e = Got a exp) /\ t1 = t) \/ (e <> Asked /\ pend l t1 exp).
Proof.
  intros (pre & a & mid & E & N0). apply snoc_split in E as [(-> & -> & [= <- <-])|(mid' & -> & ->)].
  - left. split; [exists a; reflexivity|reflexivity].
  - apply no_ask_snoc in N0 as [N0 N1]. right. split; [exact N1|]. exists pre, a, mid'. split; [reflexivity|exact N0].
Qed.
Lemma refreshes_snoc l t e : refreshes l -> (e = Asked -> forall t1 exp, pend l t1 exp -> exp <= t /\ t1 + five_seconds <= t) -> refreshes (l ++ [(t, e)]).
Proof.
  intros H1 H2 pre t1 a exp mid t2 post E N0. rewrite app_comm_cons, app_assoc in E.
  apply snoc_split in E as [(-> & E & [= <- <-])|(post' & -> & E)].
  - apply (H2 eq_refl t1 exp). exists pre, a, mid. split; [symmetry; exact E|exact N0].
  - eapply H1; [rewrite E, <- app_assoc; reflexivity|exact N0].
Qed.
Definition due (s : state) (l : list (N * event)) (t : N) : Prop :=
  forall t1 exp, pend l t1 exp ->
    match s with
    | Connected (Sending _ exp') _ => exp' = exp /\ t1 <= t
    | Connected (Sleeping until) _ => exp <= until /\ t1 + five_seconds <= until
    | _ => False
    end.
Lemma refresh t l s : run min_backoff t0 t l s -> refreshes l /\ due s l t.
Proof.
  intros R. induction R as [|t l s t' i s' l' R IH LE E].
  { split.
    - intros pre t1 a exp mid t2 post E. destruct pre as [|? [|]]; discriminate.
    - intros t1 exp (pre & a & mid & E & _). destruct pre as [|? [|]]; discriminate. }
  destruct IH as (I1 & I2).
  assert (refreshes l /\ forall t1 exp, pend l t1 exp -> match s with Connected (Sending _ exp') _ => exp' = exp /\ t1 <= t' | Connected (Sleeping until) _ => exp <= until /\ t1 + five_seconds <= until | _ => False end) as (J1 & J2).
  { split; [exact I1|]. intros t1 exp P. specialize (I2 t1 exp P). destruct s as [|[| | | |] c|]; try exact I2. lia. }
  pose proof (proj2 (in_order t l s R)) as EN. clear I1 I2 R. unfold due.
  destruct s as [[[next ttl|u]|]|[addrs ex|u| |e|] [[c|c]|]|[next ttl|u]], i as [[[ad ex']|e'] w| | |w|]; cbn [step] in E; try discriminate E.
  all: repeat match type of E with
    | (if ?c then _ else _) = _ => destruct c eqn:?; try discriminate E
    end; injection E as <- <-; cbn [map].
  all: rewrite ?app_nil_r.
  all: try change (l ++ [(t', Not_got e'); (t', Recovers e')]) with (l ++ [(t', Not_got e')] ++ [(t', Recovers e')]); rewrite ?app_assoc.
  all: split; [first [exact J1 | repeat (apply refreshes_snoc; [|first [discriminate|intros _]]); try exact J1; intros t1 exp P; specialize (J2 t1 exp P); try contradiction; lia]|].
  all: intros t1 exp P; repeat (apply pend_snoc in P as [[[? P'] ->]|[? P]]; [try discriminate P'; try (injection P' as _ <-)|]); try congruence; try (specialize (J2 t1 exp P)); try contradiction; rewrite ?expiry_min; try lia.
  all: destruct EN.
Qed.

(** No sooner than it was said *)
Definition recov (l : list (N * event)) (t1 ttl k : N) : Prop :=
  exists pre e mid, l = pre ++ (t1, Recovers e) :: mid /\ no_got mid /\ negative_ttl e = Some ttl /\ asks mid = k.
Definition retries (l : list (N * event)) : Prop :=
  forall pre t1 e ttl mid t2 post, l = pre ++ (t1, Recovers e) :: mid ++ (t2, Asked) :: post -> no_got mid ->
    negative_ttl e = Some ttl -> t1 + (asks mid + 1) * ttl <= t2.
Lemma no_got_snoc l t e : no_got (l ++ [(t, e)]) <-> no_got l /\ forall a x, e <> Got a x.
Proof.
  unfold no_got. split.
  - intros H. split; [intros t1 a x J; apply (H t1 a x), in_or_app; left; exact J|]. intros a x ->. apply (H t a x), in_or_app. right. left. reflexivity.
  - intros [H1 H2] t1 a x J. apply in_app_or in J as [J|[J|[]]]; [exact (H1 t1 a x J)|]. injection J as _ J. exact (H2 _ _ J).
Qed.
Lemma recov_snoc l t e t1 ttl k : recov (l ++ [(t, e)]) t1 ttl k ->
  ((exists e', e = Recovers e' /\ negative_ttl e' = Some ttl) /\ t1 = t /\ k = 0) \/
  ((forall a x, e <> Got a x) /\ exists k', recov l t1 ttl k' /\ k = k' + match e with Asked => 1 | _ => 0 end).
Proof.
  intros (pre & e0 & mid & E & N0 & NT & K). apply snoc_split in E as [(-> & -> & [= <- <-])|(mid' & -> & ->)].
  - left. split; [exists e0; split; [reflexivity|exact NT]|]. split; [reflexivity|]. symmetry. exact K.
  - apply no_got_snoc in N0 as [N0 N1]. right. split; [exact N1|]. exists (asks mid'). split.
    + exists pre, e0, mid'. repeat (split; [first [reflexivity|assumption]|]). reflexivity.
    + rewrite asks_app in K. rewrite <- K. destruct e; reflexivity.
Qed.
Lemma retries_snoc l t e : retries l -> (e = Asked -> forall t1 ttl k, recov l t1 ttl k -> t1 + (k + 1) * ttl <= t) -> retries (l ++ [(t, e)]).
Proof.
  intros H1 H2 pre t1 e0 ttl mid t2 post E N0 NT. rewrite app_comm_cons, app_assoc in E.
  apply snoc_split in E as [(-> & E & [= <- <-])|(post' & -> & E)].
  - apply (H2 eq_refl t1 ttl). exists pre, e0, mid. split; [symmetry; exact E|]. split; [exact N0|]. split; [exact NT|reflexivity].
  - eapply H1; [rewrite E, <- app_assoc; reflexivity|exact N0|exact NT].
Qed.
Definition ticks (s : state) (l : list (N * event)) : Prop :=
  forall t1 ttl k, recov l t1 ttl k ->
    match s with
    | Connecting (Some (Negative_ttl next ttl')) | Backing_off (Negative_ttl next ttl') => ttl' = ttl /\ t1 + (k + 1) * ttl <= next
    | _ => False
    end.
Lemma retry t l s : run min_backoff t0 t l s -> retries l /\ ticks s l.
Proof.
  intros R. induction R as [|t l s t' i s' l' R IH LE E].
  { split.
    - intros pre t1 e ttl mid t2 post E. destruct pre as [|? [|]]; discriminate.
    - intros t1 ttl k (pre & a & mid & E & _). destruct pre as [|? [|]]; discriminate. }
  destruct IH as (J1 & J2). clear R. unfold ticks in *.
  destruct s as [[[next ttl|u]|]|[addrs ex|u| |e|] [[c|c]|]|[next ttl|u]], i as [[[ad ex']|e'] w| | |w|]; cbn [step] in E; try discriminate E.
  all: repeat match type of E with
    | (if ?c then _ else _) = _ => destruct c eqn:?; try discriminate E
    end; injection E as <- <-; cbn [map].
  all: rewrite ?app_nil_r.
  all: try change (l ++ [(t', Not_got e'); (t', Recovers e')]) with (l ++ [(t', Not_got e')] ++ [(t', Recovers e')]); rewrite ?app_assoc.
  all: split; [first [exact J1 | repeat (apply retries_snoc; [|first [discriminate|intros _]]); try exact J1; intros t1 ttl' k P; specialize (J2 t1 ttl' k P); try contradiction; lia]|].
  all: intros t1 ttl' k P; repeat (apply recov_snoc in P as [[(e0 & P' & NT) [-> ->]]|[NG (k' & P & ->)]]; [try discriminate P'; injection P' as <-|]); try (destruct (NG _ _ eq_refl)); try (specialize (J2 _ _ _ P)); try contradiction; unfold recover, continue; rewrite ?NT; try lia.
  apply recov_snoc in P as [[(e1 & P1 & NT1) _]|[NG1 (k1 & P & ->)]]; [discriminate P1|destruct (J2 _ _ _ P)].
Qed.

(** It goes on *)
Definition asks_again (t : N) (l : list (N * event)) : Prop :=
  exists t' l' s', run min_backoff t0 t' (l ++ l') s' /\ exists t2, In (t2, Asked) l'.
Lemma again_step t l s i s' l' : run min_backoff t0 t l s -> step min_backoff t s i = Some (s', l') ->
  (run min_backoff t0 t (l ++ map (pair t) l') s' -> asks_again t (l ++ map (pair t) l')) -> asks_again t l.
Proof.
  intros R E H. destruct H as (t' & l2 & s2 & R2 & t2 & J); [eapply run_step; [exact R|apply N.le_refl|exact E]|].
  exists t', (map (pair t) l' ++ l2), s2. rewrite app_assoc. split; [exact R2|]. exists t2. apply in_or_app. right. exact J.
Qed.
Lemma again_backing t l b : run min_backoff t0 t l (Backing_off b) -> asks_again t l.
Proof.
  intros R. set (d := match b with Negative_ttl next _ => next | Exponential u => u end).
  assert (exists s', step min_backoff (N.max t d) (Backing_off b) Ticks = Some (s', [Asked])) as (s' & E).
  { destruct b as [next ttl|u]; subst d; cbn [step]; [assert (next <=? N.max t next = true) as -> by lia|assert (u <=? N.max t u = true) as -> by lia]; eexists; reflexivity. }
  exists (N.max t d), [(N.max t d, Asked)], s'. split; [|exists (N.max t d); left; reflexivity].
  exact (run_step _ _ _ _ _ _ _ _ _ R (N.le_max_l _ _) E).
Qed.
Lemma again_sleeping t l u c : run min_backoff t0 t l (Connected (Sleeping u) c) -> asks_again t l.
Proof.
  intros R. assert (step min_backoff (N.max t u) (Connected (Sleeping u) c) Wakes = Some (Connected Asking c, [Asked])) as E.
  { cbn [step]. destruct c as [[|]|]; (assert (u <=? N.max t u = true) as -> by lia; reflexivity). }
  exists (N.max t u), [(N.max t u, Asked)], (Connected Asking c). split; [|exists (N.max t u); left; reflexivity].
  exact (run_step _ _ _ _ _ _ _ _ _ R (N.le_max_l _ _) E).
Qed.
Lemma again_sending t l a x c : run min_backoff t0 t l (Connected (Sending a x) c) -> asks_again t l.
Proof.
  assert (min_backoff <? min_backoff = false) as M by lia.
  assert (forall l, run min_backoff t0 t l (Connected (Sending a x) None) -> asks_again t l) as H.
  { intros l1 R. eapply (again_step _ _ _ Sends); [exact R|reflexivity|]. apply again_sleeping. }
  intros R. destruct c as [[u|e]|].
  - eapply (again_step _ _ _ (Polls 0)); [exact R|reflexivity|]. apply H.
  - eapply (again_step _ _ _ (Polls min_backoff)); [exact R|cbn [step]; rewrite M; reflexivity|]. apply again_backing.
  - apply H. exact R.
Qed.
Lemma again t l s : run min_backoff t0 t l s -> asks_again t l.
Proof.
  assert (min_backoff <? min_backoff = false) as M by lia.
  intros R. pose proof (proj2 (in_order t l s R)) as EN. destruct s as [b|[a x|u| |e|] c|b].
  - eapply (again_step _ _ _ (Answered (inl ([], 0)) 0)); [exact R|reflexivity|]. apply again_sending.
  - apply (again_sending t l a x c R).
  - apply (again_sleeping t l u c R).
  - eapply (again_step _ _ _ (Answered (inl ([], 0)) 0)); [exact R|destruct c as [[|]|]; reflexivity|]. apply again_sending.
  - assert (forall l, run min_backoff t0 t l (Connected (Failing e) None) -> asks_again t l) as H.
    { intros l1 R1. eapply (again_step _ _ _ Sends); [exact R1|reflexivity|]. intros R2. eapply (again_step _ _ _ (Polls min_backoff)); [exact R2|cbn [step]; rewrite M; reflexivity|]. apply again_backing. }
    destruct c as [[u|e']|].
    + eapply (again_step _ _ _ (Polls 0)); [exact R|reflexivity|]. apply H.
    + destruct EN.
    + apply H. exact R.
  - destruct EN as [e ->]. eapply (again_step _ _ _ (Polls min_backoff)); [exact R|cbn [step]; rewrite M; reflexivity|]. apply again_backing.
  - apply (again_backing t l b R).
Qed.
End Runs.

(** Runs by computation *)
Fixpoint go (mb t : N) (l : list (N * event)) (s : state) (is : list (N * input)) : option (N * list (N * event) * state) :=
  match is with
  | [] => Some (t, l, s)
  | (t', i) :: is' =>
      if t <=? t' then
        match step mb t' s i with
        | Some (s', l') => go mb t' (l ++ map (pair t') l') s' is'
        | None => None
        end
      else None
  end.
Lemma go_run mb t0 : forall is t l s t' l' s', run mb t0 t l s -> go mb t l s is = Some (t', l', s') -> run mb t0 t' l' s'.
Proof.
  induction is as [|[t1 i] is IH]; intros t l s t' l' s' R E; cbn [go] in E; [injection E as <- <- <-; exact R|].
  destruct (t <=? t1) eqn:L; [|discriminate]. destruct (step mb t1 s i) as [[s1 l1]|] eqn:ST; [|discriminate].
  apply (IH _ _ _ _ _ _ (run_step _ _ _ _ _ _ _ _ _ R (proj1 (N.leb_le _ _) L) ST) E).
Qed.
