(** Proofs about how connections are accepted. *)
From Coq Require Import List NArith ZArith Bool Lia.
From Verif Require Import AuthzModel HistogramModel AcceptModel AcceptSpec.
Import ListNotations.
Open Scope N_scope.

Lemma ip_eqb_eq a b : ip_eqb a b = true <-> a = b.
Proof. destruct a, b; cbn; rewrite ?N.eqb_eq; split; congruence. Qed.
Lemma addr_eqb_eq a b : addr_eqb a b = true <-> a = b.
Proof. destruct a as [a p], b as [b q]. unfold addr_eqb. cbn [fst snd]. rewrite andb_true_iff, ip_eqb_eq, N.eqb_eq. split; [intros [-> ->]; reflexivity|intros H; injection H as -> ->; auto]. Qed.
Lemma kind_eqb_eq a b : kind_eqb a b = true <-> a = b.
Proof. destruct a, b; cbn; split; congruence. Qed.

Lemma land_ones_mod n : N.land n 0xffffffff = n mod 2 ^ 32.
Proof. change 0xffffffff with (N.ones 32). apply N.land_ones. Qed.
Lemma mapped_v6 n : (N.shiftr n 32 =? 0xffff) = true <-> exists a, a < 2 ^ 32 /\ n = 0xffff * 2 ^ 32 + a.
Proof.
  rewrite N.eqb_eq, N.shiftr_div_pow2. remember (2 ^ 32) as w eqn:W. assert (w <> 0) by (subst w; discriminate). clear W. split.
  - intros H1. exists (n mod w). split; [apply N.mod_lt; assumption|]. rewrite <- H1, N.mul_comm. apply N.div_mod. assumption.
  - intros (a & L & ->). symmetry. apply (N.div_unique _ _ _ a); [exact L|]. rewrite N.mul_comm. reflexivity.
Qed.
Lemma mapped_in a p : a < 2 ^ 32 -> mapped (v4_in_v6 a, p) = (V4 a, p).
Proof.
  intros L. unfold mapped, v4_in_v6. cbn [fst snd ipv4_mapped].
  assert (E : (N.shiftr (65535 * 2 ^ 32 + a) 32 =? 65535) = true) by (apply mapped_v6; exists a; split; [exact L|reflexivity]). rewrite E, land_ones_mod.
  rewrite N.add_comm, N.mod_add by discriminate. rewrite N.mod_small by exact L. reflexivity.
Qed.
Lemma client_iff peer client : client_of peer client <-> mapped peer = client.
Proof.
  split.
  - intros H. destruct H as [a p|a p L|a p N].
    + reflexivity.
    + apply mapped_in. exact L.
    + unfold mapped. cbn [fst snd ipv4_mapped]. destruct (N.shiftr a 32 =? 65535) eqn:E; [|reflexivity]. exfalso. apply mapped_v6 in E as (b & L & ->). apply (N b L). reflexivity.
  - destruct peer as [[a|a] p]; intros <-; [apply Cl_v4|]. destruct (N.shiftr a 32 =? 65535) eqn:E.
    + apply mapped_v6 in E as (b & L & ->). pose proof (mapped_in b p L) as M. unfold v4_in_v6 in M. rewrite M. apply (Cl_mapped b p L).
    + unfold mapped. cbn [fst snd ipv4_mapped]. rewrite E. apply Cl_v6. intros b L Eb. apply (f_equal (fun i => match i with V4 n => n | V6 n => n end)) in Eb. unfold v4_in_v6 in Eb. assert (T : true = false); [|discriminate T]. rewrite <- E. symmetry. apply mapped_v6. exists b. split; [exact L|exact Eb].
Qed.
Lemma destined_iff s client dst : destined s (fst client) dst <-> orig_dst s client = Some dst.
Proof.
  unfold orig_dst. destruct s as [o pe d4 d6]. destruct client as [[a|a] p]; cbn [fst s_dst4 s_dst6].
  - split; [intros H; inversion H; subst; reflexivity|]. destruct d4 as [[x|]|]; intros H; try discriminate. injection H as ->. constructor.
  - split; [intros H; inversion H; subst; reflexivity|]. destruct d6 as [[x|]|]; intros H; try discriminate. injection H as ->. constructor.
Qed.
Lemma connects_iff s c d : connects s c d <-> item (Some s) = Some (c, d).
Proof.
  unfold connects, item. destruct (s_options s); [|split; [intros [? _]; discriminate|discriminate]].
  destruct (s_peer s) as [peer|].
  - split.
    + intros (_ & peer' & E & C & D). injection E as <-. apply client_iff in C. rewrite C. apply destined_iff in D. rewrite D. reflexivity.
    + destruct (orig_dst s (mapped peer)) as [x|] eqn:E; [|discriminate]. intros H. injection H as <- <-. split; [reflexivity|]. exists peer. split; [reflexivity|].
      split; [apply client_iff; reflexivity|apply destined_iff; exact E].
  - split; [intros (_ & p & E & _); discriminate|discriminate].
Qed.
Lemma item_none a : item a = None <-> forall s c d, a = Some s -> ~ connects s c d.
Proof.
  destruct a as [s|]; [|split; [discriminate|reflexivity]]. split.
  - intros H s' c d E C. injection E as <-. apply connects_iff in C. congruence.
  - intros H. destruct (item (Some s)) as [[c d]|] eqn:E; [|reflexivity]. exfalso. apply (H s c d eq_refl). apply connects_iff. exact E.
Qed.
Lemma check_iff ips d : check ips d = true <-> allowed ips d.
Proof.
  unfold check, allowed. destruct ips as [|i ips]; [split; auto|]. rewrite existsb_exists. split.
  - intros (x & Hi & E). apply ip_eqb_eq in E. subst x. auto.
  - intros [E|H]; [discriminate|]. exists (fst d). split; [exact H|]. apply ip_eqb_eq. reflexivity.
Qed.
Lemma mk_eq c sources : mk c sources = match c with Policy => None | Of k => Some k | Other => match sources with c :: sources => mk c sources | [] => Some Unexpected end end.
Proof. destruct sources; reflexivity. Qed.
Lemma counts_iff c sources k : counts_as (c :: sources) k <-> mk c sources = k.
Proof.
  split.
  - intros H. remember (c :: sources) as l eqn:E. revert c sources E. destruct H as [a b F|a k b F|a F]; intros c sources E.
    + revert c sources E. induction F as [|x a Ex F IH]; intros c sources E; cbn [app] in E; injection E as <- <-; [rewrite mk_eq; reflexivity|]. subst x. rewrite mk_eq. destruct (a ++ Policy :: b) eqn:Ea; [destruct a; discriminate|]. exact (IH _ _ eq_refl).
    + revert c sources E. induction F as [|x a Ex F IH]; intros c sources E; cbn [app] in E; injection E as <- <-; [rewrite mk_eq; reflexivity|]. subst x. rewrite mk_eq. destruct (a ++ Of k :: b) eqn:Ea; [destruct a; discriminate|]. exact (IH _ _ eq_refl).
    + revert c sources E. induction F as [|x a Ex F IH]; intros c sources E; [discriminate|]. injection E as <- <-. subst x. rewrite mk_eq. destruct a as [|y a]; [reflexivity|]. exact (IH _ _ eq_refl).
  - revert c. induction sources as [|x l IH]; intros [|k0|] <-; rewrite mk_eq.
    + apply (Co_policy []). constructor.
    + apply (Co_kind []). constructor.
    + apply Co_none. repeat constructor.
    + apply (Co_policy []). constructor.
    + apply (Co_kind []). constructor.
    + specialize (IH x eq_refl). change (mk x l) with (mk Other (x :: l)) in IH |- *. remember (mk Other (x :: l)) as r eqn:Er. clear Er. remember (x :: l) as xl eqn:Ex. clear Ex. destruct IH as [a b F|a k b F|a F].
      * apply (Co_policy (Other :: a)). constructor; [reflexivity|exact F].
      * apply (Co_kind (Other :: a)). constructor; [reflexivity|exact F].
      * apply Co_none. constructor; [reflexivity|]. exact F.
Qed.

(* counters *)
Lemma value_incr k a m k' a' : value (incr k a m) k' a' = if kind_eqb k' k && addr_eqb a' a then counter_add (value m k' a') 1 else value m k' a'.
Proof.
  assert (S : forall x y, kind_eqb x y = kind_eqb y x) by (intros [] []; reflexivity).
  induction m as [|[[k0 a0] n] m IH]; cbn [incr value]; [reflexivity|].
  destruct (kind_eqb k k0 && addr_eqb a a0) eqn:E.
  - apply andb_true_iff in E as [E1 E2]. apply kind_eqb_eq in E1. apply addr_eqb_eq in E2. subst k0 a0. cbn [value]. destruct (kind_eqb k' k && addr_eqb a' a); reflexivity.
  - cbn [value]. rewrite IH. destruct (kind_eqb k' k0 && addr_eqb a' a0) eqn:E'; [|reflexivity].
    destruct (kind_eqb k' k && addr_eqb a' a) eqn:E2; [|reflexivity]. exfalso.
    apply andb_true_iff in E' as [A B]. apply andb_true_iff in E2 as [C D]. apply kind_eqb_eq in A, C. apply addr_eqb_eq in B, D. subst.
    assert (true = false); [|discriminate]. rewrite <- E. symmetry. apply andb_true_iff. split; [apply kind_eqb_eq|apply addr_eqb_eq]; reflexivity.
Qed.

(* connections that are given *)
Lemma given_stop h l e : given h l -> In Shuts_down h -> given (h ++ [e]) l.
Proof. induction 1 as [|h|s c d h l C G IH|a h l N G IH|c r h l G IH]; cbn [app In]; intros H; [destruct H|apply Gi_down|apply Gi_some; [exact C|]|apply Gi_error; [exact N|]|apply Gi_ends]; apply IH; destruct H as [H|H]; try discriminate; exact H. Qed.
Lemma given_more h l s c d : given h l -> ~ In Shuts_down h -> connects s c d -> given (h ++ [Gives (Some s)]) (l ++ [(c, d)]).
Proof.
  intros G N C. induction G as [|h|s0 c0 d0 h l C0 G IH|a h l N0 G IH|c0 r h l G IH]; cbn [app].
  - apply Gi_some; [exact C|constructor].
  - exfalso. apply N. left. reflexivity.
  - apply Gi_some; [exact C0|]. apply IH. intros H. apply N. right. exact H.
  - apply Gi_error; [exact N0|]. apply IH. intros H. apply N. right. exact H.
  - apply Gi_ends. apply IH. intros H. apply N. right. exact H.
Qed.
Lemma given_none h l e : given h l -> (forall s c d, e = Gives (Some s) -> ~ connects s c d) -> given (h ++ [e]) l.
Proof.
  intros G N. induction G as [|h|s0 c0 d0 h l C0 G IH|a h l N0 G IH|c0 r h l G IH]; cbn [app]; [|apply Gi_down|apply Gi_some; assumption|apply Gi_error; assumption|apply Gi_ends; assumption].
  destruct e as [a|c r|]; [|apply Gi_ends; constructor|apply Gi_down]. apply Gi_error; [|constructor]. intros s c d ->. apply N. reflexivity.
Qed.
Lemma connects_fun s c d c' d' : connects s c d -> connects s c' d' -> (c, d) = (c', d').
Proof. rewrite !connects_iff. congruence. Qed.
Lemma given_fun h l l' : given h l -> given h l' -> l = l'.
Proof.
  intros G. revert l'. induction G as [|h|s c d h l C G IH|a h l N G IH|c r h l G IH]; intros l' G'; inversion G' as [|h'|s' c' d' h' l0 C' G0 E|a' h' l0 N' G0 E|c' r' h' l0 G0 E]; subst; try reflexivity.
  - f_equal; [eapply connects_fun; eassumption|apply IH; assumption].
  - exfalso. eapply N'; [reflexivity|exact C].
  - exfalso. eapply N; [reflexivity|exact C'].
  - apply IH. assumption.
  - apply IH. assumption.
Qed.

(* prefixes *)
Lemma firstn_snoc {A} (h : list A) e n : (n <= length h)%nat -> firstn n (h ++ [e]) = firstn n h.
Proof. intros L. rewrite firstn_app. replace (n - length h)%nat with 0%nat by lia. cbn. apply app_nil_r. Qed.
Lemma fails_lt ips h n k d : fails ips h n k d -> (n < length h)%nat.
Proof. intros [s c d' E|i r d' k' E]; apply nth_error_Some; congruence. Qed.
Lemma fails_snoc ips h e n k d : (n < length h)%nat -> fails ips (h ++ [e]) n k d <-> fails ips h n k d.
Proof.
  intros L. split; intros [s c d' E C N A|i r d' k' E V A C].
  - rewrite nth_error_app1 in E by exact L. rewrite firstn_snoc in N by lia. eapply Fa_refused; eassumption.
  - rewrite nth_error_app1 in E by exact L. rewrite firstn_snoc in V by lia. eapply Fa_ended; eassumption.
  - eapply Fa_refused; [rewrite nth_error_app1 by exact L; exact E|exact C|rewrite firstn_snoc by lia; exact N|exact A].
  - eapply Fa_ended; [rewrite nth_error_app1 by exact L; exact E|rewrite firstn_snoc by lia; exact V|exact A|exact C].
Qed.
Lemma at_end {A} (h : list A) e : nth_error (h ++ [e]) (length h) = Some e.
Proof. rewrite nth_error_app2, Nat.sub_diag by lia. reflexivity. Qed.
Lemma firstn_end {A} (h : list A) e : firstn (length h) (h ++ [e]) = h.
Proof. rewrite firstn_snoc by lia. apply firstn_all. Qed.

Lemma shut_dec (h : list event) : {In Shuts_down h} + {~ In Shuts_down h}.
Proof.
  induction h as [|e h IH]; [right; intros []|]. destruct e as [a|c r|]; [| |left; left; reflexivity];
    (destruct IH as [H|H]; [left; right; exact H|right; intros [E|H']; [discriminate|auto]]).
Qed.

Section Accept.
  Context {P : Type}.
  Variable (ips : list ip) (proxy_port : N) (get_policy : addr -> P).
  Notation run := (run ips proxy_port get_policy). Notation step := (step ips proxy_port get_policy). Notation new_service := (new_service ips proxy_port get_policy).
  Notation start := (@start P).
  Implicit Types (h : list event) (x : conn P).
  Definition addrs x : addr * addr := (c_client x, c_dst x).

  Lemma run_snoc h : forall s e, run s (h ++ [e]) = step (run s h) e.
  Proof. induction h as [|x h IH]; intros s e; [reflexivity|]. apply IH. Qed.
  Lemma over_addrs i : forall l, map addrs (@over P i l) = map addrs l.
  Proof. induction i as [|i IH]; intros [|x l]; cbn; try reflexivity. f_equal. apply IH. Qed.
  Lemma over_ways i : forall l, map (fun x => (c_dst x, c_way x)) (@over P i l) = map (fun x => (c_dst x, c_way x)) l.
  Proof. induction i as [|i IH]; intros [|x l]; cbn; try reflexivity. f_equal. apply IH. Qed.
  Lemma over_length i : forall l, length (@over P i l) = length l.
  Proof. induction i as [|i IH]; intros [|x l]; cbn; try reflexivity. f_equal. apply IH. Qed.
  Lemma over_nth i : forall (l : list (conn P)) j, nth_error (over i l) j = option_map (fun x => if Nat.eqb i j then Conn (c_client x) (c_dst x) (c_way x) true else x) (nth_error l j).
  Proof.
    induction i as [|i IH]; intros [|x l] [|j]; cbn [over nth_error option_map Nat.eqb]; try reflexivity.
    - destruct (nth_error l j); reflexivity.
    - apply IH.
  Qed.

  Record inv h (s : server P) : Prop := {
    i_accepting : accepting s = true <-> ~ In Shuts_down h;
    i_given : given h (map addrs (conns s));
    i_way : forall i x, nth_error (conns s) i = Some x -> c_way x = new_service (c_dst x);
    i_over : forall i x, nth_error (conns s) i = Some x -> (c_over x = false <-> live h i (c_dst x) /\ allowed ips (c_dst x));
    i_count : forall k d, exists ns, NoDup ns /\ (forall n, In n ns <-> fails ips h n k d) /\ value (errors s) k d = N.of_nat (length ns) mod 2 ^ 64
  }.

  Lemma wrap a n : counter_add (a mod 2 ^ 64) n = (a + n) mod 2 ^ 64.
  Proof. unfold counter_add. rewrite N.add_mod_idemp_l by (intros H; discriminate H). reflexivity. Qed.
  Lemma live_snoc h e i d : live h i d -> (forall r, e <> Ends i r) -> live (h ++ [e]) i d.
  Proof.
    intros (b & s0 & c & l & a & -> & G & L & C & S & N) He. exists b, s0, c, l, (a ++ [e]). rewrite <- app_assoc. split; [reflexivity|]. split; [exact G|]. split; [exact L|]. split; [exact C|]. split; [exact S|].
    intros r H. apply in_app_iff in H as [H|[H|[]]]; [eapply N; exact H|eapply He; exact H].
  Qed.
  Lemma live_back h e i d : live (h ++ [e]) i d -> live h i d /\ (forall r, e <> Ends i r) \/
      exists s0 c l, e = Gives (Some s0) /\ given h l /\ length l = i /\ connects s0 c d /\ ~ In Shuts_down h.
  Proof.
    intros (b & s0 & c & l & a & E & G & L & C & S & N). destruct (@exists_last _ (Gives (Some s0) :: a)) as (a' & z & Ea); [discriminate|].
    rewrite Ea, app_assoc in E. apply app_inj_tail in E as [E1 E2]. subst z. destruct a' as [|y a'].
    - injection Ea as E1' E2'. subst e a. rewrite app_nil_r in E1. subst b. right. exists s0, c, l. auto 10.
    - injection Ea as E1' E2'. subst y a. left. split.
      + exists b, s0, c, l, a'. split; [exact E1|]. split; [exact G|]. split; [exact L|]. split; [exact C|]. split; [exact S|]. intros r H. eapply N. apply in_app_iff. left. exact H.
      + intros r ->. eapply N. apply in_app_iff. right. left. reflexivity.
  Qed.
  (* the count, when nothing fails at the end, or something does *)
  Lemma count_same h e (v : counters) :
    (forall k d, exists ns, NoDup ns /\ (forall n, In n ns <-> fails ips h n k d) /\ value v k d = N.of_nat (length ns) mod 2 ^ 64) ->
    (forall k d, ~ fails ips (h ++ [e]) (length h) k d) ->
    forall k d, exists ns, NoDup ns /\ (forall n, In n ns <-> fails ips (h ++ [e]) n k d) /\ value v k d = N.of_nat (length ns) mod 2 ^ 64.
  Proof.
    intros I N k d. destruct (I k d) as (ns & ND & H & V). exists ns. split; [exact ND|]. split; [|exact V]. intros n. rewrite H. split.
    - intros F. apply fails_snoc; [eapply fails_lt; exact F|exact F].
    - intros F. pose proof (fails_lt _ _ _ _ _ F) as L. rewrite app_length in L. cbn in L. destruct (Nat.eq_dec n (length h)) as [->|D]; [exfalso; eapply N; exact F|].
      apply fails_snoc in F; [exact F|lia].
  Qed.
  Lemma count_more h e (v : counters) k0 d0 :
    (forall k d, exists ns, NoDup ns /\ (forall n, In n ns <-> fails ips h n k d) /\ value v k d = N.of_nat (length ns) mod 2 ^ 64) ->
    (forall k d, fails ips (h ++ [e]) (length h) k d <-> k = k0 /\ d = d0) ->
    forall k d, exists ns, NoDup ns /\ (forall n, In n ns <-> fails ips (h ++ [e]) n k d) /\ value (incr k0 d0 v) k d = N.of_nat (length ns) mod 2 ^ 64.
  Proof.
    intros I F0 k d. rewrite value_incr. destruct (I k d) as (ns & ND & H & V). destruct (kind_eqb k k0 && addr_eqb d d0) eqn:E.
    - apply andb_true_iff in E as [E1 E2]. apply kind_eqb_eq in E1. apply addr_eqb_eq in E2. subst k0 d0. exists (length h :: ns). split; [|split].
      + constructor; [|exact ND]. intros Hi. apply H in Hi. apply fails_lt in Hi. lia.
      + intros n. cbn [In]. rewrite H. split.
        * intros [<-|F]; [apply F0; auto|]. apply fails_snoc; [eapply fails_lt; exact F|exact F].
        * intros F. pose proof (fails_lt _ _ _ _ _ F) as L. rewrite app_length in L. cbn in L. destruct (Nat.eq_dec n (length h)) as [->|D]; [left; reflexivity|right].
          apply fails_snoc in F; [exact F|lia].
      + rewrite V, wrap. f_equal. cbn [length]. lia.
    - exists ns. split; [exact ND|]. split; [|exact V]. intros n. rewrite H. split.
      + intros F. apply fails_snoc; [eapply fails_lt; exact F|exact F].
      + intros F. pose proof (fails_lt _ _ _ _ _ F) as L. rewrite app_length in L. cbn in L. destruct (Nat.eq_dec n (length h)) as [->|D].
        * exfalso. apply F0 in F as [-> ->]. assert (true = false); [|discriminate]. rewrite <- E. symmetry. apply andb_true_iff. split; [apply kind_eqb_eq|apply addr_eqb_eq]; reflexivity.
        * apply fails_snoc in F; [exact F|lia].
  Qed.
  Lemma fails_end h e k d : fails ips (h ++ [e]) (length h) k d <->
    (exists s0 c, e = Gives (Some s0) /\ connects s0 c d /\ ~ In Shuts_down h /\ ~ allowed ips d /\ k = Unexpected) \/
    (exists i r, e = Ends i (Some r) /\ live h i d /\ allowed ips d /\ counts_as (fst r :: snd r) (Some k)).
  Proof.
    split.
    - intros [s0 c d' E C N A|i r d' k' E V A C]; rewrite at_end in E; rewrite firstn_end in *; injection E as ->; [left|right]; eauto 10.
    - intros [(s0 & c & -> & C & N & A & ->)|(i & r & -> & V & A & C)].
      + eapply Fa_refused; [apply at_end|exact C|rewrite firstn_end; exact N|exact A].
      + eapply Fa_ended; [apply at_end|rewrite firstn_end; exact V|exact A|exact C].
  Qed.
  Lemma live_index h i d l : live h i d -> given h l -> exists c, nth_error l i = Some (c, d).
  Proof.
    intros (b & s0 & c & l0 & a & -> & G0 & L & C & N & _) G. exists c. revert l G i L. 
    induction G0 as [|h|s1 c1 d1 h l1 C1 G1 IH|a1 h l1 N1 G1 IH|c1 r1 h l1 G1 IH]; intros l G i L; cbn [app length] in *.
    - subst i. inversion G as [|h'|s' c' d' h' l' C' G' E|a' h' l' N' G' E|]; subst.
      + cbn. f_equal. eapply connects_fun; eassumption.
      + exfalso. eapply N'; [reflexivity|exact C].
    - exfalso. apply N. left. reflexivity.
    - destruct i as [|i]; [discriminate|]. inversion G as [|h'|s' c' d' h' l' C' G' E|a' h' l' N' G' E|]; subst.
      + cbn [nth_error]. apply (IH (fun H => N (or_intror H)) _ G'). congruence.
      + exfalso. eapply N'; [reflexivity|exact C1].
    - inversion G as [|h'|s' c' d' h' l' C' G' E|a' h' l' N' G' E|]; subst.
      + exfalso. eapply N1; [reflexivity|exact C'].
      + apply (IH (fun H => N (or_intror H)) _ G'). congruence.
    - inversion G as [|h'|s' c' d' h' l' C' G' E|a' h' l' N' G' E|c' r' h' l' G' E]; subst. apply (IH (fun H => N (or_intror H)) _ G'). congruence.
  Qed.

  Lemma step_gives (s : server P) a : step s (Gives a) =
    if accepting s then
      match item a with
      | None => s
      | Some (c, d) => Server true (conns s ++ [Conn c d (new_service d) (negb (check ips d))]) (if check ips d then errors s else monitor_error d invalid_ip (errors s))
      end
    else s.
  Proof.
    cbn [AcceptModel.step]. destruct (accepting s); [|reflexivity]. destruct (item a) as [[c d]|]; [|reflexivity]. unfold AcceptModel.new_service. destruct (check ips d); [|reflexivity].
    destruct (snd d =? proxy_port); reflexivity.
  Qed.
  Lemma invariant h : inv h (run start h).
  Proof.
    induction h as [|e h IH] using rev_ind.
    - split; cbn.
      + split; auto.
      + constructor.
      + intros [|i] x; discriminate.
      + intros [|i] x; discriminate.
      + intros k d. exists []. split; [constructor|]. split; [|reflexivity]. intros n. split; [intros []|]. intros F. apply fails_lt in F. cbn in F. lia.
    - rewrite run_snoc. remember (run start h) as s eqn:Es. clear Es. destruct IH as [I1 I2 I3 I4 I5]. destruct e as [a|i r|].
      + rewrite step_gives. destruct (accepting s) eqn:Ac.
        * assert (Nd : ~ In Shuts_down h) by (apply I1; reflexivity). destruct (item a) as [[c d]|] eqn:It.
          -- destruct a as [s0|]; [|discriminate]. apply connects_iff in It.
             split; cbn [accepting conns errors].
             ++ split; [|reflexivity]. intros _ H. apply in_app_iff in H as [H|[H|[]]]; [auto|discriminate].
             ++ rewrite map_app. cbn [map]. apply given_more; assumption.
             ++ intros i x H. destruct (Nat.lt_ge_cases i (length (conns s))) as [L|L].
                ** rewrite nth_error_app1 in H by exact L. eapply I3. exact H.
                ** rewrite nth_error_app2 in H by exact L. destruct (i - length (conns s))%nat as [|[|]]; cbn in H; try discriminate. injection H as <-. reflexivity.
             ++ intros i x H. destruct (Nat.lt_ge_cases i (length (conns s))) as [L|L].
                ** rewrite nth_error_app1 in H by exact L. rewrite (I4 i x H). split; intros [V A]; split; try exact A.
                   --- apply live_snoc; [exact V|discriminate].
                   --- apply live_back in V as [[V _]|(s1 & c1 & l & E & G & Ln & _)]; [exact V|]. exfalso. pose proof (given_fun _ _ _ G I2) as ->. rewrite map_length in Ln. lia.
                ** rewrite nth_error_app2 in H by exact L. destruct (i - length (conns s))%nat as [|[|]] eqn:Ei; cbn in H; try discriminate. injection H as <-. cbn [c_over c_dst].
                   rewrite negb_false_iff, check_iff. split; [|intros [_ A]; exact A]. intros A. split; [|exact A].
                   exists h, s0, c, (map addrs (conns s)), []. split; [reflexivity|]. split; [exact I2|]. split; [rewrite map_length; lia|]. split; [exact It|]. split; [exact Nd|]. intros r [].
             ++ destruct (check ips d) eqn:Ck.
                ** apply count_same; [exact I5|]. intros k d' F. apply fails_end in F as [(s1 & c1 & E & C & _ & A & _)|(i & r & E & _)]; [|discriminate].
                   injection E as <-. pose proof (connects_fun _ _ _ _ _ It C) as Ec. injection Ec as <- <-. apply A. apply check_iff. exact Ck.
                ** unfold monitor_error, invalid_ip. cbn [fst snd mk]. apply count_more; [exact I5|]. intros k d'. rewrite fails_end. split.
                   --- intros [(s1 & c1 & E & C & _ & A & K)|(i & r & E & _)]; [|discriminate]. injection E as <-. pose proof (connects_fun _ _ _ _ _ It C) as Ec. injection Ec as <- <-. auto.
                   --- intros [-> ->]. left. exists s0, c. split; [reflexivity|]. split; [exact It|]. split; [exact Nd|]. split; [|reflexivity]. rewrite <- check_iff. congruence.
          -- pose proof (proj1 (item_none a) It) as It'. clear It. rename It' into It. split.
             ++ rewrite Ac. split; [|reflexivity]. intros _ H. apply in_app_iff in H as [H|[H|[]]]; [auto|discriminate].
             ++ apply given_none; [exact I2|]. intros s0 c d E. injection E as ->. apply It. reflexivity.
             ++ exact I3.
             ++ intros i x H. rewrite (I4 i x H). split; intros [V A]; split; try exact A.
                ** apply live_snoc; [exact V|discriminate].
                ** apply live_back in V as [[V _]|(s1 & c1 & l & E & G & Ln & C & _)]; [exact V|]. injection E as ->. exfalso. eapply It; [reflexivity|exact C].
             ++ apply count_same; [exact I5|]. intros k d' F. apply fails_end in F as [(s1 & c1 & E & C & _)|(i & r & E & _)]; [|discriminate]. injection E as ->. eapply It; [reflexivity|exact C].
        * assert (Sd : In Shuts_down h).
          { destruct (shut_dec h) as [H|H]; [exact H|]. exfalso. apply I1 in H. discriminate. }
          split.
          -- rewrite Ac. split; [discriminate|]. intros H. exfalso. apply H. apply in_app_iff. left. exact Sd.
          -- apply given_stop; assumption.
          -- exact I3.
          -- intros i x H. rewrite (I4 i x H). split; intros [V A]; split; try exact A.
             ++ apply live_snoc; [exact V|discriminate].
             ++ apply live_back in V as [[V _]|(s1 & c1 & l & E & G & Ln & C & N)]; [exact V|]. contradiction.
          -- apply count_same; [exact I5|]. intros k d' F. apply fails_end in F as [(s1 & c1 & E & C & N & _)|(i & r & E & _)]; [|discriminate]. contradiction.
      + cbn [AcceptModel.step]. destruct (nth_error (conns s) i) as [x|] eqn:Nx; [destruct (c_over x) eqn:Ov|].
        * (* it was over *)
          assert (Nl : forall d, live h i d -> allowed ips d -> False).
          { intros d V A. destruct (live_index _ _ _ _ V I2) as (c & E). rewrite nth_error_map, Nx in E. cbn in E. injection E as _ E. subst d.
            assert (c_over x = false) by (apply (I4 i x Nx); auto). congruence. }
          split.
          -- rewrite I1, in_app_iff. cbn [In]. split; [intros H [H'|[H'|[]]]; [auto|discriminate]|intros H H'; apply H; auto].
          -- apply given_none; [exact I2|]. discriminate.
          -- exact I3.
          -- intros j y H. rewrite (I4 j y H). split; intros [V A]; split; try exact A.
             ++ apply live_snoc; [exact V|]. intros r' E. injection E as -> _. eapply Nl; eassumption.
             ++ apply live_back in V as [[V _]|(s1 & c1 & l & E & _)]; [exact V|discriminate].
          -- apply count_same; [exact I5|]. intros k d' F. apply fails_end in F as [(s1 & c1 & E & C & N & _)|(j & r' & E & V & A & _)]; [discriminate|]. injection E as <- _. eapply Nl; eassumption.
        * (* it ends *)
          assert (Hl : live h i (c_dst x) /\ allowed ips (c_dst x)) by (apply (I4 i x Nx); exact Ov). destruct Hl as [V A].
          assert (Fend : forall k d, fails ips (h ++ [Ends i r]) (length h) k d <-> exists r', r = Some r' /\ counts_as (fst r' :: snd r') (Some k) /\ d = c_dst x).
          { intros k d. rewrite fails_end. split.
            - intros [(s1 & c1 & E & _)|(j & r' & E & V' & A' & C)]; [discriminate|]. injection E as <- ->. exists r'. split; [reflexivity|]. split; [exact C|].
              destruct (live_index _ _ _ _ V' I2) as (c & E). rewrite nth_error_map, Nx in E. cbn in E. injection E as _ E. auto.
            - intros (r' & -> & C & ->). right. exists i, r'. auto. }
          split; cbn [accepting conns errors].
          -- rewrite I1, in_app_iff. cbn [In]. split; [intros H [H'|[H'|[]]]; [auto|discriminate]|intros H H'; apply H; auto].
          -- rewrite over_addrs. apply given_none; [exact I2|]. discriminate.
          -- intros j y H. rewrite over_nth in H. destruct (nth_error (conns s) j) as [y0|] eqn:Ny; [|discriminate]. cbn in H. injection H as <-. destruct (Nat.eqb i j); apply (I3 j y0 Ny).
          -- intros j y H. rewrite over_nth in H. destruct (nth_error (conns s) j) as [y0|] eqn:Ny; [|discriminate]. cbn in H. injection H as <-. destruct (Nat.eqb i j) eqn:E.
             ++ apply Nat.eqb_eq in E. subst j. cbn [c_over c_dst]. split; [discriminate|]. intros [V' _]. apply live_back in V' as [[_ N]|(s1 & c1 & l & E & _)]; [|discriminate]. exfalso. eapply N. reflexivity.
             ++ apply Nat.eqb_neq in E. rewrite (I4 j y0 Ny). split; intros [V' A']; split; try exact A'.
                ** apply live_snoc; [exact V'|]. intros r' E'. injection E' as E' _. contradiction.
                ** apply live_back in V' as [[V' _]|(s1 & c1 & l & E' & _)]; [exact V'|discriminate].
          -- destruct r as [r|].
             ++ unfold monitor_error. destruct (mk (fst r) (snd r)) as [k0|] eqn:M.
                ** apply count_more; [exact I5|]. intros k d. rewrite Fend. split.
                   --- intros (r' & E & C & ->). injection E as <-. apply counts_iff in C. split; congruence.
                   --- intros [-> ->]. exists r. split; [reflexivity|]. split; [apply counts_iff; exact M|reflexivity].
                ** apply count_same; [exact I5|]. intros k d F. apply Fend in F as (r' & E & C & _). injection E as <-. apply counts_iff in C. congruence.
             ++ apply count_same; [exact I5|]. intros k d F. apply Fend in F as (r' & E & _). discriminate.
        * (* there is none *)
          assert (Nl : forall d, ~ live h i d).
          { intros d V. destruct (live_index _ _ _ _ V I2) as (c & E). rewrite nth_error_map, Nx in E. discriminate. }
          split.
          -- rewrite I1, in_app_iff. cbn [In]. split; [intros H [H'|[H'|[]]]; [auto|discriminate]|intros H H'; apply H; auto].
          -- apply given_none; [exact I2|]. discriminate.
          -- exact I3.
          -- intros j y H. rewrite (I4 j y H). split; intros [V A]; split; try exact A.
             ++ apply live_snoc; [exact V|]. intros r' E. injection E as -> _. eapply Nl; eassumption.
             ++ apply live_back in V as [[V _]|(s1 & c1 & l & E & _)]; [exact V|discriminate].
          -- apply count_same; [exact I5|]. intros k d' F. apply fails_end in F as [(s1 & c1 & E & C & N & _)|(j & r' & E & V & A & _)]; [discriminate|]. injection E as <- _. eapply Nl; eassumption.
      + cbn [AcceptModel.step]. split; cbn [accepting conns errors].
        * split; [discriminate|]. intros H. exfalso. apply H. apply in_app_iff. right. left. reflexivity.
        * apply given_none; [exact I2|discriminate].
        * exact I3.
        * intros i x H. rewrite (I4 i x H). split; intros [V A]; split; try exact A.
          -- apply live_snoc; [exact V|discriminate].
          -- apply live_back in V as [[V _]|(s1 & c1 & l & E & _)]; [exact V|discriminate].
        * apply count_same; [exact I5|]. intros k d' F. apply fails_end in F as [(s1 & c1 & E & _)|(i & r & E & _)]; discriminate.
  Qed.

  Theorem each h : given h (map addrs (conns (run start h))).
  Proof. exact (i_given _ _ (invariant h)). Qed.
  Theorem where_to h i x : nth_error (conns (run start h)) i = Some x ->
    match c_way x with
    | Refused => ~ allowed ips (c_dst x)
    | Direct => allowed ips (c_dst x) /\ snd (c_dst x) = proxy_port
    | On p => allowed ips (c_dst x) /\ snd (c_dst x) <> proxy_port /\ p = get_policy (c_dst x)
    end.
  Proof.
    intros H. rewrite (i_way _ _ (invariant h) i x H). unfold AcceptModel.new_service. destruct (check ips (c_dst x)) eqn:E.
    - apply check_iff in E. destruct (snd (c_dst x) =? proxy_port) eqn:E2; [apply N.eqb_eq in E2|apply N.eqb_neq in E2]; auto.
    - rewrite <- check_iff. congruence.
  Qed.
  Theorem goes_on h i x : nth_error (conns (run start h)) i = Some x -> (c_over x = false <-> live h i (c_dst x) /\ allowed ips (c_dst x)).
  Proof. exact (i_over _ _ (invariant h) i x). Qed.
  Theorem counted h k d : exists ns, NoDup ns /\ (forall n, In n ns <-> fails ips h n k d) /\
    value (errors (run start h)) k d = N.of_nat (length ns) mod 2 ^ 64.
  Proof. exact (i_count _ _ (invariant h) k d). Qed.
End Accept.
Theorem same_client a p q d o x4 x6 : a < 2 ^ 32 ->
  connects (Socket o (Some (v4_in_v6 a, p)) x4 x6) q d <-> connects (Socket o (Some (V4 a, p)) x4 x6) q d.
Proof.
  intros L. assert (M : mapped (v4_in_v6 a, p) = mapped (V4 a, p)).
  { transitivity (V4 a, p); [|reflexivity]. apply client_iff. apply Cl_mapped. exact L. }
  rewrite !connects_iff. unfold item. cbn [s_options s_peer]. rewrite M. reflexivity.
Qed.
