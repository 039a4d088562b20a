(** Proofs about the router of a profile. *)
From Coq Require Import List Arith Bool Lia.
From Verif Require Import ProxyRouterModel ProxyRouterSpec.
Import ListNotations.

Section Router.
  Context {M Req : Type}.
  Variable matches : M -> Req -> bool.
  Implicit Types (p q : received M) (s : router M) (h : list (event M)).

  Lemma run_snoc h : forall s e, run s (h ++ [e]) = step (run s h) e.
  Proof. induction h as [|x h IH]; intros s e; [reflexivity|]. apply IH. Qed.
  Lemma run_app h : forall s h', run s (h ++ h') = run (run s h) h'.
  Proof. induction h as [|x h IH]; intros s h'; [reflexivity|]. apply IH. Qed.

  Lemma get_cons r x ps k : get ((r, x) :: ps) k = if r =? k then Some x else get ps k.
  Proof. unfold get. cbn [find fst]. destruct (r =? k); reflexivity. Qed.
  Lemma get_filter f ps r : (forall x, In (r, x) ps -> f (r, x) = true) -> get (filter f ps) r = get ps r.
  Proof.
    unfold get. induction ps as [|[k x] ps IH]; intros H; [reflexivity|]. cbn [filter find fst].
    destruct (k =? r) eqn:E.
    - apply Nat.eqb_eq in E. subst k. rewrite H by (left; reflexivity). cbn [find fst]. rewrite Nat.eqb_refl. reflexivity.
    - destruct (f (k, x)); cbn [find fst]; rewrite ?E; apply IH; intros y Hy; apply H; right; exact Hy.
  Qed.
  Lemma get_filter_none f ps r : (forall x, f (r, x) = false) -> get (filter f ps) r = None.
  Proof.
    unfold get. intros H. induction ps as [|[k x] ps IH]; [reflexivity|]. cbn [filter]. destruct (f (k, x)) eqn:F; [|exact IH]. cbn [find fst].
    destruct (k =? r) eqn:E; [|exact IH]. apply Nat.eqb_eq in E. subst k. rewrite H in F. discriminate.
  Qed.

  (* what the filling does *)
  Lemma fill_spec rs : forall ps md ps' md', fill rs ps md = (ps', md') ->
    (exists new, md' = md ++ new /\ forall r, In r new -> In r rs /\ get ps r = None) /\
    (forall r x, get ps r = Some x -> get ps' r = Some x) /\
    (forall r, In r rs -> get ps' r <> None) /\
    (forall r, ~ In r rs -> get ps' r = get ps r) /\
    (forall r x, get ps' r = Some x -> get ps r = None -> length md <= x /\ nth_error md' x = Some r).
  Proof.
    induction rs as [|k rs IH]; intros ps md ps' md' H; cbn [fill] in H.
    - injection H as <- <-. split; [exists []; rewrite app_nil_r; split; [reflexivity|intros ? []]|]. split; [auto|]. split; [intros ? []|]. split; [auto|]. congruence.
    - destruct (get ps k) as [y|] eqn:G.
      + destruct (IH _ _ _ _ H) as ((new & E & N) & A & B & C & D). split; [exists new; split; [exact E|]; intros r Hr; destruct (N r Hr); split; [right|]; assumption|].
        split; [exact A|]. split; [|split; [|exact D]].
        * intros r [<-|Hr]; [rewrite (A _ _ G); discriminate|apply B; exact Hr].
        * intros r Hr. apply C. intros Hi. apply Hr. right. exact Hi.
      + destruct (IH _ _ _ _ H) as ((new & E & N) & A & B & C & D). 
        split; [exists (k :: new); split; [rewrite E, <- app_assoc; reflexivity|]|].
        { intros r [<-|Hr]; [split; [left; reflexivity|exact G]|]. destruct (N r Hr) as [N1 N2]. split; [right; exact N1|]. rewrite get_cons in N2. destruct (k =? r); [discriminate|exact N2]. }
        split; [|split; [|split]].
        * intros r x Hx. apply A. rewrite get_cons. destruct (k =? r) eqn:K; [apply Nat.eqb_eq in K; congruence|exact Hx].
        * intros r [<-|Hr]; [|apply B; exact Hr]. rewrite (A k (length md)); [discriminate|]. rewrite get_cons, Nat.eqb_refl. reflexivity.
        * intros r Hr. rewrite C by (intros Hi; apply Hr; right; exact Hi). rewrite get_cons. destruct (k =? r) eqn:K; [|reflexivity].
          apply Nat.eqb_eq in K. exfalso. apply Hr. left. exact K.
        * intros r x Hx Hn. destruct (k =? r) eqn:K.
          -- apply Nat.eqb_eq in K. subst r. assert (x = length md). { specialize (A k (length md)). rewrite get_cons, Nat.eqb_refl in A. specialize (A eq_refl). congruence. }
             subst x. split; [lia|]. rewrite E, <- app_assoc, nth_error_app2, Nat.sub_diag by lia. reflexivity.
          -- destruct (D r x Hx) as [D1 D2]; [rewrite get_cons, K; exact Hn|]. rewrite app_length in D1. cbn in D1. split; [lia|exact D2].
  Qed.

  (* the routes that are read *)
  Lemma known_in p : forall n m r, In (m, r) (known n p) -> n <= r < n + length p /\ exists d, nth_error (map snd p) (r - n) = Some d /\ nth_error (map fst p) (r - n) = Some m.
  Proof.
    induction p as [|[m0 d0] p IH]; intros n m r; [intros []|]. cbn [known In length map]. intros [E|H].
    - injection E as <- <-. split; [lia|]. rewrite Nat.sub_diag. cbn. eauto.
    - destruct (IH _ _ _ H) as [L (d & H1 & H2)]. split; [lia|]. exists d. destruct (r - n) as [|j] eqn:J; [lia|]. replace (r - S n) with j in * by lia. cbn. auto.
  Qed.
  Lemma known_nth_error p : forall n i, nth_error (known n p) i = option_map (fun md => (fst md, n + i)) (nth_error p i).
  Proof.
    induction p as [|[m d] p IH]; intros n [|i]; cbn [known nth_error option_map fst]; try reflexivity; [rewrite Nat.add_0_r; reflexivity|].
    rewrite IH. destruct (nth_error p i); cbn; [|reflexivity]. do 2 f_equal. lia.
  Qed.
  Lemma known_first p req : forall n, match route_for_request matches (known n p) req with
    | None => first_route matches p req None
    | Some r => exists d, n <= r /\ nth_error (map snd p) (r - n) = Some d /\ first_route matches p req (Some d)
    end.
  Proof.
    induction p as [|[m d] p IH]; intros n; cbn [known route_for_request]; [apply F_none; intros ? ? []|].
    destruct (matches m req) eqn:E.
    - exists d. split; [lia|]. rewrite Nat.sub_diag. split; [reflexivity|]. apply (F_some matches [] m d p req); [intros ? ? []|exact E].
    - specialize (IH (S n)). destruct (route_for_request matches (known (S n) p) req) as [r|].
      + destruct IH as (d' & L & H1 & H2). exists d'. split; [lia|]. split; [destruct (r - n) as [|j] eqn:J; [lia|]; replace (r - S n) with j in * by lia; exact H1|].
        inversion H2 as [|a m1 d1 b req1 Ha Hm1 Ep Er Ed]; subst. apply (F_some matches ((m, d) :: a) m1 d' b req); [|exact Hm1].
        intros m' d0 [E0|Hi]; [injection E0 as <- <-; exact E|]. eapply Ha. exact Hi.
      + inversion IH; subst. apply F_none. intros m' d' [E0|Hi]; [injection E0 as <- <-; exact E|eauto].
  Qed.

  (* [q] was read as [l], when [n] routes had been read before *)
  Definition read_as s q l : Prop := exists n, l = known n q /\ n + length q <= length (read s) /\ forall i d, nth_error (map snd q) i = Some d -> nth_error (read s) (n + i) = Some d.
  Record inv p h s : Prop := {
    i_latest : exists q, latest p h q /\ read_as s q (rx_value s);
    i_in_use : exists q, in_use p h q /\ read_as s q (http_routes s);
    i_told : rx_told s = true -> rx_value s = http_routes s /\ exists q, latest p h q /\ in_use p h q /\ read_as s q (rx_value s);
    i_have : forall m r, In (m, r) (http_routes s) -> get (proxies s) r <> None;
    i_made : forall r x, get (proxies s) r = Some x -> nth_error (made s) x = Some r;
    i_only : forall r, get (proxies s) r <> None -> exists m, In (m, r) (http_routes s)
  }.
  Lemma in_use_other p h e q : e <> Polls Ready -> in_use p h q -> in_use p (h ++ [e]) q.
  Proof.
    intros He [h0 Hn|a b q0 L Hn].
    - apply Us_none. rewrite in_app_iff. intros [H|[H|[]]]; [auto|congruence].
    - rewrite <- app_assoc. cbn [app]. apply Us_ready; [exact L|]. rewrite in_app_iff. intros [H|[H|[]]]; [auto|congruence].
  Qed.
  Lemma read_as_more s q l x : read_as s q l -> forall s', read s' = read s ++ x -> read_as s' q l.
  Proof.
    intros (n & E & L & H) s' R. exists n. split; [exact E|]. rewrite R, app_length. split; [lia|]. intros i d Hi. specialize (H i d Hi).
    rewrite nth_error_app1; [exact H|]. apply nth_error_Some. congruence.
  Qed.
  Lemma read_as_same s q l s' : read_as s q l -> read s' = read s -> read_as s' q l.
  Proof. intros H E. apply (read_as_more s q l []); [exact H|]. rewrite app_nil_r. exact E. Qed.

  Lemma invariant p h : inv p h (run (new_service p) h).
  Proof.
    induction h as [|e h IH] using rev_ind.
    - split; cbn [run new_service rx_value http_routes rx_told proxies made].
      + exists p. split; [constructor|]. exists 0. split; [reflexivity|]. cbn [read new_service]. rewrite map_length. split; [lia|]. intros i d H. exact H.
      + exists []. split; [apply Us_none; intros []|]. exists 0. split; [reflexivity|]. cbn [length]. split; [lia|]. intros i d H. destruct i; discriminate.
      + discriminate.
      + intros ? ? [].
      + discriminate.
      + intros r H. exfalso. apply H. reflexivity.
    - rewrite run_snoc. remember (run (new_service p) h) as s eqn:Es. clear Es. destruct IH as [I1 I2 I3 I4 I5 I6].
      destruct e as [q| |r]; cbn [step].
      + split; cbn [rx_value http_routes rx_told proxies made]; try assumption; try discriminate.
        * exists q. split; [apply La_update|]. exists (length (read s)). split; [reflexivity|]. cbn [read]. rewrite app_length, map_length. split; [lia|].
          intros i d Hi. rewrite nth_error_app2 by lia. replace (length (read s) + i - length (read s)) with i by lia. exact Hi.
        * destruct I2 as (q0 & U & R). exists q0. split; [apply in_use_other; [discriminate|exact U]|]. eapply read_as_more; [exact R|reflexivity].
      + assert (He : forall q', @Closes M <> Updates q') by discriminate. assert (Hp : @Closes M <> Polls Ready) by discriminate.
        split; try assumption.
        * destruct I1 as (q & L & R). exists q. split; [apply La_same; assumption|exact R].
        * destruct I2 as (q & L & R). exists q. split; [apply in_use_other; assumption|exact R].
        * intros T. destruct (I3 T) as [E (q & L & U & R)]. split; [exact E|]. exists q. split; [apply La_same; assumption|]. split; [apply in_use_other; assumption|exact R].
      + assert (He : forall q', Polls r <> @Updates M q') by discriminate.
        destruct (match r with Ready => true | _ => false end) eqn:Er.
        * assert (r = Ready) by (destruct r; congruence). subst r. unfold update. destruct (rx_told s) eqn:T.
          -- destruct (I3 eq_refl) as [E (q & L & U & R)]. split; try assumption.
             ++ exists q. split; [apply La_same; assumption|exact R].
             ++ exists q. rewrite <- E. split; [apply Us_ready; [exact L|intros []]|exact R].
             ++ intros _. split; [exact E|]. exists q. split; [apply La_same; assumption|]. split; [apply Us_ready; [exact L|intros []]|exact R].
          -- destruct (fill _ _ _) as [ps md] eqn:F. destruct I1 as (q & L & R). apply fill_spec in F as ((new & Emd & Nn) & A & B & C & D).
             split; cbn [rx_value http_routes rx_told proxies made].
             ++ exists q. split; [apply La_same; assumption|]. eapply read_as_same; [exact R|reflexivity].
             ++ exists q. split; [apply Us_ready; [exact L|intros []]|]. eapply read_as_same; [exact R|reflexivity].
             ++ intros _. split; [reflexivity|]. exists q. split; [apply La_same; assumption|]. split; [apply Us_ready; [exact L|intros []]|]. eapply read_as_same; [exact R|reflexivity].
             ++ intros m r Hr. apply B. apply in_map_iff. exists (m, r). auto.
             ++ intros r x Hx. destruct (get (filter (fun z : nat * nat => existsb (Nat.eqb (fst z)) (map snd (rx_value s))) (proxies s)) r) as [y|] eqn:G.
                ** pose proof (A _ _ G) as G'. assert (y = x) by congruence. subst y. rewrite Emd.
                   assert (Hm : nth_error (made s) x = Some r).
                   { apply I5. rewrite <- G. symmetry. destruct (in_dec Nat.eq_dec r (map snd (rx_value s))) as [Hi|Hi].
                     - apply get_filter. intros z _. apply existsb_exists. exists r. split; [exact Hi|apply Nat.eqb_refl].
                     - exfalso. rewrite get_filter_none in G; [discriminate|]. intros z. destruct (existsb _ _) eqn:Ex; [|reflexivity].
                       apply existsb_exists in Ex as (k & Hk & Ek). apply Nat.eqb_eq in Ek. cbn in Ek. subst k. contradiction. }
                   rewrite nth_error_app1; [exact Hm|]. apply nth_error_Some. congruence.
                ** destruct (D r x Hx G) as [_ D2]. exact D2.
             ++ intros r Hr. destruct (in_dec Nat.eq_dec r (map snd (rx_value s))) as [Hi|Hi].
                ** apply in_map_iff in Hi as ([m r'] & E & Hi). cbn in E. subst r'. eauto.
                ** exfalso. apply Hr. rewrite C by exact Hi. apply get_filter_none. intros z. destruct (existsb _ _) eqn:Ex; [|reflexivity].
                   apply existsb_exists in Ex as (k & Hk & Ek). apply Nat.eqb_eq in Ek. cbn in Ek. subst k. contradiction.
        * assert (Hp : Polls r <> @Polls M Ready) by (intros H; injection H as ->; discriminate).
          replace (match r with Ready => update s | _ => s end) with s by (destruct r; congruence).
          split; try assumption.
          -- destruct I1 as (q & L & R). exists q. split; [apply La_same; assumption|exact R].
          -- destruct I2 as (q & L & R). exists q. split; [apply in_use_other; assumption|exact R].
          -- intros T. destruct (I3 T) as [E (q & L & U & R)]. split; [exact E|]. exists q. split; [apply La_same; assumption|]. split; [apply in_use_other; assumption|exact R].
  Qed.

  Lemma route_in rs req r : route_for_request matches rs req = Some r -> exists m, In (m, r) rs.
  Proof.
    induction rs as [|[m r0] rs IH]; cbn [route_for_request]; [discriminate|]. destruct (matches m req).
    - intros H. injection H as ->. exists m. left. reflexivity.
    - intros H. destruct (IH H) as (m' & Hi). exists m'. right. exact Hi.
  Qed.
  Lemma latest_fun p h q q' : latest p h q -> latest p h q' -> q = q'.
  Proof.
    intros L. revert q'. induction L as [|h q|h e q N L IH]; intros q' L'.
    - inversion L' as [|h0 q0 E|h0 e q0 N0 L0 E]; [reflexivity| |]; exfalso; clear - E; destruct h0; discriminate.
    - inversion L' as [E|h0 q0 E|h0 e q0 N0 L0 E].
      + exfalso. clear - E. destruct h; discriminate.
      + apply app_inj_tail in E as [_ E]. congruence.
      + apply app_inj_tail in E as [_ E]. exfalso. eapply N0. exact E.
    - inversion L' as [E|h0 q0 E|h0 e0 q0 N0 L0 E].
      + exfalso. clear - E. destruct h; discriminate.
      + apply app_inj_tail in E as [_ E]. exfalso. eapply N. symmetry. exact E.
      + apply app_inj_tail in E as [-> ->]. apply IH. assumption.
  Qed.
  Lemma last_ready (a b a' b' : list (event M)) : a ++ Polls Ready :: b = a' ++ Polls Ready :: b' -> ~ In (Polls Ready) b -> ~ In (Polls Ready) b' -> a = a'.
  Proof.
    revert a'. induction a as [|x a IH]; intros [|y a'] E Nb Nb'; cbn [app] in E.
    - reflexivity.
    - injection E as _ E. exfalso. apply Nb. rewrite E. apply in_app_iff. right. left. reflexivity.
    - injection E as _ E. exfalso. apply Nb'. rewrite <- E. apply in_app_iff. right. left. reflexivity.
    - injection E as -> E. f_equal. apply (IH _ E Nb Nb').
  Qed.
  Lemma in_use_fun p h q q' : in_use p h q -> in_use p h q' -> q = q'.
  Proof.
    intros [h0 N|a b q0 L N] U'.
    - inversion U' as [h1 N1|a b q1 L1 N1 E]; [reflexivity|]. exfalso. apply N. rewrite <- E. apply in_app_iff. right. left. reflexivity.
    - inversion U' as [h1 N1 E|a1 b1 q1 L1 N1 E].
      + exfalso. apply N1. apply in_app_iff. right. left. reflexivity.
      + apply last_ready in E; [|assumption|assumption]. subst a1. eapply latest_fun; eassumption.
  Qed.

  Theorem routed p h q req : in_use p h q ->
    match call matches (run (new_service p) h) req with
    | Direct => first_route matches q req None
    | Through x => exists d, first_route matches q req (Some d) /\ proxy_for (run (new_service p) h) x d
    | Panics => False
    end.
  Proof.
    intros U. destruct (invariant p h) as [I1 I2 I3 I4 I5 I6]. destruct I2 as (q' & U' & (n & E & L & R)).
    assert (q' = q) by (eapply in_use_fun; eassumption). subst q'. unfold call. pose proof (known_first q req n) as K. rewrite <- E in K.
    destruct (route_for_request matches (http_routes (run (new_service p) h)) req) as [r|] eqn:F; [|exact K].
    destruct K as (d & Ln & Hd & Hf). destruct (route_in _ _ _ F) as (m & Hm). destruct (get (proxies (run (new_service p) h)) r) as [x|] eqn:G; [|exact (I4 m r Hm G)].
    exists d. split; [exact Hf|]. exists r. split; [apply I5; exact G|]. specialize (R _ _ Hd). replace (n + (r - n)) with r in R by lia. exact R.
  Qed.
  Theorem always p h : exists q, in_use p h q.
  Proof. destruct (i_in_use _ _ _ (invariant p h)) as (q & U & _). eauto. Qed.
  Theorem first_fun q req a b : first_route matches q req a -> first_route matches q req b -> a = b.
  Proof.
    intros [rs rq N|x m d y rq N Hm] H2.
    - inversion H2 as [|x m d y rq' N' Hm' E]; [reflexivity|]. subst. specialize (N m d). rewrite N in Hm'; [discriminate|]. apply in_app_iff. right. left. reflexivity.
    - inversion H2 as [rs rq' N' E|x' m' d' y' rq' N' Hm' E]; subst.
      + rewrite (N' m d) in Hm; [discriminate|]. apply in_app_iff. right. left. reflexivity.
      + f_equal. clear H2. revert x' E N'. induction x as [|[m1 d1] x IH]; intros [|[m2 d2] x'] E N'; cbn [app] in E.
        * congruence.
        * injection E as E1 E2 _. subst m2 d2. rewrite (N' m d) in Hm; [discriminate|]. left. reflexivity.
        * injection E as E1 E2 _. subst m1 d1. rewrite (N m' d') in Hm'; [discriminate|]. left. reflexivity.
        * injection E as E1 E2 E. subst. eapply IH; [|exact E|]; [intros m0 d0 Hi; eapply N; right; exact Hi|intros m0 d0 Hi; eapply N'; right; exact Hi].
  Qed.

  (* without an update nothing changes *)
  Lemma same_value h : forall s, no_update h -> rx_value (run s h) = rx_value s /\ read (run s h) = read s.
  Proof.
    induction h as [|e h IH]; intros s N; [split; reflexivity|]. cbn [run]. destruct (IH (step s e)) as [A B]; [intros q Hq; apply (N q); right; exact Hq|].
    rewrite A, B. destruct e as [q| |[]]; cbn [step]; try (split; reflexivity).
    - exfalso. apply (N q). left. reflexivity.
    - unfold update. destruct (rx_told s); [split; reflexivity|]. destruct (fill _ _ _). split; reflexivity.
  Qed.
  Lemma told_stays h : forall s, no_update h -> rx_told s = true -> run s h = s.
  Proof.
    induction h as [|e h IH]; intros s N T; [reflexivity|]. cbn [run].
    assert (E : step s e = s).
    { destruct e as [q| |[]]; cbn [step]; try reflexivity; [exfalso; apply (N q); left; reflexivity|]. unfold update. rewrite T. reflexivity. }
    rewrite E. apply IH; [|exact T]. intros q Hq. apply (N q). right. exact Hq.
  Qed.
  Theorem kept p h h' req : no_update h' ->
    call matches (run (new_service p) (h ++ [Polls Ready])) req = call matches (run (new_service p) (h ++ [Polls Ready] ++ h')) req.
  Proof.
    intros N. rewrite app_assoc, (run_app (h ++ [Polls Ready])). rewrite (told_stays h'); [reflexivity|exact N|].
    rewrite run_snoc. cbn [step]. unfold update. destruct (rx_told (run (new_service p) h)) eqn:T; [exact T|]. destruct (fill _ _ _). reflexivity.
  Qed.

  (* an update makes all proxies anew *)
  Lemma bound p h : forall m r, In (m, r) (http_routes (run (new_service p) h)) -> r < length (read (run (new_service p) h)).
  Proof.
    intros m r Hi. destruct (i_in_use _ _ _ (invariant p h)) as (q & _ & (n & E & L & _)). rewrite E in Hi. apply known_in in Hi as [Hr _]. lia.
  Qed.
  Lemma update_after s q ps md : fill (map snd (known (length (read s)) q)) [] (made s) = (ps, md) ->
    (forall r x, get (proxies s) r = Some x -> r < length (read s)) ->
    http_routes (run s [Updates q; Polls Ready]) = known (length (read s)) q /\ proxies (run s [Updates q; Polls Ready]) = ps.
  Proof.
    intros F H. cbn [run step]. unfold update. cbn [rx_told rx_value proxies made http_routes].
    assert (E : filter (fun z : nat * nat => existsb (Nat.eqb (fst z)) (map snd (known (length (read s)) q))) (proxies s) = []).
    { assert (K : forall k x, In (k, x) (proxies s) -> k < length (read s)).
      { intros k x Hi. unfold get in H. assert (G : exists y, find (fun z : nat * nat => fst z =? k) (proxies s) = Some y).
        { destruct (find (fun z : nat * nat => fst z =? k) (proxies s)) as [y|] eqn:Ef; [eauto|]. exfalso. pose proof (find_none _ _ Ef _ Hi) as Z. cbn in Z. rewrite Nat.eqb_refl in Z. discriminate. }
        destruct G as (y & G). apply (H k (snd y)). rewrite G. reflexivity. }
      clear - K. induction (proxies s) as [|[k x] l IH]; [reflexivity|]. cbn [filter fst].
      destruct (existsb _ _) eqn:Ex.
      - exfalso. apply existsb_exists in Ex as (r & Hr & Er). apply Nat.eqb_eq in Er. subst r. apply in_map_iff in Hr as ([m r] & Em & Hr). cbn in Em. subst r.
        apply known_in in Hr as [Hr _]. specialize (K k x). assert (k < length (read s)) by (apply K; left; reflexivity). lia.
      - apply IH. intros k0 x0 Hi. apply (K k0 x0). right. exact Hi. }
    rewrite E, F. split; reflexivity.
  Qed.
  Theorem anew p h q req x y :
    call matches (run (new_service p) h) req = Through x ->
    call matches (run (new_service p) (h ++ [Updates q; Polls Ready])) req = Through y -> x <> y.
  Proof.
    intros Hx Hy. rewrite run_app in Hy. pose proof (invariant p h) as I. pose proof (bound p h) as Bd. remember (run (new_service p) h) as s eqn:Es. clear Es.
    destruct (fill (map snd (known (length (read s)) q)) [] (made s)) as [ps md] eqn:F.
    destruct (update_after s q ps md F) as [E1 E2].
    { intros r z Hz. destruct (i_only _ _ _ I r) as (m & Hm); [congruence|]. eapply Bd. exact Hm. }
    unfold call in Hx, Hy. rewrite E1, E2 in Hy.
    destruct (route_for_request matches (http_routes s) req) as [r|]; [|discriminate]. destruct (get (proxies s) r) as [x'|] eqn:Gx; [|discriminate]. injection Hx as ->.
    destruct (route_for_request matches (known (length (read s)) q) req) as [r'|]; [|discriminate]. destruct (get ps r') as [y'|] eqn:Gy; [|discriminate]. injection Hy as ->.
    apply fill_spec in F as (_ & _ & _ & _ & D). destruct (D r' y Gy eq_refl) as [D1 _].
    pose proof (i_made _ _ _ I r x Gx) as Mx. assert (x < length (made s)) by (apply nth_error_Some; congruence). lia.
  Qed.
  Theorem no_leak p h : forall r, get (proxies (run (new_service p) h)) r <> None <-> exists m, In (m, r) (http_routes (run (new_service p) h)).
  Proof.
    intros r. destruct (invariant p h) as [I1 I2 I3 I4 I5 I6]. split; [apply I6|]. intros (m & Hm). exact (I4 m r Hm).
  Qed.
End Router.
