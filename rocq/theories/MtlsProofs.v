(** Proofs about mutual TLS (C100, C101, C102, C103). *)
From Coq Require Import List Arith NArith ZArith Bool Lia ZifyBool ZifyNat ZifyN.
From Verif Require Import Bytes BytesProofs NameModel NameSpec NameProofs EndpointModel MtlsModel MtlsSpec.
Import ListNotations.
Open Scope N_scope.
Ltac Zify.zify_post_hook ::= Z.div_mod_to_equations.

(** ** Certificates *)
Lemma id_eq_iff a b : id_eq a b = true <-> a = b.
Proof.
  destruct a as [a|a], b as [b|b]; cbn [id_eq]; rewrite ?beq_eq; split; intros H; try discriminate;
    congruence.
Qed.

Lemma ends_dot s : ends_with [46] (lowers s) = true <-> exists r, s = r ++ [dot].
Proof.
  rewrite ends_with_iff. split; intros [r H].
  - destruct (rev s) as [|c t] eqn:E.
    + apply (f_equal (@rev _)) in E. rewrite rev_involutive in E. subst s. destruct r; discriminate.
    + apply (f_equal (@rev _)) in E. rewrite rev_involutive in E. cbn in E. subst s. exists (rev t). f_equal.
      unfold lowers in H. rewrite map_app in H. cbn in H. apply app_inj_tail in H as [_ H]. f_equal.
      unfold lower in H. destruct (andb _ _) eqn:E2; unfold dot; lia.
  - subst s. exists (lowers r). unfold lowers. now rewrite map_app.
Qed.

Section Lib.
Variable L : lib.

Lemma read_name_iff n i : read_name L n = Some i <-> says L n i.
Proof.
  destruct n as [s|u|]; cbn [read_name].
  - unfold parse_dns_id. destruct (name_from_str s) as [m|] eqn:E.
    + apply name_from_str_spec in E as [Hd ->]. destruct (ends_with [46] (lowers s)) eqn:Ed.
      * apply ends_dot in Ed as [r Hr]. split; [discriminate|]. intros H. inversion H; subst. now destruct (H2 r).
      * split.
        -- intros H; injection H as <-. constructor; [easy| |easy]. intros t Ht.
           assert (ends_with [46] (lowers s) = true) by (apply ends_dot; eauto). congruence.
        -- intros H. inversion H; subst. easy.
    + split; [discriminate|]. intros H. inversion H; subst. assert (name_from_str s = Some (lowers s)) by (apply name_from_str_spec; auto).
      congruence.
  - unfold parse_uri_id. destruct (x_url L u) as [v|] eqn:E.
    + split; [intros H; injection H as <-; now constructor|]. intros H. inversion H; subst. congruence.
    + split; [discriminate|]. intros H. inversion H; subst. congruence.
  - split; [discriminate|]. intros H. inversion H.
Qed.

Lemma read_name_none n : read_name L n = None <-> forall j, ~ says L n j.
Proof.
  split.
  - intros H j Hj. apply read_name_iff in Hj. congruence.
  - intros H. destruct (read_name L n) as [j|] eqn:E; [|easy]. apply read_name_iff in E. now apply H in E.
Qed.

Lemma read_names_in ns i : In i (read_names L ns) <-> exists n, In n ns /\ says L n i.
Proof.
  induction ns as [|n ns IH]; cbn [read_names].
  - split; [easy|intros (n & [] & _)].
  - destruct (read_name L n) as [j|] eqn:E.
    + cbn [In]. rewrite IH. apply read_name_iff in E as E'. split.
      * intros [->|(m & Hm & Hs)]; [exists n; auto|exists m; auto].
      * intros (m & [<-|Hm] & Hs); [left; apply read_name_iff in Hs; congruence|right; eauto].
    + rewrite IH. split; intros (m & Hm & Hs); [exists m; cbn; auto|].
      destruct Hm as [<-|Hm]; [|eauto]. apply read_name_iff in Hs. congruence.
Qed.

Lemma read_names_first ns i l :
  read_names L ns = i :: l ->
  exists before n after, ns = before ++ n :: after /\ says L n i /\ forall m j, In m before -> ~ says L m j.
Proof.
  revert i l. induction ns as [|n ns IH]; cbn [read_names]; intros i l H; [discriminate|].
  destruct (read_name L n) as [j|] eqn:E.
  - injection H as -> _. apply read_name_iff in E. exists [], n, ns. split; [easy|]. split; [easy|]. intros m j [].
  - apply IH in H as (b & m & a & -> & Hs & Hb). exists (n :: b), m, a. split; [easy|]. split; [easy|].
    intros x j [<-|Hx]; [now apply read_name_none|now apply Hb].
Qed.

Lemma read_names_before before n after i :
  says L n i -> (forall m j, In m before -> ~ says L m j) ->
  read_names L (before ++ n :: after) = i :: read_names L after.
Proof.
  intros Hn Hb. induction before as [|m b IH]; cbn [app read_names].
  - apply read_name_iff in Hn. now rewrite Hn.
  - assert (E : read_name L m = None) by (apply read_name_none; intros j; apply Hb; now left).
    rewrite E. apply IH. intros x j Hx. apply Hb. now right.
Qed.

Lemma verify_iff cert i : verify_id L cert i = true <-> certifies L cert i.
Proof.
  unfold verify_id, certifies, has_names, extract_ids.
  destruct (x_parses L cert) eqn:Ep; [destruct (x_names L cert) as [[ns|]|] eqn:En|].
  - rewrite existsb_exists. split.
    + intros (j & Hj & E). apply id_eq_iff in E as <-. apply read_names_in in Hj as (n & Hn & Hs). exists ns, n. auto.
    + intros (ns' & n & (_ & E) & Hn & Hs). injection E as <-. exists i. split; [|now apply id_eq_iff].
      apply read_names_in. eauto.
  - cbn. split; [discriminate|]. intros (ns & n & (_ & E) & _). congruence.
  - cbn. split; [discriminate|]. intros (ns & n & (_ & E) & _). congruence.
  - cbn. split; [discriminate|]. intros (ns & n & (E & _) & _). congruence.
Qed.

Lemma client_identity_iff cert i : client_identity L cert = Some i <-> certifies_first L cert i.
Proof.
  unfold client_identity, certifies_first, has_names, extract_ids.
  destruct (x_parses L cert) eqn:Ep; [destruct (x_names L cert) as [[ns|]|] eqn:En|].
  - split.
    + destruct (read_names L ns) as [|j l] eqn:E; [discriminate|]. intros H; injection H as ->.
      apply read_names_first in E as (b & n & a & -> & Hs & Hb). exists b, n, a. auto.
    + intros (b & n & a & (_ & E) & Hs & Hb). injection E as ->. now rewrite (read_names_before b n a i).
  - split; [discriminate|]. intros (b & n & a & (_ & E) & _). congruence.
  - split; [discriminate|]. intros (b & n & a & (_ & E) & _). congruence.
  - split; [discriminate|]. intros (b & n & a & (E & _) & _). congruence.
Qed.

Lemma first_certifies cert i : certifies_first L cert i -> certifies L cert i.
Proof.
  intros (b & n & a & Hn & Hs & _). exists (b ++ n :: a), n. split; [easy|]. split; [|easy]. apply in_or_app. right. now left.
Qed.

(** ** C100 *)
Theorem client_iff t p now c :
  client_connect L (Some t) p now = Some c <->
  c = Encrypted (p_alpn p) /\ exists leaf, proved (x_trusted_server L) p now leaf /\ certifies L leaf (t_id t).
Proof.
  unfold client_connect, mtls_connect, rustls_connect, proved. destruct (p_chain p) as [|leaf rest] eqn:Ec.
  - split; [discriminate|]. intros (_ & leaf & (rest & E & _) & _). discriminate.
  - destruct (x_trusted_server L leaf rest now) eqn:Et; cbn [andb].
    + destruct (p_proves p) eqn:Ep.
      * destruct (verify_id L leaf (t_id t)) eqn:Ev.
        -- apply verify_iff in Ev. split; [intros H; injection H as <-; split; [easy|]; exists leaf; split; [exists rest; auto|easy]|].
           now intros (-> & _).
        -- split; [discriminate|]. intros (_ & l & (r & E & _) & Hc). injection E as <- <-. apply verify_iff in Hc. congruence.
      * split; [discriminate|]. intros (_ & l & (r & E & _ & H) & Hc). discriminate.
    + split; [discriminate|]. intros (_ & l & (r & E & H & _) & Hc). injection E as <- <-. congruence.
Qed.

Theorem plaintext_iff tls p now : client_connect L tls p now = Some Plaintext <-> tls = None.
Proof.
  destruct tls as [t|]; [|easy]. split; [|discriminate]. intros H. apply client_iff in H as [H _]. discriminate.
Qed.

Theorem server_iff name cfg sni scheme p now i :
  (exists t, server_accept L name cfg sni scheme p now = Some t /\ authenticated_as t = Some i) <->
  sni = Some name /\ cfg <> None /\ scheme = true /\
  exists leaf, proved (x_trusted_client L) p now leaf /\ certifies_first L leaf i.
Proof.
  unfold server_accept, mtls_accept, rustls_accept, peer_identity, proved. split.
  - intros (t & H & Ht). destruct sni as [n|]; [|injection H as <-; discriminate].
    destruct (beq n name) eqn:En; [|injection H as <-; discriminate]. apply beq_eq in En as ->.
    destruct cfg as [c|]; [|discriminate]. destruct scheme; [|discriminate]. cbn [andb] in H.
    destruct (p_chain p) as [|leaf rest]; [injection H as <-; discriminate|].
    destruct (x_trusted_client L leaf rest now) eqn:Et; [|discriminate].
    destruct (p_proves p) eqn:Ep; [|discriminate]. cbn [andb] in H. injection H as <-. cbn [authenticated_as] in Ht.
    apply client_identity_iff in Ht. split; [easy|]. split; [easy|]. split; [easy|]. exists leaf. split; [|easy].
    exists rest. auto.
  - intros (-> & Hc & -> & leaf & (rest & E & Ht & Hp) & Hi). rewrite E, Ht, Hp, beq_refl.
    destruct cfg as [c|]; [|easy]. cbn [andb]. eexists. split; [reflexivity|]. cbn [authenticated_as].
    now apply client_identity_iff.
Qed.

Theorem server_refuses name cfg scheme p now :
  server_accept L name cfg (Some name) scheme p now = None <->
  cfg = None \/ scheme = false \/ (p_chain p <> [] /\ ~ exists leaf, proved (x_trusted_client L) p now leaf).
Proof.
  unfold server_accept, mtls_accept, rustls_accept, proved. rewrite beq_refl. destruct cfg as [c|]; [|tauto].
  destruct scheme; cbn [andb]; [|tauto].
  destruct (p_chain p) as [|leaf rest].
  - split; [discriminate|]. intros [H|[H|[H _]]]; [discriminate|discriminate|now destruct H].
  - destruct (x_trusted_client L leaf rest now) eqn:Et; destruct (p_proves p) eqn:Ep; cbn [andb]; split; try discriminate; intros H.
    + destruct H as [H|[H|[_ H]]]; [discriminate|discriminate|]. destruct H. exists leaf, rest. auto.
    + right. right. split; [easy|]. intros (l & r & E & _ & H'). discriminate.
    + easy.
    + right. right. split; [easy|]. intros (l & r & E & H' & _). injection E as <- <-. congruence.
    + easy.
    + right. right. split; [easy|]. intros (l & r & E & H' & _). injection E as <- <-. congruence.
    + easy.
Qed.

Theorem server_routes name cfg sni scheme p now :
  (server_accept L name cfg sni scheme p now = Some None <-> sni = None) /\
  (forall n, server_accept L name cfg sni scheme p now = Some (Some (Passthru n)) <-> sni = Some n /\ n <> name) /\
  (forall i alpn, server_accept L name cfg sni scheme p now = Some (Some (Established i alpn)) ->
     sni = Some name /\ alpn = p_alpn p).
Proof.
  unfold server_accept, mtls_accept. destruct sni as [m|].
  - destruct (beq m name) eqn:En.
    + apply beq_eq in En as ->. destruct (rustls_accept L cfg scheme p now).
      * split; [easy|]. split.
        -- intros n. split; [discriminate|]. intros [H Hn]. injection H as ->. now destruct Hn.
        -- intros i alpn H. injection H as _ <-. easy.
      * split; [easy|]. split; [|easy]. intros n. split; [discriminate|]. intros [H Hn]. injection H as ->. now destruct Hn.
    + apply beq_neq in En. split; [easy|]. split; [|easy]. intros n. split.
      * intros H; injection H as ->. auto.
      * intros [H _]. now injection H as ->.
  - split; [easy|]. split; [|easy]. intros n. split; [discriminate|]. now intros [H _].
Qed.

(** Two proxies *)
Theorem peers_ok client_cred server_cred client_id server_id name alpn alpn' tls now :
  t_id tls = server_id ->
  x_trusted_server L (cr_leaf server_cred) (cr_intermediates server_cred) now = true ->
  certifies L (cr_leaf server_cred) server_id ->
  x_trusted_client L (cr_leaf client_cred) (cr_intermediates client_cred) now = true ->
  certifies_first L (cr_leaf client_cred) client_id ->
  client_connect L (Some tls) (as_peer server_cred alpn) now = Some (Encrypted alpn) /\
  server_accept L name (Some server_cred) (Some name) true (as_peer client_cred alpn') now =
    Some (Some (Established (Some client_id) alpn')).
Proof.
  intros Hi Hs Hsc Hc Hcc. split.
  - apply client_iff. split; [easy|]. exists (cr_leaf server_cred). rewrite Hi. split; [|easy].
    exists (cr_intermediates server_cred). auto.
  - unfold server_accept, mtls_accept, rustls_accept, as_peer, peer_identity. cbn [p_chain p_proves p_alpn].
    rewrite beq_refl, Hc. cbn [andb]. apply client_identity_iff in Hcc. now rewrite Hcc.
Qed.

(** ** C101 *)
Variable local : id.

Lemma accepts_iff c now : accepts L local c now = true <-> good L local c now.
Proof.
  unfold accepts, validate, good. rewrite !andb_true_iff, verify_iff. tauto.
Qed.

Lemma accepts_false c now : accepts L local c now = false <-> ~ good L local c now.
Proof. rewrite <- accepts_iff. destruct (accepts L local c now); split; congruence. Qed.

Lemma given_exists h : exists l n, given L local h l n.
Proof.
  induction h as [|o h IH] using rev_ind.
  - exists [], 0. constructor.
  - destruct IH as (l & n & H). destruct o as [c now e|now| |].
    + destruct (accepts L local c now) eqn:E.
      * exists (l ++ [(c, e)]), n. constructor; [easy|]. now apply accepts_iff.
      * exists l, (n + 1). constructor; [easy|]. now apply accepts_false.
    + exists l, n. now constructor.
    + exists l, n. now constructor.
    + exists l, n. now constructor.
Qed.

Lemma snoc_inv {A} (h h' : list A) o o' : h ++ [o] = h' ++ [o'] -> h = h' /\ o = o'.
Proof. apply app_inj_tail. Qed.

Lemma given_snoc h o l n :
  given L local (h ++ [o]) l n ->
  exists l' n', given L local h l' n' /\
    match o with
    | Set_certificate c now e =>
        (good L local c now /\ l = l' ++ [(c, e)] /\ n = n') \/ (~ good L local c now /\ l = l' /\ n = n' + 1)
    | _ => l = l' /\ n = n'
    end.
Proof.
  intros H. inversion H as [E|h' l' n' c now e Hg Hc E|h' l' n' c now e Hg Hc E|h' l' n' o' Hg Ho E].
  - now destruct h.
  - apply snoc_inv in E as [-> <-]. exists l', n. split; [easy|]. left. auto.
  - apply snoc_inv in E as [-> <-]. exists l, n'. split; [easy|]. right. auto.
  - apply snoc_inv in E as [-> ->]. exists l, n. split; [easy|]. destruct o as [c now e| | |]; auto. now destruct (Ho c now e).
Qed.

(** The effects that remain of a call *)
Definition todo_of (ks kc : nat) (r : N) (l : list (credential * Z)) (s : store) : Prop :=
  let n := length l in
  (st_todo s = [] /\ kc = n /\ ks = n /\ r = N.of_nat n) \/
  (exists c now e, nth_error l (n - 1) = Some (c, e) /\ (1 <= n)%nat /\
     ((st_todo s = [To_clients c; To_servers c; Ready; Metrics now e] /\ kc = (n - 1)%nat /\ ks = (n - 1)%nat /\ r = N.of_nat (n - 1)) \/
      (st_todo s = [To_servers c; Ready; Metrics now e] /\ kc = n /\ ks = (n - 1)%nat /\ r = N.of_nat (n - 1)) \/
      (st_todo s = [Ready; Metrics now e] /\ kc = n /\ ks = n /\ r = N.of_nat (n - 1)) \/
      (st_todo s = [Metrics now e] /\ kc = n /\ ks = n /\ r = N.of_nat (n - 1)))).

Definition inv (l : list (credential * Z)) (n : N) (s : store) : Prop :=
  exists kc ks ka,
    todo_of ks kc (st_refreshes s) l s /\
    st_client s = latest kc l /\ st_server s = latest ks l /\ st_version s = N.of_nat ks /\
    st_errors s = n /\
    (st_ready s = true -> (1 <= ks)%nat) /\
    (st_ready s = true \/ ks = 0%nat \/ exists todo, st_todo s = Ready :: todo) /\
    st_alpn s = latest ka l /\ (ka <= ks)%nat /\ st_alpn_seen s <= st_version s /\
    (st_alpn_copy s = false -> N.to_nat (st_alpn_seen s) <= ka)%nat /\
    (st_todo s = [] \/ (exists now e, st_todo s = [Metrics now e]) -> (1 <= ks)%nat -> st_ready s = true).

Lemma latest_app k l x : (k <= length l)%nat -> latest k (l ++ x) = latest k l.
Proof. destruct k as [|k]; [easy|]. cbn [latest]. intros H. now rewrite nth_error_app1 by lia. Qed.

Lemma latest_last l c e : nth_error l (length l - 1) = Some (c, e) -> (1 <= length l)%nat -> latest (length l) l = Some c.
Proof.
  intros H Hn. destruct (length l) as [|k] eqn:E; [lia|]. cbn [latest]. replace (S k - 1)%nat with k in H by lia. now rewrite H.
Qed.

Lemma run_inv h s l n : run L local h s -> given L local h l n -> inv l n s.
Proof.
  intros Hr. revert l n. induction Hr as [|h o s s' Hr IH Hs]; intros l n Hg.
  - inversion Hg; subst; try (match goal with H : _ ++ [_] = [] |- _ => now apply app_eq_nil in H end).
    exists 0%nat, 0%nat, 0%nat. cbn. unfold todo_of. cbn. repeat split; auto; try lia; try discriminate.
  - apply given_snoc in Hg as (l' & n' & Hg & Ho). specialize (IH _ _ Hg) as
      (kc & ks & ka & Ht & Hc & Hse & Hv & He & Hre & Hr1 & Ha & Hka & Hseen & Hcopy & Hr2).
    unfold todo_of in Ht. cbv zeta in Ht.
    assert (Hk : (ks <= length l')%nat /\ (kc <= length l')%nat).
    { destruct Ht as [(_ & -> & -> & _)|(c & now & e & _ & _ & [(_ & -> & -> & _)|[(_ & -> & -> & _)|[(_ & -> & -> & _)|(_ & -> & -> & _)]]])]; lia. }
    destruct o as [c now e|now| |]; cbn [step] in Hs.
    + destruct (st_todo s) as [|] eqn:Et; [|discriminate].
      destruct Ht as [(_ & -> & -> & Hf)|(c0 & now0 & e0 & _ & _ & Ht)];
        [|destruct Ht as [(Ht & _)|[(Ht & _)|[(Ht & _)|(Ht & _)]]]; discriminate].
      destruct (accepts L local c now) eqn:Eacc.
      * apply accepts_iff in Eacc. destruct Ho as [(_ & -> & ->)|(Hbad & _)]; [|contradiction].
        injection Hs as <-. exists (length l'), (length l'), ka. unfold todo_of. cbn [st_todo st_client st_server st_version st_ready st_refreshes st_errors st_alpn st_alpn_seen st_alpn_copy].
        rewrite !latest_app by lia. split.
        -- right. exists c, now, e. rewrite app_length. cbn [length]. split; [|split; [lia|]].
           ++ replace (length l' + 1 - 1)%nat with (length l') by lia. rewrite nth_error_app2 by lia.
              now rewrite Nat.sub_diag.
           ++ left. replace (length l' + 1 - 1)%nat with (length l') by lia. auto.
        -- repeat (split; [easy|]). split; [|split; [easy|split; [easy|split; [easy|split; [easy|]]]]].
           ++ destruct Hr1 as [H|[H|[t H]]]; auto. discriminate.
           ++ intros [H|(x & y & H)]; discriminate.
      * apply accepts_false in Eacc. destruct Ho as [(Hgood & _)|(_ & -> & ->)]; [contradiction|].
        injection Hs as <-. exists (length l'), (length l'), ka. unfold todo_of. cbn [st_todo st_client st_server st_version st_ready st_refreshes st_errors st_alpn st_alpn_seen st_alpn_copy].
        split; [left; auto|]. repeat (split; [easy|]). split; [now rewrite He|]. split; [easy|].
        split; [destruct Hr1 as [H|[H|[t H]]]; auto; discriminate|]. repeat (split; [easy|]). intros _. apply Hr2. now left.
    + destruct Ho as [-> ->]. destruct (st_todo s) as [|p todo] eqn:Et; [discriminate|].
      destruct Ht as [(Ht & _)|(c0 & now0 & e0 & Hn & Hlen & Ht)]; [discriminate|].
      assert (Hll := latest_last l' c0 e0 Hn Hlen).
      destruct Ht as [(Ht & -> & -> & Hf)|[(Ht & -> & -> & Hf)|[(Ht & -> & -> & Hf)|(Ht & -> & -> & Hf)]]]; injection Ht as -> ->; injection Hs as <-.
      * exists (length l'), (length l' - 1)%nat, ka. unfold todo_of. cbn [st_todo st_client st_server st_version st_ready st_refreshes st_errors st_alpn st_alpn_seen st_alpn_copy].
        split; [right; exists c0, now0, e0; split; [easy|]; split; [easy|]; right; left; auto|].
        rewrite Hll. repeat (split; [easy|]). split; [destruct Hr1 as [H|[H|[t H]]]; auto; discriminate|].
        repeat (split; [easy|]). intros [H|(x & y & H)]; discriminate.
      * exists (length l'), (length l'), ka. unfold todo_of. cbn [st_todo st_client st_server st_version st_ready st_refreshes st_errors st_alpn st_alpn_seen st_alpn_copy].
        split; [right; exists c0, now0, e0; split; [easy|]; split; [easy|]; right; right; left; auto|].
        rewrite Hll, Hc. split; [easy|]. split; [easy|]. split; [lia|]. split; [easy|]. split; [lia|].
        split; [right; right; eauto|]. split; [easy|]. split; [lia|]. split; [lia|]. split; [easy|].
        intros [H|(x & y & H)]; discriminate.
      * exists (length l'), (length l'), ka. unfold todo_of. cbn [st_todo st_client st_server st_version st_ready st_refreshes st_errors st_alpn st_alpn_seen st_alpn_copy].
        split; [right; exists c0, now0, e0; split; [easy|]; split; [easy|]; right; right; right; auto|].
        repeat (split; [easy|]). split; [now left|]. repeat (split; [easy|]). easy.
      * exists (length l'), (length l'), ka. unfold todo_of. cbn [st_todo st_client st_server st_version st_ready st_refreshes st_errors st_alpn st_alpn_seen st_alpn_copy].
        split; [left; repeat split; lia|].
        repeat (split; [easy|]). split; [destruct Hr1 as [H|[H|[t H]]]; auto; discriminate|]. repeat (split; [easy|]).
        intros _ H. apply Hr2; [|easy]. right. eauto.
    + destruct Ho as [-> ->]. destruct (st_alpn_copy s) eqn:Ecp; [discriminate|].
      destruct (st_alpn_seen s =? st_version s) eqn:Ev; [discriminate|]. injection Hs as <-.
      exists kc, ks, ka. unfold todo_of in *. cbn [st_todo st_client st_server st_version st_ready st_refreshes st_errors st_alpn st_alpn_seen st_alpn_copy].
      repeat (split; [easy|]). easy.
    + destruct Ho as [-> ->]. destruct (st_alpn_copy s) eqn:Ecp; [|discriminate]. injection Hs as <-.
      exists kc, ks, ks. unfold todo_of in *. cbn [st_todo st_client st_server st_version st_ready st_refreshes st_errors st_alpn st_alpn_seen st_alpn_copy].
      repeat (split; [first [easy|lia]|]). first [easy|lia].
Qed.

Theorem versions h s l n :
  run L local h s -> given L local h l n ->
  exists kc ks ka : nat,
    (ka <= ks <= kc)%nat /\ (kc <= ks + 1)%nat /\ (kc <= length l <= kc + 1)%nat /\
    st_client s = latest kc l /\ st_server s = latest ks l /\ st_alpn s = latest ka l /\
    (st_todo s = [] -> ks = length l /\ kc = length l) /\
    (st_alpn_copy s = false -> st_alpn_seen s = st_version s -> ka = ks).
Proof.
  intros Hr Hg. destruct (run_inv h s l n Hr Hg) as (kc & ks & ka & Ht & Hc & Hse & Hv & He & Hre & Hr1 & Ha & Hka & Hseen & Hcopy & Hr2).
  exists kc, ks, ka. unfold todo_of in Ht. cbv zeta in Ht.
  assert (Hk : (ks <= kc)%nat /\ (kc <= ks + 1)%nat /\ (kc <= length l <= kc + 1)%nat /\ (st_todo s = [] -> ks = length l /\ kc = length l)).
  { destruct Ht as [(_ & -> & -> & _)|(c & now & e & _ & Hl & Ht)]; [repeat split; lia|].
    destruct Ht as [(E & -> & -> & _)|[(E & -> & -> & _)|[(E & -> & -> & _)|(E & -> & -> & _)]]]; rewrite E; repeat split; try lia; discriminate. }
  destruct Hk as (H1 & H2 & H3 & H4). repeat (split; [first [easy|lia]|]).
  intros Hcp Heq. specialize (Hcopy Hcp). lia.
Qed.

Lemma given_good h l n c e :
  given L local h l n -> In (c, e) l -> exists now, In (Set_certificate c now e) h /\ good L local c now.
Proof.
  intros H. induction H as [|h l n c' now e' Hg IH Hc|h l n c' now e' Hg IH Hc|h l n o Hg IH Ho]; intros Hin.
  - easy.
  - apply in_app_or in Hin as [Hin|[E|[]]].
    + destruct (IH Hin) as (t & Ht & Hgd). exists t. split; [|easy]. apply in_or_app. now left.
    + injection E as -> ->. exists now. split; [|easy]. apply in_or_app. right. now left.
  - destruct (IH Hin) as (t & Ht & Hgd). exists t. split; [|easy]. apply in_or_app. now left.
  - destruct (IH Hin) as (t & Ht & Hgd). exists t. split; [|easy]. apply in_or_app. now left.
Qed.

Lemma latest_in k l c : latest k l = Some c -> exists e, In (c, e) l.
Proof.
  destruct k as [|k]; [discriminate|]. cbn [latest]. destruct (nth_error l k) as [[x e]|] eqn:E; [|discriminate].
  intros H; injection H as <-. apply nth_error_In in E. eauto.
Qed.

Theorem in_use_good h s c :
  run L local h s -> st_client s = Some c \/ st_server s = Some c \/ st_alpn s = Some c ->
  exists now e, In (Set_certificate c now e) h /\ good L local c now.
Proof.
  intros Hr Hc. destruct (given_exists h) as (l & n & Hg).
  destruct (versions h s l n Hr Hg) as (kc & ks & ka & _ & _ & _ & H1 & H2 & H3 & _).
  assert (H : exists k, latest k l = Some c) by (rewrite H1, H2, H3 in Hc; destruct Hc as [H|[H|H]]; eauto).
  destruct H as (k & H). apply latest_in in H as (e & H). destruct (given_good _ _ _ _ _ Hg H) as (now & Hin & Hgd). eauto.
Qed.

Theorem refused s s' c now e :
  step L local (Set_certificate c now e) s = Some s' -> ~ good L local c now ->
  s' = Store (st_client s) (st_server s) (st_version s) (st_ready s) (st_refreshes s) (st_errors s + 1)
             (st_refresh_ts s) (st_expiry_ts s) [] (st_alpn s) (st_alpn_seen s) (st_alpn_copy s).
Proof.
  cbn [step]. intros H Hg. apply accepts_false in Hg. rewrite Hg in H. destruct (st_todo s); [|discriminate]. now injection H.
Qed.

Theorem ready_set h s : run L local h s -> st_ready s = true -> st_client s <> None /\ st_server s <> None.
Proof.
  intros Hr Hrd. destruct (given_exists h) as (l & n & Hg).
  destruct (run_inv h s l n Hr Hg) as (kc & ks & ka & Ht & Hc & Hse & Hv & He & Hre & _).
  specialize (Hre Hrd). unfold todo_of in Ht. cbv zeta in Ht.
  assert (Hk : (1 <= kc <= length l)%nat /\ (ks <= length l)%nat).
  { destruct Ht as [(_ & -> & -> & _)|(c & now & e & _ & Hl & Ht)]; [lia|].
    destruct Ht as [(E & -> & -> & _)|[(E & -> & -> & _)|[(E & -> & -> & _)|(E & -> & -> & _)]]]; lia. }
  assert (Hl : forall k, (1 <= k <= length l)%nat -> latest k l <> None).
  { intros [|k] Hkl; [lia|]. cbn [latest]. destruct (nth_error l k) as [x|] eqn:E; [discriminate|].
    apply nth_error_None in E. lia. }
  rewrite Hc, Hse. split; apply Hl; lia.
Qed.

Theorem ready_after h s l n :
  run L local h s -> given L local h l n -> st_todo s = [] -> (st_ready s = true <-> l <> []).
Proof.
  intros Hr Hg Ht. destruct (run_inv h s l n Hr Hg) as (kc & ks & ka & Htd & Hc & Hse & Hv & He & Hre & Hr1 & Ha & Hka & Hseen & Hcopy & Hr2).
  unfold todo_of in Htd. cbv zeta in Htd. rewrite Ht in Htd.
  destruct Htd as [(_ & -> & -> & _)|(c & now & e & _ & _ & Htd)];
    [|destruct Htd as [(E & _)|[(E & _)|[(E & _)|(E & _)]]]; discriminate].
  split.
  - intros Hrd ->. specialize (Hre Hrd). cbn in Hre. lia.
  - intros Hl. apply Hr2; [now left|]. destruct l; [easy|cbn; lia].
Qed.

Theorem ready_stays o s s' : step L local o s = Some s' -> st_ready s = true -> st_ready s' = true.
Proof.
  intros H Hr. destruct o as [c now e|now| |]; cbn [step] in H.
  - destruct (st_todo s); [|discriminate]. destruct (accepts L local c now); injection H as <-; easy.
  - destruct (st_todo s) as [|[c|c| |t e] todo]; [discriminate|..]; injection H as <-; easy.
  - destruct (st_alpn_copy s); [discriminate|]. destruct (st_alpn_seen s =? st_version s); [discriminate|]. injection H as <-. easy.
  - destruct (st_alpn_copy s); [|discriminate]. injection H as <-. easy.
Qed.

Theorem no_certificate h s l n name scheme p now :
  run L local h s -> given L local h l n -> l = [] ->
  server_accept L name (st_server s) (Some name) scheme p now = None /\
  server_accept L name (st_alpn s) (Some name) scheme p now = None.
Proof.
  intros Hr Hg ->. destruct (versions h s [] n Hr Hg) as (kc & ks & ka & H1 & H2 & H3 & _ & Hs & Ha & _). cbn [length] in H3.
  assert (ks = 0)%nat as -> by lia. assert (ka = 0)%nat as -> by lia. rewrite Hs, Ha. cbn [latest].
  split; apply server_refuses; now left.
Qed.

Fixpoint last_expiry (acc : Z) (l : list (credential * Z)) : Z :=
  match l with [] => acc | (_, e) :: l => last_expiry (if (0 <=? e)%Z then e else acc) l end.
Lemma last_expiry_app acc l c e : last_expiry acc (l ++ [(c, e)]) = if (0 <=? e)%Z then e else last_expiry acc l.
Proof. revert acc. induction l as [|[c' e'] l IH]; intros acc; cbn [app last_expiry]; auto. Qed.

Lemma firstn_last {A} (l : list A) x : nth_error l (length l - 1) = Some x -> (1 <= length l)%nat -> l = firstn (length l - 1) l ++ [x].
Proof.
  intros H Hl. destruct (rev l) as [|y r] eqn:E.
  - apply (f_equal (@rev _)) in E. rewrite rev_involutive in E. subst l. cbn in Hl. lia.
  - apply (f_equal (@rev _)) in E. rewrite rev_involutive in E. cbn in E. subst l. rewrite app_length in *. cbn [length] in *.
    replace (length (rev r) + 1 - 1)%nat with (length (rev r)) in * by lia.
    rewrite nth_error_app2, Nat.sub_diag in H by lia. injection H as ->. rewrite firstn_app, Nat.sub_diag, firstn_all. cbn. now rewrite app_nil_r.
Qed.

Lemma expiry_inv h s l n :
  run L local h s -> given L local h l n -> st_expiry_ts s = last_expiry 0 (firstn (N.to_nat (st_refreshes s)) l).
Proof.
  intros Hr. revert l n. induction Hr as [|h o s s' Hr IH Hs]; intros l n Hg.
  - now destruct l.
  - apply given_snoc in Hg as (l' & n' & Hg & Ho). specialize (IH _ _ Hg).
    destruct (run_inv h s l' n' Hr Hg) as (kc & ks & ka & Ht & _). unfold todo_of in Ht. cbv zeta in Ht.
    destruct o as [c now e|now| |]; cbn [step] in Hs.
    + destruct (st_todo s) as [|] eqn:Et; [|discriminate].
      destruct Ht as [(_ & -> & -> & Hf)|(c0 & now0 & e0 & _ & _ & Ht)];
        [|destruct Ht as [(Ht & _)|[(Ht & _)|[(Ht & _)|(Ht & _)]]]; discriminate].
      destruct (accepts L local c now) eqn:Eacc.
      * apply accepts_iff in Eacc. destruct Ho as [(_ & -> & ->)|(Hbad & _)]; [|contradiction].
        injection Hs as <-. cbn [st_expiry_ts st_refreshes]. rewrite Hf, Nat2N.id in *. rewrite firstn_app, Nat.sub_diag. cbn [firstn].
        now rewrite app_nil_r.
      * apply accepts_false in Eacc. destruct Ho as [(Hgood & _)|(_ & -> & ->)]; [contradiction|].
        injection Hs as <-. easy.
    + destruct Ho as [-> ->]. destruct (st_todo s) as [|p todo] eqn:Et; [discriminate|].
      destruct Ht as [(Ht & _)|(c0 & now0 & e0 & Hn & Hlen & Ht)]; [discriminate|].
      destruct Ht as [(Ht & -> & -> & Hf)|[(Ht & -> & -> & Hf)|[(Ht & -> & -> & Hf)|(Ht & -> & -> & Hf)]]]; injection Ht as -> ->; injection Hs as <-; try easy.
      cbn [st_expiry_ts st_refreshes]. rewrite IH, Hf. rewrite Nat2N.id.
      replace (N.to_nat (N.of_nat (length l' - 1) + 1)) with (length l') by lia. rewrite firstn_all.
      etransitivity; [|exact (f_equal (last_expiry 0) (eq_sym (firstn_last l' (c0, e0) Hn Hlen)))]. now rewrite last_expiry_app.
    + destruct Ho as [-> ->]. destruct (st_alpn_copy s); [discriminate|].
      destruct (st_alpn_seen s =? st_version s); [discriminate|]. now injection Hs as <-.
    + destruct Ho as [-> ->]. destruct (st_alpn_copy s); [|discriminate]. now injection Hs as <-.
Qed.

Theorem counted h s l n :
  run L local h s -> given L local h l n ->
  st_errors s = n /\
  (st_todo s = [] -> st_refreshes s = N.of_nat (length l) /\
     forall l' c e, l = l' ++ [(c, e)] -> (0 <= e)%Z -> st_expiry_ts s = e).
Proof.
  intros Hr Hg. destruct (run_inv h s l n Hr Hg) as (kc & ks & ka & Htd & Hc & Hse & Hv & He & _).
  split; [easy|]. intros Ht. unfold todo_of in Htd. cbv zeta in Htd. rewrite Ht in Htd.
  destruct Htd as [(_ & _ & _ & Hf)|(c & now & e & _ & _ & Htd)];
    [|destruct Htd as [(E & _)|[(E & _)|[(E & _)|(E & _)]]]; discriminate].
  split; [easy|]. intros l' c e -> He0. rewrite (expiry_inv h s _ n Hr Hg), Hf, Nat2N.id, firstn_all, last_expiry_app.
  apply Z.leb_le in He0. now rewrite He0.
Qed.

(** ** C102 *)
Theorem refresh_iff min max expiry now d :
  refresh_in min max expiry now = Some d <->
  ((expiry < now)%Z /\ d = min) \/
  ((now <= expiry)%Z /\ (7 * (expiry - now) < 2 ^ 64 * 1000000000)%Z /\
   exists l, seven_tenths (expiry - now) l /\
     ((l < min /\ d = min) \/ (min <= l /\ max < l /\ d = max) \/ (min <= l <= max /\ d = l))).
Proof.
  unfold refresh_in, seven_tenths, duration_limit. change (2 ^ 64 * 1000000000)%Z with (18446744073709551616 * 1000000000)%Z.
  destruct (expiry <? now)%Z eqn:E1.
  - split; [intros H; injection H as <-; left; lia|]. intros [(_ & ->)|(H & _)]; [easy|lia].
  - destruct (18446744073709551616 * 1000000000 <=? (expiry - now) * 7)%Z eqn:E2.
    + split; [discriminate|]. intros [(H & _)|(_ & H & _)]; lia.
    + set (l := Z.to_N ((expiry - now) * 7 / 10)).
      assert (Hl : (10 * Z.of_N l <= 7 * (expiry - now) < 10 * (Z.of_N l + 1))%Z).
      { unfold l. rewrite Z2N.id by lia. lia. }
      clearbody l. split.
      * intros H. injection H as <-. right. split; [lia|]. split; [lia|]. exists l. split; [easy|].
        destruct (l <? min) eqn:E3; [left; lia|]. destruct (max <? l) eqn:E4; [right; left; lia|right; right; lia].
      * intros [(H & _)|(_ & _ & l' & Hl' & Hd)]; [lia|]. assert (l' = l) as -> by lia. f_equal.
        destruct (l <? min) eqn:E3; [lia|]. destruct (max <? l) eqn:E4; lia.
Qed.

Theorem refresh_panics min max expiry now :
  refresh_in min max expiry now = None <-> (2 ^ 64 * 1000000000 <= 7 * (expiry - now))%Z.
Proof.
  unfold refresh_in, duration_limit. change (2 ^ 64 * 1000000000)%Z with (18446744073709551616 * 1000000000)%Z.
  destruct (expiry <? now)%Z eqn:E1; [split; [discriminate|lia]|].
  destruct (18446744073709551616 * 1000000000 <=? (expiry - now) * 7)%Z eqn:E2; split; try discriminate; intros; lia || easy.
Qed.

Theorem refresh_bounds min max expiry now d :
  min <= max -> refresh_in min max expiry now = Some d -> min <= d <= max.
Proof.
  intros Hm H. apply refresh_iff in H as [(_ & ->)|(_ & _ & l & _ & [(_ & ->)|[(_ & _ & ->)|(Hl & ->)]])]; lia.
Qed.

Theorem refresh_before min max expiry now d :
  min <= max -> (now < expiry)%Z -> (10 * Z.of_N min <= 7 * (expiry - now))%Z ->
  refresh_in min max expiry now = Some d -> (10 * (now + Z.of_N d) <= 10 * expiry - 3 * (expiry - now))%Z.
Proof.
  intros Hm He Hl H. apply refresh_iff in H as [(H & _)|(_ & _ & l & Hsl & H)]; [lia|].
  unfold seven_tenths in Hsl. destruct H as [(H & ->)|[(_ & H & ->)|(H & ->)]]; lia.
Qed.

Lemma to_time_iff s n t :
  to_time (s, n) = Some t <-> t = (s * 1000000000 + n)%Z /\ (- 2 ^ 63 * 1000000000 <= t < 2 ^ 63 * 1000000000)%Z.
Proof.
  unfold to_time. cbn [fst snd]. change (2 ^ 63)%Z with 9223372036854775808%Z. change (- 9223372036854775808)%Z with (-9223372036854775808)%Z.
  destruct ((-9223372036854775808 * 1000000000 <=? s * 1000000000 + n) && (s * 1000000000 + n <? 9223372036854775808 * 1000000000))%Z eqn:E.
  - split; [intros H; injection H as <-; lia|]. intros (-> & _). easy.
  - split; [discriminate|]. intros (-> & H). lia.
Qed.

Theorem certify_iff key y e :
  certify L local key (y_answer y) (y_now y) = Some e <-> renews L local key y e.
Proof.
  unfold certify, certified, renews. destruct (y_answer y) as [|leaf inter [[s n]|]].
  - split; [discriminate|]. intros (a & b & c & d & H & _). discriminate.
  - destruct (to_time (s, n)) as [t|] eqn:Et.
    + apply to_time_iff in Et as (-> & Hr). destruct (s * 1000000000 + n <=? y_now y)%Z eqn:El.
      * split; [discriminate|]. intros (a & b & c & d & H & -> & _ & Hn & _). injection H as <- <- <- <-. lia.
      * destruct (accepts L local (Credential leaf inter key) (y_now y)) eqn:Ea.
        -- apply accepts_iff in Ea. split.
           ++ intros H; injection H as <-. exists leaf, inter, s, n. repeat (split; [easy|]). split; [lia|easy].
           ++ intros (a & b & c & d & H & -> & _). now injection H as <- <- <- <-.
        -- apply accepts_false in Ea. split; [discriminate|]. intros (a & b & c & d & H & _ & _ & _ & Hg). injection H as <- <- <- <-. contradiction.
    + split; [discriminate|]. intros (a & b & c & d & H & -> & Hr & _). injection H as <- <- <- <-.
      assert (H : to_time (s, n) = Some (s * 1000000000 + n)%Z) by now apply to_time_iff. congruence.
  - split; [discriminate|]. intros (a & b & c & d & H & _). discriminate.
Qed.

Theorem renewed min max key d h e :
  renewals L min max local key d h e -> last_renewed L local key (d_expiry d) h (d_expiry e).
Proof.
  induction 1 as [|h y e e' Hr IH Ha]; [constructor|].
  unfold attempt in Ha. destruct (certify L local key (y_answer y) (y_now y)) as [x|] eqn:E.
  - destruct (refresh_in min max x (y_later y)); [|discriminate]. injection Ha as <-. cbn [d_expiry].
    apply certify_iff in E. eapply Last_renewed; eauto.
  - destruct (refresh_in min max (d_expiry e) (y_later y)); [|discriminate]. injection Ha as <-. cbn [d_expiry].
    apply Last_kept; [easy|]. intros x Hx. apply certify_iff in Hx. congruence.
Qed.

Theorem next_try min max key d h y e :
  min <= max -> renewals L min max local key d (h ++ [y]) e ->
  (Z.of_N min <= d_next e - y_later y <= Z.of_N max)%Z /\
  ((d_expiry e < y_later y)%Z -> d_next e = (y_later y + Z.of_N min)%Z) /\
  ((y_later y < d_expiry e)%Z -> (10 * Z.of_N min <= 7 * (d_expiry e - y_later y))%Z ->
     (10 * d_next e <= 10 * d_expiry e - 3 * (d_expiry e - y_later y))%Z).
Proof.
  intros Hm H. inversion H as [E|h' y' e1 e' Hr Ha E]; [now destruct h|]. apply snoc_inv in E as [-> ->]. subst e'. clear H.
  unfold attempt in Ha. cbv zeta in Ha. set (x := match certify _ _ _ _ _ with Some _ => _ | None => _ end) in Ha. clearbody x.
  destruct (refresh_in min max x (y_later y)) as [s|] eqn:Es; [|discriminate]. injection Ha as <-. cbn [d_expiry d_next].
  split; [apply refresh_bounds in Es; lia|]. split.
  - intros Hx. apply refresh_iff in Es as [(_ & ->)|(H & _)]; lia.
  - intros Hx Hl. apply (refresh_before min max) in Es; [|easy|easy|easy]. lia.
Qed.

Theorem always_valid min max key slack life d h :
  min <= max -> (0 < life)%Z -> (10 * Z.of_N min <= 7 * life)%Z -> (10 * slack < 3 * life)%Z ->
  timely L min max local key slack life d h ->
  (d_next d + slack < d_expiry d)%Z ->
  Forall (fun ye => (y_later (fst ye) < snd ye)%Z) h.
Proof.
  intros Hm Hlife Hl Hs. induction 1 as [d|d y x d' h H1 H2 H3 H4 H5 H6 IH]; intros Hd; [constructor|].
  constructor; [cbn [fst snd]; lia|]. apply IH. unfold attempt in H5. cbv zeta in H5.
  apply certify_iff in H3. rewrite H3 in H5.
  destruct (refresh_in min max x (y_later y)) as [s|] eqn:Es; [|discriminate]. injection H5 as <-. cbn [d_expiry d_next].
  apply (refresh_before min max) in Es; [|easy|lia|lia]. lia.
Qed.

(** ** C103 *)
Lemma find_svid_iff i u s : find_svid i u = Some s <-> own_svid i u s.
Proof.
  unfold own_svid. induction u as [|t u IH]; cbn [find_svid].
  - split; [discriminate|]. intros (a & b & E & _). destruct a; discriminate.
  - destruct (find_svid i u) as [r|] eqn:Ef.
    + split.
      * intros H; injection H as ->. apply proj1 in IH. specialize (IH eq_refl) as (a & b & -> & Hi & Hb). exists (t :: a), b. auto.
      * intros (a & b & E & Hi & Hb). destruct a as [|x a].
        -- injection E as -> ->. exfalso.
           assert (Hx : forall l, find_svid i l = Some r -> In r l /\ sv_id r = i).
           { clear. induction l as [|t l IH]; cbn [find_svid]; [discriminate|]. destruct (find_svid i l) as [q|] eqn:E.
             - intros H; injection H as ->. destruct (IH eq_refl). cbn. auto.
             - destruct (id_eq (sv_id t) i) eqn:Ei; [|discriminate]. intros H; injection H as ->. apply id_eq_iff in Ei. cbn. auto. }
           apply Hx in Ef as [Hin Hid]. now apply (Hb r).
        -- injection E as -> ->. apply IH. eauto.
    + destruct (id_eq (sv_id t) i) eqn:Ei.
      * apply id_eq_iff in Ei. split.
        -- intros H; injection H as ->. exists [], u. split; [easy|]. split; [easy|]. intros q Hq Hqi.
           clear IH. induction u as [|r u IH]; [easy|]. cbn [find_svid] in Ef. destruct (find_svid i u) eqn:Eu; [discriminate|].
           destruct (id_eq (sv_id r) i) eqn:Er; [discriminate|]. destruct Hq as [->|Hq]; [|now apply IH].
           apply id_eq_iff in Hqi. congruence.
        -- intros (a & b & E & Hi & Hb). destruct a as [|x a]; [now injection E as ->|]. injection E as -> ->.
           assert (H : @None svid = Some s) by (apply IH; eauto). discriminate.
      * split; [discriminate|]. intros (a & b & E & Hi & Hb). destruct a as [|x a].
        -- injection E as -> ->. apply id_eq_iff in Hi. congruence.
        -- injection E as -> ->. assert (H : @None svid = Some s) by (apply IH; eauto). discriminate.
Qed.

Theorem process_iff i u c e : process_svid L i u = Some (c, e) <-> sets L i u c e.
Proof.
  unfold process_svid, sets. destruct (find_svid i u) as [s|] eqn:Ef.
  - apply find_svid_iff in Ef as Ho. assert (Hu : forall t, own_svid i u t -> t = s).
    { intros t Ht. apply find_svid_iff in Ht. congruence. }
    destruct (x_parses L (sv_leaf s)) eqn:Ep; [destruct (x_not_after L (sv_leaf s) <? 0)%Z eqn:En|].
    + split; [discriminate|]. intros (t & Ht & _ & _ & H & _). rewrite (Hu t Ht) in H. lia.
    + split.
      * intros H; injection H as <- <-. exists s. repeat (split; [easy|]). split; [lia|easy].
      * intros (t & Ht & -> & _ & _ & ->). now rewrite (Hu t Ht).
    + split; [discriminate|]. intros (t & Ht & _ & H & _). rewrite (Hu t Ht) in H. congruence.
  - split; [discriminate|]. intros (t & Ht & _). apply find_svid_iff in Ht. congruence.
Qed.

Theorem to_svid_iff pb s :
  to_svid L pb = Some s <->
  pbs_key pb <> [] /\ exists v, x_url L (pbs_id pb) = Some v /\ sv_id s = Uri v /\
    pbs_certs pb = Some (sv_leaf s :: sv_intermediates s) /\ sv_key s = pbs_key pb.
Proof.
  unfold to_svid, parse_uri_id. destruct (pbs_key pb) as [|k key] eqn:Ek.
  - split; [discriminate|]. now intros [H _].
  - destruct (pbs_certs pb) as [[|leaf rest]|] eqn:Ec.
    + split; [discriminate|]. intros (_ & v & _ & _ & E & _). discriminate.
    + destruct (x_url L (pbs_id pb)) as [v|] eqn:Ev.
      * split.
        -- intros H; injection H as <-. split; [easy|]. exists v. cbn. auto.
        -- intros (_ & w & E & Hi & Hc & Hk). injection E as <-. destruct s as [i l k' r]. cbn in *. injection Hc as -> ->. now subst.
      * split; [discriminate|]. intros (_ & v & E & _). discriminate.
    + split; [discriminate|]. intros (_ & v & _ & _ & E & _). discriminate.
Qed.

Theorem to_svids_app a b : to_svids L (a ++ b) = to_svids L a ++ to_svids L b.
Proof. induction a as [|x a IH]; cbn [app to_svids]; [easy|]. destruct (to_svid L x); [cbn [app]; now rewrite IH|easy]. Qed.

Theorem to_svids_in pbs s : In s (to_svids L pbs) <-> exists pb, In pb pbs /\ to_svid L pb = Some s.
Proof.
  induction pbs as [|p pbs IH]; cbn [to_svids].
  - split; [easy|]. intros (pb & [] & _).
  - destruct (to_svid L p) as [t|] eqn:E; cbn [In]; rewrite IH; split.
    + intros [->|(pb & H & H')]; eauto.
    + intros (pb & [->|H] & H'); [left; congruence|right; eauto].
    + intros (pb & H & H'); eauto.
    + intros (pb & [->|H] & H'); [congruence|eauto].
Qed.

Definition spire_inv (i : id) (u0 : list svid) (h : list spire_op) (s : spire) : Prop :=
  (In (Update (sp_watch s)) h \/ sp_watch s = u0) /\
  (forall c e, In (c, e) (sp_sets s) -> exists u, (In (Update u) h \/ u = u0) /\ sets L i u c e) /\
  (match sp_seen s with Some v => v <= sp_version s | None => True end) /\
  (sp_seen s = Some (sp_version s) -> forall c e, sets L i (sp_watch s) c e -> exists rest, sp_sets s = (c, e) :: rest).

Lemma spire_run_inv i u0 h s : spire_run L i u0 h s -> spire_inv i u0 h s.
Proof.
  induction 1 as [|h o s s' Hr IH Hs].
  - unfold spire_inv. cbn [sp_watch sp_sets sp_seen sp_version]. split; [now right|]. split; [intros c e []|]. split; [easy|discriminate].
  - destruct IH as (H1 & H2 & H3 & H4). destruct o as [u|]; cbn [spire_step] in Hs.
    + injection Hs as <-. unfold spire_inv. cbn [sp_watch sp_sets sp_seen sp_version]. split; [left; apply in_or_app; right; now left|].
      split; [|split].
      * intros c e Hin. destruct (H2 c e Hin) as (v & [Hv|Hv] & Hsv); exists v; split; auto. left. apply in_or_app. now left.
      * destruct (sp_seen s); [lia|easy].
      * intros E. rewrite E in H3. lia.
    + destruct (match sp_seen s with Some v => v =? sp_version s | None => false end) eqn:Es; [discriminate|]. injection Hs as <-.
      unfold spire_inv. cbn [sp_watch sp_sets sp_seen sp_version]. split; [|split; [|split; [lia|]]].
      * destruct H1 as [H1|H1]; [left; apply in_or_app; now left|now right].
      * intros c e Hin. assert (Hold : In (c, e) (sp_sets s) -> exists u, (In (Update u) (h ++ [Consume]) \/ u = u0) /\ sets L i u c e).
        { intros Hi. destruct (H2 c e Hi) as (v & [Hv|Hv] & Hsv); exists v; split; auto. left. apply in_or_app. now left. }
        destruct (process_svid L i (sp_watch s)) as [[c' e']|] eqn:Ep; [|auto]. destruct Hin as [E|Hin]; [|auto].
        injection E as -> ->. apply process_iff in Ep. exists (sp_watch s). split; [|easy].
        destruct H1 as [H1|H1]; [left; apply in_or_app; now left|now right].
      * intros _ c e Hset. apply process_iff in Hset. rewrite Hset. eauto.
Qed.

Theorem spire_source i u0 h s c e :
  spire_run L i u0 h s -> In (c, e) (sp_sets s) -> exists u, (In (Update u) h \/ u = u0) /\ sets L i u c e.
Proof. intros Hr. apply (spire_run_inv i u0 h s Hr). Qed.

Theorem spire_current i u0 h s c e :
  spire_run L i u0 h s -> sp_seen s = Some (sp_version s) -> sets L i (sp_watch s) c e ->
  exists rest, sp_sets s = (c, e) :: rest.
Proof. intros Hr Hs. apply (spire_run_inv i u0 h s Hr). exact Hs. Qed.

Theorem spire_kept i s s' :
  spire_step L i Consume s = Some s' -> (forall c e, ~ sets L i (sp_watch s) c e) -> sp_sets s' = sp_sets s.
Proof.
  cbn [spire_step]. destruct (match sp_seen s with Some v => v =? sp_version s | None => false end); [discriminate|].
  intros H Hn. injection H as <-. cbn [sp_sets]. destruct (process_svid L i (sp_watch s)) as [[c e]|] eqn:E; [|easy].
  apply process_iff in E. now apply Hn in E.
Qed.

Theorem spire_progress i s :
  sp_seen s <> Some (sp_version s) -> exists s', spire_step L i Consume s = Some s' /\ sp_watch s' = sp_watch s /\ sp_seen s' = Some (sp_version s').
Proof.
  intros H. cbn [spire_step]. destruct (match sp_seen s with Some v => v =? sp_version s | None => false end) eqn:E.
  - destruct (sp_seen s) as [v|]; [|discriminate]. apply N.eqb_eq in E. congruence.
  - eexists. split; [reflexivity|]. easy.
Qed.
End Lib.
