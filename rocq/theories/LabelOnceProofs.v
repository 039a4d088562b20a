(** Which series are on the page, and that each is there once. *)
From Coq Require Import String List NArith Bool Lia.
From Verif Require GatewayProofs.
From Verif Require Import Bytes BytesProofs NameModel GatewayModel DnsModel EndpointModel PolicyStoreModel HistogramModel
  LabelModel LabelSpec LabelReadProofs LabelProofs.
Import ListNotations.
Open Scope N_scope.

Lemma nodup_flat_map {A B I} (key : A -> I) (f : A -> list B) xs :
  NoDup (map key xs) -> (forall a, In a xs -> NoDup (f a)) ->
  (forall a b x, In a xs -> In b xs -> In x (f a) -> In x (f b) -> key a = key b) -> NoDup (flat_map f xs).
Proof.
  induction xs as [|a xs IH]; intros D H S; [constructor|]. cbn [flat_map]. cbn [map] in D. inversion D as [|? ? N D']; subst.
  assert (R : NoDup (flat_map f xs)).
  { apply IH; [exact D'| |]; intros; [apply H; now right|]. eapply S; try (right; eassumption); eassumption. }
  assert (A1 : NoDup (f a)) by (apply H; now left).
  assert (X : forall x, In x (f a) -> ~ In x (flat_map f xs)).
  { intros x I1 I2. apply in_flat_map in I2 as (b & B1 & B2). apply N.
    rewrite (S a b x); [now apply in_map|now left|now right|assumption|assumption]. }
  revert A1 X. generalize (f a) as ys. induction ys as [|y ys IHy]; intros A1 X; [exact R|]. cbn [app].
  inversion A1; subst. constructor.
  - intros I1. apply in_app_iff in I1 as [I1|I1]; [easy|]. apply (X y); [now left|exact I1].
  - apply IHy; [assumption|]. intros x I1. apply X. now right.
Qed.

Lemma nodup_map_key {A B I} (key : A -> I) (f : A -> B) xs :
  NoDup (map key xs) -> (forall a b, In a xs -> In b xs -> f a = f b -> key a = key b) -> NoDup (map f xs).
Proof.
  intros D H. assert (E : forall ys, map f ys = flat_map (fun a => [f a]) ys) by (induction ys; cbn; congruence). rewrite E.
  apply (nodup_flat_map key); [exact D| |].
  - intros. repeat constructor. easy.
  - intros a b x A1 B1 [<-|[]] [E2|[]]. apply H; congruence.
Qed.

Lemma app_same_length {A} (a b a' b' : list A) : List.length b = List.length b' -> a ++ b = a' ++ b' -> a = a' /\ b = b'.
Proof.
  revert a'. induction a as [|x a IH]; intros [|y a'] L E; cbn in E.
  - easy.
  - exfalso. subst. cbn in L. rewrite app_length in L. lia.
  - exfalso. subst. cbn in L. rewrite app_length in L. lia.
  - injection E as -> E. destruct (IH a' L E) as [-> ->]. easy.
Qed.

Lemma cons_inv (k v k' v' : bytes) (t t' : list pair) : (k, v) :: t = (k', v') :: t' -> k = k' /\ v = v' /\ t = t'.
Proof. intros H. now injection H. Qed.

Lemma to_dec_inj a b : to_dec a = to_dec b -> a = b.
Proof. intros H. apply (f_equal (dec_value 0)) in H. now rewrite !to_dec_value in H. Qed.

(* ---- good labels ---- *)

Lemma clean_app a b : clean a -> clean b -> clean (a ++ b).
Proof. intros. apply Forall_app. easy. Qed.
Lemma clean_dec v : clean (to_dec v).
Proof.
  pose proof (to_dec_digits v) as D. rewrite forallb_forall in D. apply Forall_forall. intros c H. apply D in H.
  unfold is_digit in H. repeat split; intros ->; discriminate H.
Qed.
Lemma clean_undot n : clean n -> clean (without_trailing_dot n).
Proof.
  intros C. destruct (GatewayProofs.trim_prefix 46 n) as [r E]. unfold without_trailing_dot. unfold clean in *.
  rewrite E in C. now apply Forall_app in C.
Qed.
Lemma clean_const s : forallb (fun c => negb ((c =? 34) || (c =? 92) || (c =? 10))) s = true -> clean s.
Proof.
  intros H. rewrite forallb_forall in H. apply Forall_forall. intros c I. apply H in I.
  rewrite negb_true_iff, !orb_false_iff, !N.eqb_neq in I. tauto.
Qed.
Lemma good_l k v : word (bs k) = true -> clean v -> good (l k v).
Proof. split; assumption. Qed.

Ltac lc := apply good_l; [reflexivity|first [assumption | apply clean_const; reflexivity | apply clean_dec | idtac]].
Ltac lcs := repeat (constructor; [lc|]); try constructor.

Lemma good_direction d : Forall good (direction_pairs d).
Proof. destruct d; lcs. Qed.
Lemma good_client_tls t : clean_client_tls t -> Forall good (client_tls_pairs t).
Proof. destruct t; cbn [clean_client_tls client_tls_pairs]; intros; try unfold no_tls; lcs. Qed.
Lemma good_server_tls t : clean_server_tls t -> Forall good (server_tls_pairs t).
Proof.
  destruct t as [| | | |c|s]; cbn [clean_server_tls server_tls_pairs]; intros; try unfold no_tls; lcs.
  destruct c; [assumption|constructor].
Qed.
Lemma good_server m p : clean_meta m -> Forall good (server_pairs m p).
Proof. intros (A & B & C). unfold server_pairs. lcs. Qed.
Lemma good_policy p : clean_meta (p_server p) -> clean_meta (p_route p) -> clean_meta (p_authz p) -> Forall good (policy_pairs p).
Proof.
  intros S (A1 & A2 & A3) (B1 & B2 & B3). apply Forall_app. split; [now apply good_server|]. lcs.
Qed.
Lemma good_authority a : clean_opt a -> Forall good (authority_pairs a).
Proof. destruct a; cbn; intros; lcs. Qed.
Lemma good_prefixed prefix ls : word (prefix ++ [95]) = true -> clean_labels ls -> Forall good (prefixed_pairs prefix ls).
Proof.
  intros W C. apply Forall_forall. intros p H. apply in_map_iff in H as ([k v] & <- & H). cbn [fst snd].
  unfold clean_labels in C. rewrite Forall_forall in C. apply C in H as [H1 H2]. cbn [fst snd] in *. split; [|exact H2].
  cbn [fst]. pose proof (word_chars _ W) as F. rewrite app_assoc. unfold word in *.
  destruct (prefix ++ [95]) as [|c p]; [discriminate|]. cbn [app]. apply andb_true_iff in W as [W _]. rewrite W.
  change (forallb word_char (((c :: p) ++ k)) = true). rewrite forallb_app. now rewrite F, H1.
Qed.
Lemma good_stack k : clean_stack k -> Forall good (stack_pairs k).
Proof. intros [A B]. apply Forall_app. split; [apply good_direction|]. lcs. Qed.
Lemma good_status s : Forall good (status_pairs s).
Proof. destruct s; cbn; lcs. Qed.
Lemma good_class c : match c with C_error msg => clean msg | _ => True end -> Forall good (class_pairs c).
Proof.
  destruct c as [ok s|ok s|m]; intros H; cbn [class_pairs]; try destruct ok; lcs.
Qed.

Lemma good_route k : clean_route k -> Forall good (route_pairs k).
Proof.
  intros [A B]. apply Forall_app. split; [apply good_direction|]. apply Forall_app. split.
  - constructor; [|constructor]. apply good_l; [reflexivity|]. apply clean_app; [now apply clean_undot|].
    apply clean_app; [apply clean_const; reflexivity|apply clean_dec].
  - apply good_prefixed; [reflexivity|exact B].
Qed.

(* ---- labels tell keys apart ---- *)

Ltac peel H := apply cons_inv in H as (? & ? & H).
Ltac clash := match goal with X : bs _ = bs _ |- _ => discriminate X end.

Lemma direction_inj d d' x x' : direction_pairs d ++ x = direction_pairs d' ++ x' -> d = d' /\ x = x'.
Proof. destruct d, d'; cbn [direction_pairs app]; intros H; peel H; first [clash | easy]. Qed.
Lemma client_tls_inj t t' x x' : client_tls_pairs t ++ x = client_tls_pairs t' ++ x' ->
  in_text_client_tls t = in_text_client_tls t' /\ x = x'.
Proof.
  destruct t, t'; cbn [client_tls_pairs no_tls app in_text_client_tls]; intros H; peel H;
    first [clash | split; [reflexivity|exact H] | peel H; first [clash | split; [reflexivity|exact H] | idtac]].
  split; [|exact H]. unfold in_text_id. congruence.
Qed.
Lemma server_tls_inj t t' x x' : server_tls_pairs t ++ x = server_tls_pairs t' ++ x' ->
  in_text_server_tls t = in_text_server_tls t' /\ x = x'.
Proof.
  destruct t as [| | | |c|s], t' as [| | | |c'|s']; cbn [server_tls_pairs no_tls app in_text_server_tls]; intros H; peel H;
    first [clash | split; [reflexivity|exact H] | peel H; first [clash | split; [reflexivity|exact H] | idtac]].
  - split; [|exact H]. unfold in_text_id. destruct c, c'; congruence.
  - split; [congruence|exact H].
Qed.
Lemma server_inj m p m' p' x x' : server_pairs m p ++ x = server_pairs m' p' ++ x' ->
  in_text_meta m = in_text_meta m' /\ p = p' /\ x = x'.
Proof.
  cbn [server_pairs app]. intros H. do 4 peel H. repeat split; [unfold in_text_meta; congruence|now apply to_dec_inj|exact H].
Qed.
Lemma policy_inj p p' : policy_pairs p = policy_pairs p' -> in_text_policy p = in_text_policy p'.
Proof.
  intros H. apply server_inj in H as (A & B & H). do 6 peel H. unfold in_text_policy, in_text_meta in *. congruence.
Qed.
Lemma prefixed_inj prefix ls ls' : prefixed_pairs prefix ls = prefixed_pairs prefix ls' -> ls = ls'.
Proof.
  revert ls'. induction ls as [|[k v] ls IH]; intros [|[k' v'] ls'] H; try easy. cbn [prefixed_pairs map fst snd] in H.
  peel H. apply IH in H. apply app_inv_head in H0. injection H0 as ->. congruence.
Qed.
Lemma route_inj k k' : route_pairs k = route_pairs k' -> in_text_route k = in_text_route k'.
Proof.
  intros H. apply direction_inj in H as [D H]. cbn [app] in H. peel H. apply prefixed_inj in H.
  unfold in_text_route. congruence.
Qed.
Lemma stack_inj k k' : stack_pairs k = stack_pairs k' -> k = k'.
Proof.
  destruct k as [d p n], k' as [d' p' n']. intros H. apply direction_inj in H as [D H]. cbn [t_direction t_protocol t_name] in *. do 2 peel H. congruence.
Qed.

Lemma class_inj st c c' : class_pairs c = class_pairs c' -> fits st c -> fits st c' -> c = c'.
Proof.
  assert (X : forall n, to_dec n <> []) by exact to_dec_nonempty.
  destruct c as [ok s|ok s|m], c' as [ok' s'|ok' s'|m']; cbn [class_pairs fits]; intros H F F'; do 3 peel H;
    try (exfalso; first [now apply F | now apply F' | now eapply X | (symmetry in H3; now apply X in H3) | (now apply X in H3) ]).
  - assert (ok = ok') by (destruct ok, ok'; try easy; clash). congruence.
  - assert (ok = ok') by (destruct ok, ok'; try easy; clash). apply to_dec_inj in H3. congruence.
  - congruence.
Qed.

(** No label of [ls] is called [x]. *)
Definition no_key (x : bytes) (ls : list pair) : Prop := Forall (fun p => fst p <> x) ls.
Lemma no_key_app x a b : no_key x a -> no_key x b -> no_key x (a ++ b).
Proof. intros. apply Forall_app. easy. Qed.
Ltac nk := repeat (constructor; [cbn [fst]; discriminate|]); try constructor.

Lemma nk_direction x d : x <> bs "direction" -> no_key x (direction_pairs d).
Proof. intros H. constructor; [|constructor]. intros E. apply H. symmetry. exact E. Qed.
Definition extra (x : bytes) : Prop := x = bs "status_code"%string \/ x = bs "skipped"%string.
Lemma nk_client_tls x t : extra x -> no_key x (client_tls_pairs t).
Proof. intros [->| ->]; destruct t; nk. Qed.
Lemma nk_server_tls x t : extra x -> no_key x (server_tls_pairs t).
Proof. intros [->| ->]; destruct t; nk. Qed.
Lemma nk_policy x p : extra x -> no_key x (policy_pairs p).
Proof. intros [->| ->]; nk. Qed.
Lemma nk_authority x a : extra x -> no_key x (authority_pairs a).
Proof. intros [->| ->]; destruct a; nk. Qed.
Lemma nk_prefixed x prefix ls : extra x -> prefix = bs "dst" \/ prefix = bs "rt" -> no_key x (prefixed_pairs prefix ls).
Proof.
  intros E P. apply Forall_forall. intros p H. apply in_map_iff in H as ([k v] & <- & _). cbn [fst].
  destruct E as [->| ->], P as [->| ->]; discriminate.
Qed.
Lemma extra_direction x : extra x -> x <> bs "direction".
Proof. intros [->| ->]; discriminate. Qed.
Lemma nk_route x k : extra x -> no_key x (route_pairs k).
Proof.
  intros E. apply no_key_app; [apply nk_direction, extra_direction, E|]. apply no_key_app.
  - destruct E as [->| ->]; nk.
  - apply nk_prefixed; [exact E|now right].
Qed.

Definition status_free (ls : list pair) : Prop := no_key (bs "status_code"%string) ls.
Lemma status_inj a st a' st' : status_free a -> status_free a' -> a ++ status_pairs st = a' ++ status_pairs st' -> a = a' /\ st = st'.
Proof.
  intros F F' H. destruct st as [s|], st' as [s'|]; cbn [status_pairs] in H; rewrite ?app_nil_r in H.
  - apply app_inj_tail in H as [-> H]. split; [reflexivity|]. injection H as H. apply to_dec_inj in H. congruence.
  - exfalso. subst a'. apply Forall_app in F' as [_ F']. inversion F' as [|? ? C]. now apply C.
  - exfalso. subst a. apply Forall_app in F as [_ F]. inversion F as [|? ? C]. now apply C.
  - easy.
Qed.

Section Display.
  Variable show_sock : sock -> bytes.
  Variable show_ip : list N -> bytes.
  Hypothesis clean_sock : forall a, clean (show_sock a).
  Hypothesis clean_ip : forall a, clean (show_ip a).
  Hypothesis sock_inj : forall a b, show_sock a = show_sock b -> a = b.

  Lemma good_target a : Forall good (target_pairs show_sock show_ip a).
  Proof. unfold target_pairs. lcs; first [apply clean_sock | apply clean_ip]. Qed.
  Lemma good_out e : clean_out e -> Forall good (out_endpoint_pairs show_sock show_ip e).
  Proof.
    intros (A & B & C). apply Forall_app. split; [now apply good_authority|]. apply Forall_app. split; [apply good_target|].
    apply Forall_app. split; [now apply good_client_tls|]. now apply good_prefixed.
  Qed.
  Lemma good_endpoint k : clean_endpoint k -> Forall good (endpoint_pairs show_sock show_ip k).
  Proof.
    destruct k as [e|e]; cbn [clean_endpoint]; intros H; (apply Forall_app; split; [apply good_direction|]); [|now apply good_out].
    destruct H as (A & B & C & D & E). apply Forall_app. split; [now apply good_authority|].
    apply Forall_app. split; [apply good_target|]. apply Forall_app. split; [now apply good_server_tls|]. now apply good_policy.
  Qed.
  Lemma good_control k : clean_control k -> Forall good (control_pairs show_sock k).
  Proof.
    intros [A B]. constructor; [|now apply good_client_tls]. apply good_l; [reflexivity|].
    destruct (k_addr k) as [n|s]; cbn [clean_addr show_addr] in *; [|apply clean_sock].
    apply clean_app; [now apply clean_undot|]. apply clean_app; [apply clean_const; reflexivity|apply clean_dec].
  Qed.
  Lemma good_key k : clean_key k -> Forall good (key_pairs show_sock show_ip k).
  Proof.
    destruct k as [t a m p|a|e|]; cbn [clean_key key_pairs]; intros H; (apply Forall_app; split; [apply good_direction|]);
      (apply Forall_app; split; [lcs|]).
    - apply Forall_app. split; [apply good_target|]. apply Forall_app. split; [now apply good_server_tls|]. now apply good_server.
    - apply Forall_app. split; [apply good_target|]. now apply good_server_tls.
    - now apply good_out.
    - now apply good_client_tls.
  Qed.

  Lemma authority_inj a s x a' s' x' :
    authority_pairs a ++ target_pairs show_sock show_ip s ++ x = authority_pairs a' ++ target_pairs show_sock show_ip s' ++ x' ->
    a = a' /\ s = s' /\ x = x'.
  Proof.
    destruct a, a'; cbn [authority_pairs target_pairs app]; intros H; peel H; try clash; do 2 peel H.
    - peel H. repeat split; [congruence| |exact H]. apply sock_inj. assumption.
    - repeat split; [|exact H]. apply sock_inj. assumption.
  Qed.
  Lemma out_inj e e' : out_endpoint_pairs show_sock show_ip e = out_endpoint_pairs show_sock show_ip e' -> in_text_out e = in_text_out e'.
  Proof.
    intros H. apply authority_inj in H as (A & B & H). apply client_tls_inj in H as [C H]. apply prefixed_inj in H.
    unfold in_text_out. congruence.
  Qed.
  Lemma endpoint_inj k k' : endpoint_pairs show_sock show_ip k = endpoint_pairs show_sock show_ip k' ->
    in_text_endpoint k = in_text_endpoint k'.
  Proof.
    destruct k as [e|e], k' as [e'|e']; cbn [endpoint_pairs in_text_endpoint]; intros H; apply direction_inj in H as [D H];
      try discriminate D.
    - apply authority_inj in H as (A & B & H). apply server_tls_inj in H as [C H]. apply policy_inj in H. congruence.
    - apply out_inj in H. congruence.
  Qed.
  Lemma control_inj k k' : control_pairs show_sock k = control_pairs show_sock k' ->
    in_text_control show_sock k = in_text_control show_sock k'.
  Proof.
    intros H. cbn [control_pairs app] in H. peel H.
    assert (E : client_tls_pairs (k_tls k) ++ [] = client_tls_pairs (k_tls k') ++ []) by (rewrite !app_nil_r; exact H).
    apply client_tls_inj in E as [E _]. unfold in_text_control. congruence.
  Qed.
  Lemma key_inj k k' : key_pairs show_sock show_ip k = key_pairs show_sock show_ip k' -> in_text_key k = in_text_key k'.
  Proof.
    destruct k as [t a m p|a|e|], k' as [t' a' m' p'|a'|e'|]; cbn [key_pairs in_text_key]; intros H;
      apply direction_inj in H as [D H]; try discriminate D; clear D; cbn [app] in H; peel H; try clash.
    - apply (authority_inj None a _ None a') in H as (_ & A & H). apply server_tls_inj in H as [B H].
      rewrite <- (app_nil_r (server_pairs m p)), <- (app_nil_r (server_pairs m' p')) in H.
      apply server_inj in H as (C & D & _). congruence.
    - apply (authority_inj None a _ None a') in H as (_ & A & H). congruence.
    - apply out_inj in H. congruence.
    - reflexivity.
  Qed.

  Lemma nk_target x a : extra x -> no_key x (target_pairs show_sock show_ip a).
  Proof. intros [->| ->]; nk. Qed.
  Lemma free_endpoint k : status_free (endpoint_pairs show_sock show_ip k).
  Proof.
    assert (E : extra (bs "status_code")) by now left.
    destruct k as [e|e]; (apply no_key_app; [apply nk_direction, extra_direction, E|]);
      (apply no_key_app; [now apply nk_authority|]); (apply no_key_app; [now apply nk_target|]).
    - apply no_key_app; [now apply nk_server_tls|now apply nk_policy].
    - apply no_key_app; [now apply nk_client_tls|]. apply nk_prefixed; [exact E|now left].
  Qed.
  Lemma free_control k : status_free (control_pairs show_sock k).
  Proof. constructor; [discriminate|]. apply nk_client_tls. now left. Qed.
  Lemma free_route k : status_free (route_pairs k).
  Proof. apply nk_route. now left. Qed.
End Display.
