From Coq Require Import String List NArith Bool Lia.
From Verif Require Import Bytes BytesProofs HintSpec FilterModel TraceModel Http1Model Http1Spec Http1Proofs RespondModel RespondSpec.
Import ListNotations.
Open Scope N_scope.

(** ** Rules *)

Fixpoint first_cause (r : rule) (whole : bytes) (e : error) : option verdict :=
  match e with
  | [] => None
  | (k, t) :: e' => match r whole k t with Some v => Some v | None => first_cause r whole e' end
  end.
Fixpoint eval (rules : list rule) (whole : bytes) (e : error) : option verdict :=
  match rules with
  | [] => None
  | r :: rs => match first_cause r whole e with Some v => Some v | None => eval rs whole e end
  end.

Lemma first_cause_some r w e v : first_cause r w e = Some v <->
  exists pre k t post, e = pre ++ (k, t) :: post /\ r w k t = Some v /\ (forall k' t', In (k', t') pre -> r w k' t' = None).
Proof.
  induction e as [|[k t] e IH]; cbn [first_cause].
  - split; [discriminate|]. intros (pre & k & t & post & E & _). destruct pre; discriminate.
  - destruct (r w k t) eqn:R.
    + split.
      * intros [= ->]. exists [], k, t, e. split; [reflexivity|]. split; [exact R|]. intros ? ? [].
      * intros (pre & k' & t' & post & E & R' & F). destruct pre as [|[k2 t2] pre].
        -- injection E as -> -> ->. congruence.
        -- injection E as -> -> ->. rewrite (F k2 t2 (or_introl eq_refl)) in R. discriminate.
    + rewrite IH. split.
      * intros (pre & k' & t' & post & -> & R' & F). exists ((k, t) :: pre), k', t', post.
        split; [reflexivity|]. split; [exact R'|]. intros k2 t2 [[= <- <-]|I]; [exact R|exact (F _ _ I)].
      * intros (pre & k' & t' & post & E & R' & F). destruct pre as [|[k2 t2] pre].
        -- injection E as -> -> ->. congruence.
        -- injection E as -> -> ->. exists pre, k', t', post. split; [reflexivity|]. split; [exact R'|]. intros; apply F; right; assumption.
Qed.
Lemma first_cause_none r w e : first_cause r w e = None <-> forall k t, In (k, t) e -> r w k t = None.
Proof.
  induction e as [|[k t] e IH]; cbn [first_cause]; [split; [intros _ ? ? []|reflexivity]|].
  destruct (r w k t) eqn:R.
  - split; [discriminate|]. intros F. rewrite (F k t (or_introl eq_refl)) in R. discriminate.
  - rewrite IH. split.
    + intros F k' t' [[= <- <-]|I]; [exact R|exact (F _ _ I)].
    + intros F k' t' I. apply F. right. exact I.
Qed.

Lemma eval_iff w e v : forall rules, eval rules w e = Some v <->
  exists i r, nth_error rules i = Some r /\ first_cause r w e = Some v /\
  (forall j r' k' t', (j < i)%nat -> nth_error rules j = Some r' -> In (k', t') e -> r' w k' t' = None).
Proof.
  induction rules as [|r rs IH]; cbn [eval].
  - split; [discriminate|]. intros (i & r & E & _). destruct i; discriminate.
  - destruct (first_cause r w e) as [v'|] eqn:F.
    + split.
      * intros [= ->]. exists 0%nat, r. split; [reflexivity|]. split; [exact F|]. intros; lia.
      * intros (i & r' & E & F' & L). destruct i as [|i].
        -- injection E as ->. congruence.
        -- exfalso. assert (N : first_cause r w e = None). { apply first_cause_none. intros k t I. apply (L 0%nat r k t); [lia|reflexivity|exact I]. }
           congruence.
    + rewrite IH. split.
      * intros (i & r' & E & F' & L). exists (S i), r'. split; [exact E|]. split; [exact F'|].
        intros j r2 k2 t2 Lt E2 I2. destruct j as [|j].
        -- injection E2 as <-. apply (proj1 (first_cause_none _ _ _) F _ _ I2).
        -- apply (L j r2 k2 t2); [lia|exact E2|exact I2].
      * intros (i & r' & E & F' & L). destruct i as [|i]; [injection E as ->; congruence|].
        exists i, r'. split; [exact E|]. split; [exact F'|]. intros j r2 k2 t2 Lt E2 I2. apply (L (S j) r2 k2 t2); [lia|exact E2|exact I2].
Qed.
Lemma decided_iff rules e v : decided rules e v <-> eval rules (to_string e) e = Some v.
Proof.
  rewrite eval_iff. unfold decided. split.
  - intros (i & r & pre & k & t & post & A & B & C & D & F). exists i, r. split; [exact A|]. split; [|exact F].
    apply first_cause_some. exists pre, k, t, post. auto.
  - intros (i & r & A & B & F). apply first_cause_some in B. destruct B as (pre & k & t & post & B & C & D).
    exists i, r, pre, k, t, post. repeat (split; [assumption|]). exact F.
Qed.

Lemma caused_first (ask : kind -> bool) c (r : rule) w e : (forall k t, r w k t = if ask k then Some c else None) ->
  first_cause r w e = if is_caused_by ask e then Some c else None.
Proof.
  intros R. induction e as [|[k t] e IH]; cbn [first_cause is_caused_by]; [reflexivity|].
  rewrite R. destruct (ask k); [reflexivity|exact IH].
Qed.
Lemma caused_or f g e : is_caused_by (fun k => f k || g k) e = is_caused_by f e || is_caused_by g e.
Proof.
  induction e as [|[k t] e IH]; cbn [is_caused_by]; [reflexivity|]. rewrite IH.
  destruct (f k), (g k), (is_caused_by f e), (is_caused_by g e); reflexivity.
Qed.
Lemma caused_ext f g e : (forall k, f k = g k) -> is_caused_by f e = is_caused_by g e.
Proof. intros H. induction e as [|[k t] e IH]; cbn [is_caused_by]; [reflexivity|]. rewrite H, IH. reflexivity. Qed.
Lemma cause_first {A} (ask : kind -> option A) (f : A -> bytes -> verdict) (r : rule) w e :
  (forall k t, r w k t = match ask k with Some a => Some (f a t) | None => None end) ->
  first_cause r w e = match cause_ref ask e with Some (a, t) => Some (f a t) | None => None end.
Proof.
  intros R. induction e as [|[k t] e IH]; cbn [first_cause cause_ref]; [reflexivity|].
  rewrite R. destruct (ask k); [reflexivity|exact IH].
Qed.
Lemma last_rule (r : rule) w e v : e <> [] -> (forall k t, r w k t = Some v) -> first_cause r w e = Some v.
Proof. intros NE R. destruct e as [|[k t] e]; [congruence|]. cbn [first_cause]. rewrite R. reflexivity. Qed.

(** ** Rescues *)

Lemma header_value_iff s v : header_value s = Some v <-> v = s /\ valid_value s.
Proof.
  unfold header_value, valid_value. destruct (forallb _ s) eqn:F.
  - split; [|intros [-> _]; reflexivity]. intros [= <-]. split; [reflexivity|]. apply Forall_forall. intros c I.
    pose proof (proj1 (forallb_forall _ _) F c I) as H. unfold value_byte.
    apply orb_prop in H. destruct H as [H|H]; [right|left; apply N.eqb_eq; exact H].
    apply andb_prop in H. destruct H as [H1 H2]. apply N.leb_le in H1. apply negb_true_iff, N.eqb_neq in H2. split; assumption.
  - split; [discriminate|]. intros [_ V]. exfalso. rewrite <- not_true_iff_false in F. apply F. apply forallb_forall.
    intros c I. pose proof (proj1 (Forall_forall _ _) V c I) as [->|[H1 H2]]; [reflexivity|].
    apply orb_true_intro. left. apply andb_true_intro. split; [apply N.leb_le; exact H1|apply negb_true_iff, N.eqb_neq; exact H2].
Qed.
Lemma header_value_none s : header_value s = None <-> ~ valid_value s.
Proof.
  pose proof (header_value_iff s) as H. destruct (header_value s) as [v|].
  - split; [discriminate|]. intros N. exfalso. apply N. apply (H v). reflexivity.
  - split; [|reflexivity]. intros _ V. assert (E : None = Some s) by (apply H; split; [reflexivity|exact V]). discriminate.
Qed.

Definition text (c : cow) : bytes := match c with Borrowed m | Owned m => m end.
Definition settles (e : error) (v : verdict) (r : rescued) : Prop :=
  match v with
  | Passes => r = Not_rescued e
  | Answers a =>
      ((exists l, a_location a = Some l /\ ~ valid_value l) /\ r = Rescue_panics) \/
      ((forall l, a_location a = Some l -> valid_value l) /\
       exists s, r = Rescued s /\ code_header (grpc_status s) = to_dec (a_grpc a) /\ http_status s = a_status a /\
         close_connection s = a_close a /\ text (message s) = a_message a /\ (forall m, message s = Borrowed m -> valid_value m) /\
         location s = a_location a)
  end.

Lemma valid_unexpected : valid_value (bs "unexpected error").
Proof. apply (header_value_iff _ (bs "unexpected error")). vm_compute. reflexivity. Qed.
Lemma valid_redirected : valid_value (bs "redirected").
Proof. apply (header_value_iff _ (bs "redirected")). vm_compute. reflexivity. Qed.

Lemma settles_plain e c st cl m n : code_header c = to_dec n ->
  settles e (Answers (Answer st n cl m None)) (Rescued (Synthetic c st cl (Owned m) None)).
Proof.
  intros H. right. split; [discriminate|]. exists (Synthetic c st cl (Owned m) None). cbn.
  do 5 (split; [auto|]). split; [discriminate|reflexivity].
Qed.
Lemma settles_unexpected e : settles e (Answers (Answer 500 13 true (bs "unexpected error") None)) (Rescued unexpected_error).
Proof.
  right. split; [discriminate|]. exists unexpected_error. cbn. do 5 (split; [reflexivity|]). split; [|reflexivity].
  intros m [= <-]. exact valid_unexpected.
Qed.
Lemma settles_redirect e st l :
  settles e (Answers (Answer st 5 false (bs "redirected") (Some l))) (match redirect st l with Some s => Rescued s | None => Rescue_panics end).
Proof.
  unfold redirect. destruct (header_value l) as [v|] eqn:E.
  - apply header_value_iff in E. destruct E as [-> V]. right. split.
    + intros l' E'. cbn in E'. injection E' as <-. exact V.
    + exists (Synthetic Not_found st false (Borrowed (bs "redirected")) (Some l)). cbn. do 5 (split; [reflexivity|]). split; [|reflexivity].
      intros m [= <-]. exact valid_redirected.
  - left. split; [|reflexivity]. exists l. split; [reflexivity|]. apply header_value_none. exact E.
Qed.
Lemma code_of_known c : code_header (code_of c) = to_dec (known c).
Proof.
  unfold known. destruct (c <=? 16) eqn:L.
  - apply N.leb_le in L.
    assert (E : In c (map N.of_nat (seq 0 17))). { apply in_map_iff. exists (N.to_nat c). split; [lia|]. apply in_seq. lia. }
    cbn in E. repeat (destruct E as [<-|E]; [vm_compute; reflexivity|]). destruct E.
  - apply N.leb_gt in L. unfold code_of. repeat (destruct c as [|c]; try lia; try reflexivity).
    do 5 (destruct c as [c|c|]; try lia; try reflexivity).
Qed.

Ltac plain := first [apply settles_plain; vm_compute; reflexivity | apply settles_unexpected | apply settles_redirect | reflexivity].
Ltac by_cause := match goal with
  | |- match first_cause ?r ?w ?e with _ => _ end = _ -> settles ?e _ (if is_caused_by ?ask ?e then _ else _) =>
      erewrite (caused_first ask _ r w e) by (intros [] ?; reflexivity);
      destruct (is_caused_by ask e); [intros [= <-]; plain|]
  end.
Ltac by_last := match goal with
  | |- match first_cause ?r ?w ?e with _ => _ end = _ -> _ =>
      erewrite (last_rule r w e) by (assumption || (intros; reflexivity)); intros [= <-]; plain
  end.

Lemma settled_outbound_server e v : e <> [] -> eval outbound_rules (to_string e) e = Some v -> settles e v (outbound_server_rescue e).
Proof.
  intros NE. unfold outbound_rules, outbound_server_rescue. cbn [eval]. do 4 by_cause.
  rewrite (caused_first (fun k => match k with Identity_required => true | _ => false end || match k with Dispatcher_failed => true | _ => false end)
    (Answers (Answer 502 14 true (to_string e) None)) _ (to_string e) e) by (intros [] ?; reflexivity).
  rewrite caused_or.
  destruct (is_caused_by (fun k => match k with Identity_required => true | _ => false end) e); [intros [= <-]; plain|].
  destruct (is_caused_by (fun k => match k with Dispatcher_failed => true | _ => false end) e); [intros [= <-]; plain|].
  cbn [orb]. by_cause.
  rewrite (cause_first (fun k => match k with Outbound_redirect status loc => Some (status, loc) | _ => None end)
    (fun a _ => Answers (Answer (fst a) 5 false (bs "redirected") (Some (snd a)))) _ (to_string e) e) by (intros [] ?; reflexivity).
  destruct (cause_ref (fun k => match k with Outbound_redirect status loc => Some (status, loc) | _ => None end) e) as [[[st l] t]|];
    [intros [= <-]; plain|].
  rewrite (cause_first (fun k => match k with Outbound_injected status loc => Some (status, loc) | _ => None end)
    (fun a _ => Answers (Answer (fst a) 9 false (snd a) None)) _ (to_string e) e) by (intros [] ?; reflexivity).
  destruct (cause_ref (fun k => match k with Outbound_injected status loc => Some (status, loc) | _ => None end) e) as [[[st l] t]|];
    [intros [= <-]; plain|].
  rewrite (cause_first (fun k => match k with Outbound_grpc_injected status loc => Some (status, loc) | _ => None end)
    (fun a _ => Answers (Answer 200 (known (fst a)) false (snd a) None)) _ (to_string e) e) by (intros [] ?; reflexivity).
  destruct (cause_ref (fun k => match k with Outbound_grpc_injected status loc => Some (status, loc) | _ => None end) e) as [[[st l] t]|];
    [intros [= <-]; apply settles_plain, code_of_known|].
  by_cause. by_last.
Qed.
Lemma settled_outbound_client e v : e <> [] -> eval outbound_client_rules (to_string e) e = Some v -> settles e v (outbound_client_rescue e).
Proof.
  intros NE. unfold outbound_client_rules, outbound_client_rescue. cbn [eval].
  rewrite (caused_first (fun k => match k with Downgraded_h2 => true | _ => false end || match k with Io_error => true | _ => false end)
    (Answers (Answer 502 14 true (to_string e) None)) _ (to_string e) e) by (intros [] ?; reflexivity).
  rewrite caused_or.
  destruct (is_caused_by (fun k => match k with Downgraded_h2 => true | _ => false end) e); [intros [= <-]; plain|].
  destruct (is_caused_by (fun k => match k with Io_error => true | _ => false end) e); [intros [= <-]; plain|].
  cbn [orb]. by_cause. by_last.
Qed.
Lemma settled_inbound_server e v : e <> [] -> eval inbound_rules (to_string e) e = Some v -> settles e v (inbound_server_rescue e).
Proof.
  intros NE. unfold inbound_rules, inbound_server_rescue. cbn [eval]. do 3 by_cause.
  rewrite (cause_first (fun k => match k with Inbound_redirect status loc => Some (status, loc) | _ => None end)
    (fun a _ => Answers (Answer (fst a) 5 false (bs "redirected") (Some (snd a)))) _ (to_string e) e) by (intros [] ?; reflexivity).
  destruct (cause_ref (fun k => match k with Inbound_redirect status loc => Some (status, loc) | _ => None end) e) as [[[st l] t]|];
    [intros [= <-]; plain|].
  do 7 by_cause. by_last.
Qed.
Lemma settled_inbound_client e v : e <> [] -> eval inbound_client_rules (to_string e) e = Some v -> settles e v (inbound_client_rescue e).
Proof. intros NE. unfold inbound_client_rules, inbound_client_rescue. cbn [eval]. do 2 by_cause. by_last. Qed.
Lemma settled_admin e v : e <> [] -> eval admin_rules (to_string e) e = Some v -> settles e v (admin_rescue e).
Proof.
  intros NE. unfold admin_rules, admin_rescue. cbn [eval].
  rewrite (cause_first (fun k => match k with Route_not_found => Some tt | _ => None end)
    (fun _ t => Answers (Answer 404 5 false t None)) _ (to_string e) e) by (intros [] ?; reflexivity).
  destruct (cause_ref (fun k => match k with Route_not_found => Some tt | _ => None end) e) as [[u t]|]; [intros [= <-]; plain|].
  rewrite (cause_first (fun k => match k with Route_unauthorized => Some tt | _ => None end)
    (fun _ t => Answers (Answer 403 7 false t None)) _ (to_string e) e) by (intros [] ?; reflexivity).
  destruct (cause_ref (fun k => match k with Route_unauthorized => Some tt | _ => None end) e) as [[u t]|]; [intros [= <-]; plain|].
  by_last.
Qed.
Lemma settled rescue rules e v : place rescue rules -> e <> [] -> decided rules e v -> settles e v (rescue e).
Proof.
  intros P NE D. apply decided_iff in D. destruct P.
  - apply settled_outbound_server; assumption.
  - apply settled_outbound_client; assumption.
  - apply settled_inbound_server; assumption.
  - apply settled_inbound_client; assumption.
  - apply settled_admin; assumption.
Qed.
Lemma eval_total rules r w v e : e <> [] -> (forall k t, r w k t = Some v) -> In r rules -> exists v', eval rules w e = Some v'.
Proof.
  intros NE R. induction rules as [|r' rs IH]; intros I; [destruct I|]. cbn [eval].
  destruct (first_cause r' w e) as [v'|] eqn:F; [exists v'; reflexivity|]. destruct I as [->|I].
  - rewrite (last_rule r w e v NE R) in F. discriminate.
  - exact (IH I).
Qed.
Lemma total rescue rules e : place rescue rules -> e <> [] -> exists v, decided rules e v /\ forall v', decided rules e v' -> v' = v.
Proof.
  intros P NE. assert (T : exists v, eval rules (to_string e) e = Some v).
  { destruct P.
    - apply (eval_total _ (fun _ _ _ => unexpected) _ (Answers (Answer 500 13 true (bs "unexpected error") None)) _ NE); [reflexivity|].
      do 10 right. left. reflexivity.
    - apply (eval_total _ (fun _ _ _ => Some Passes) _ Passes _ NE); [reflexivity|]. do 2 right. left. reflexivity.
    - apply (eval_total _ (fun _ _ _ => unexpected) _ (Answers (Answer 500 13 true (bs "unexpected error") None)) _ NE); [reflexivity|].
      do 11 right. left. reflexivity.
    - apply (eval_total _ (fun _ _ _ => Some Passes) _ Passes _ NE); [reflexivity|]. do 2 right. left. reflexivity.
    - apply (eval_total _ (fun _ _ _ => unexpected) _ (Answers (Answer 500 13 true (bs "unexpected error") None)) _ NE); [reflexivity|].
      do 2 right. left. reflexivity. }
  destruct T as [v T]. exists v. split; [apply decided_iff; exact T|]. intros v' D. apply decided_iff in D. congruence.
Qed.

(** ** Responses *)

Lemma is_grpc_iff emit client q : is_grpc (new_respond emit client q) = true <-> grpc_request q.
Proof.
  unfold new_respond, grpc_request. destruct (q_version q); cbn [is_grpc]; try (split; [discriminate|intros [V _]; discriminate]).
  destruct (hm_get (q_headers q) CONTENT_TYPE) as [v|] eqn:G.
  - apply hm_get_iff in G. destruct (to_str v) as [s|] eqn:S.
    + apply to_str_printable in S. destruct S as [-> Pr]. rewrite starts_with_iff. split.
      * intros [rest E]. split; [reflexivity|]. exists v, rest. auto.
      * intros [_ (v' & rest & F & _ & E)]. exists rest. apply hm_get_iff in F, G. change (bs "content-type") with CONTENT_TYPE in F. change GRPC_CONTENT_TYPE with (bs "application/grpc"). congruence.
    + split; [discriminate|]. intros [_ (v' & rest & F & Pr & E)]. apply hm_get_iff in F, G. change (bs "content-type") with CONTENT_TYPE in F.
      assert (Q : v = v') by congruence. rewrite <- Q in Pr. assert (to_str v = Some v) by (apply to_str_printable; split; [reflexivity|exact Pr]). congruence.
  - split; [discriminate|]. intros [_ (v' & rest & F & _)]. apply hm_get_iff in F. change (bs "content-type") with CONTENT_TYPE in F. congruence.
Qed.
Lemma new_respond_rest emit client q : let r := new_respond emit client q in
  p_version r = q_version q /\ RespondModel.client r = client /\ emit_headers r = emit /\
  (q_version q <> Http_2 -> is_orig_proto_upgrade r = q_was_upgrade q).
Proof. unfold new_respond. destruct (q_version q); cbn; repeat split; auto; congruence. Qed.

Lemma message_says s a : text (message s) = a_message a -> (forall m, message s = Borrowed m -> valid_value m) -> says (a_message a) (message_value s).
Proof.
  intros T B. rewrite <- T. unfold message_value, says. destruct (message s) as [m|m]; cbn [text].
  - split; [reflexivity|]. intros N. exfalso. apply N. apply B. reflexivity.
  - destruct (header_value m) as [v|] eqn:E.
    + apply header_value_iff in E. destruct E as [-> V]. split; [reflexivity|contradiction].
    + apply header_value_none in E. split; [contradiction|reflexivity].
Qed.

Lemma grpc_response_spec s a emit : text (message s) = a_message a -> (forall m, message s = Borrowed m -> valid_value m) ->
  code_header (grpc_status s) = to_dec (a_grpc a) -> close_connection s = a_close a -> grpc_answer emit a (grpc_response s emit).
Proof.
  intros T B C L. exists (message_value s). split; [apply message_says; assumption|].
  unfold grpc_response. rewrite C, L. destruct emit, (a_close a); reflexivity.
Qed.
Lemma http_response_spec s a emit v orig mention : text (message s) = a_message a -> (forall m, message s = Borrowed m -> valid_value m) ->
  http_status s = a_status a -> close_connection s = a_close a -> location s = a_location a ->
  mention = (version_eqb v Http_11 && negb orig) ->
  http_answer emit mention v a (http_response s v emit orig).
Proof.
  intros T B C L O M. exists (message_value s). split; [apply message_says; assumption|].
  unfold http_response. rewrite C, L, O, M. destruct emit, (a_close a), (version_eqb v Http_11), orig, (a_location a); reflexivity.
Qed.

Lemma answered rescue rules e a emit client q : place rescue rules -> e <> [] -> decided rules e (Answers a) ->
  (forall l, a_location a = Some l -> valid_value l) ->
  exists rsp, respond rescue (new_respond emit client q) (inr e) = Synthesized rsp (a_close a && client) /\
    (grpc_request q -> grpc_answer emit a rsp) /\
    (~ grpc_request q -> exists mention, mentions q mention /\ http_answer emit mention (q_version q) a rsp).
Proof.
  intros P NE D L. pose proof (settled _ _ _ _ P NE D) as S. cbn [settles] in S.
  destruct S as [[(l & E & N) _]|(_ & s & R & C & H & Cl & T & B & Loc)]; [exfalso; exact (N (L l E))|].
  unfold respond. rewrite R. destruct (new_respond_rest emit client q) as (V & K & Em & Up).
  rewrite K, Cl, V, Em. eexists. split; [reflexivity|]. split.
  - intros G. apply (is_grpc_iff emit client) in G. rewrite G. apply grpc_response_spec; assumption.
  - intros G. assert (F : is_grpc (new_respond emit client q) = false).
    { apply not_true_iff_false. intros F. apply G. apply (is_grpc_iff emit client). exact F. }
    rewrite F. exists (version_eqb (q_version q) Http_11 && negb (is_orig_proto_upgrade (new_respond emit client q))). split.
    + unfold mentions. rewrite andb_true_iff, version_eqb_eq, negb_true_iff. split.
      * intros [E1 E2]. split; [exact E1|]. rewrite Up in E2; [exact E2|congruence].
      * intros [E1 E2]. split; [exact E1|]. rewrite Up; [exact E2|congruence].
    + apply http_response_spec; auto.
Qed.
Lemma passed rescue rules e emit client q : place rescue rules -> e <> [] -> decided rules e Passes ->
  respond rescue (new_respond emit client q) (inr e) = Failed e.
Proof. intros P NE D. pose proof (settled _ _ _ _ P NE D) as S. cbn [settles] in S. unfold respond. rewrite S. reflexivity. Qed.
Lemma bad_location rescue rules e a l emit client q : place rescue rules -> e <> [] -> decided rules e (Answers a) ->
  a_location a = Some l -> ~ valid_value l -> respond rescue (new_respond emit client q) (inr e) = Panicked.
Proof.
  intros P NE D E N. pose proof (settled _ _ _ _ P NE D) as S. cbn [settles] in S. unfold respond.
  destruct S as [[_ R]|[F _]]; [rewrite R; reflexivity|]. exfalso. exact (N (F l E)).
Qed.

(** ** What responses reveal *)

Definition erase (s : synthetic) : synthetic := Synthetic (grpc_status s) (http_status s) (close_connection s) (Borrowed []) (location s).
Definition alike_rescued (r r' : rescued) : Prop :=
  match r, r' with
  | Rescued s, Rescued s' => erase s = erase s'
  | Not_rescued _, Not_rescued _ => True
  | Rescue_panics, Rescue_panics => True
  | _, _ => False
  end.
Lemma caused_alike ask e e' : (forall k k', alike k k' -> ask k = ask k') -> same_causes e e' -> is_caused_by ask e = is_caused_by ask e'.
Proof.
  intros A S. induction S as [|[k t] [k' t'] e e' H S IH]; cbn [is_caused_by]; [reflexivity|]. cbn [fst] in H.
  rewrite (A _ _ H), IH. reflexivity.
Qed.
Lemma cause_alike {A} (R : A -> A -> Prop) ask e e' :
  (forall k k', alike k k' -> match ask k, ask k' with Some a, Some a' => R a a' | None, None => True | _, _ => False end) ->
  same_causes e e' -> match cause_ref ask e, cause_ref ask e' with Some (a, _), Some (a', _) => R a a' | None, None => True | _, _ => False end.
Proof.
  intros H S. induction S as [|[k t] [k' t'] e e' K S IH]; cbn [cause_ref]; [exact Logic.I|]. cbn [fst] in K. specialize (H _ _ K).
  destruct (ask k), (ask k'); try contradiction; [exact H|exact IH].
Qed.
Ltac same_by S := match goal with
  | |- alike_rescued (if is_caused_by ?ask ?e then _ else _) (if is_caused_by ?ask ?e' then _ else _) =>
      rewrite <- (caused_alike ask e e') by (exact S || (intros ? ? []; reflexivity)); destruct (is_caused_by ask e); [try reflexivity; try exact Logic.I|]
  end.
Ltac same_ref R S := match goal with
  | |- alike_rescued (match cause_ref ?ask ?e with _ => _ end) (match cause_ref ?ask ?e' with _ => _ end) =>
      let H := fresh "H" in
      assert (H := cause_alike R ask e e'); cbv beta in H;
      match type of H with ?P -> _ -> _ => let H0 := fresh "H" in let kk := fresh "k" in
        assert (H0 : P) by (intros ? ? [kk| |]; [destruct kk| |]; first [exact Logic.I|reflexivity]); specialize (H H0 S); clear H0 end;
      destruct (cause_ref ask e) as [[[] ?]|], (cause_ref ask e') as [[[] ?]|]; try contradiction; cbn in H
  end.
Lemma rescue_alike rescue rules e e' : place rescue rules -> same_causes e e' -> alike_rescued (rescue e) (rescue e').
Proof.
  intros P S. destruct P.
  - unfold outbound_server_rescue. do 7 same_by S.
    same_ref (@eq (N * bytes)) S; [injection H as -> ->; destruct (redirect _ _); reflexivity || exact Logic.I|].
    clear H. same_ref (fun a a' : N * bytes => fst a = fst a') S; [subst; reflexivity|].
    clear H. same_ref (fun a a' : N * bytes => fst a = fst a') S; [subst; reflexivity|].
    same_by S. reflexivity.
  - unfold outbound_client_rescue. do 3 same_by S. exact Logic.I.
  - unfold inbound_server_rescue. do 3 same_by S.
    same_ref (@eq (N * bytes)) S; [injection H as -> ->; destruct (redirect _ _); reflexivity || exact Logic.I|].
    do 7 same_by S. reflexivity.
  - unfold inbound_client_rescue. do 2 same_by S. exact Logic.I.
  - unfold admin_rescue. same_ref (@eq unit) S; [reflexivity|]. clear H. same_ref (@eq unit) S; reflexivity.
Qed.
Lemma private rescue rules e e' client q rsp closed : place rescue rules -> same_causes e e' ->
  respond rescue (new_respond false client q) (inr e) = Synthesized rsp closed ->
  respond rescue (new_respond false client q) (inr e') = Synthesized rsp closed.
Proof.
  intros P S. pose proof (rescue_alike _ _ _ _ P S) as A. unfold respond. destruct (new_respond_rest false client q) as (_ & _ & Em & _).
  rewrite Em. destruct (rescue e) as [s|?|], (rescue e') as [s'|?|]; try contradiction; try discriminate.
  cbn [alike_rescued] in A. unfold erase in A. injection A as A1 A2 A3 A4. unfold grpc_response, http_response. rewrite A1, A2, A3, A4. auto.
Qed.

Lemma says_valid m v : says m v -> valid_value v.
Proof.
  intros [A B]. destruct (header_value m) as [x|] eqn:E.
  - apply header_value_iff in E. rewrite A by apply E. apply E.
  - apply header_value_none in E. rewrite (B E). exact valid_unexpected.
Qed.
Lemma valid_lit s : header_value s = Some s -> valid_value s.
Proof. intros E. apply (header_value_iff s s) in E. apply E. Qed.
Lemma valid_dec n : valid_value (to_dec n).
Proof.
  pose proof (to_dec_digits n) as D. rewrite forallb_forall in D. unfold valid_value. apply Forall_forall. intros c I. specialize (D c I).
  unfold is_digit in D. apply andb_prop in D. destruct D as [D1 D2]. apply N.leb_le in D1, D2. right. lia.
Qed.
Lemma when_in b h x : In x (when b h) -> x = h.
Proof. destruct b; cbn; [intros [<-|[]]; reflexivity|intros []]. Qed.

Ltac each := repeat match goal with
  | H : In _ (_ ++ _) |- _ => apply in_app_or in H; destruct H as [H|H]
  | H : In _ (when _ _) |- _ => apply when_in in H; subst
  | H : In _ (_ :: _) |- _ => destruct H as [H|H]; [subst|]
  | H : In _ [] |- _ => destruct H
  end.
Lemma grpc_answer_valid told a rsp h : grpc_answer told a rsp -> In h (r_headers rsp) -> valid_value (snd h).
Proof.
  intros (m & Sm & ->) I. cbn [r_headers] in I. each; cbn [snd].
  all: try (apply valid_lit; vm_compute; reflexivity); try exact (says_valid _ _ Sm). apply valid_dec.
Qed.
Lemma http_answer_valid told mention v a rsp h : (forall l, a_location a = Some l -> valid_value l) ->
  http_answer told mention v a rsp -> In h (r_headers rsp) -> valid_value (snd h).
Proof.
  intros L (m & Sm & ->) I. cbn [r_headers] in I. destruct (a_location a) as [l|]; each; cbn [snd].
  all: try (apply valid_lit; vm_compute; reflexivity); try exact (says_valid _ _ Sm). apply L. reflexivity.
Qed.
Lemma synthesized_inv rescue rules e emit client q rsp closed : place rescue rules -> e <> [] ->
  respond rescue (new_respond emit client q) (inr e) = Synthesized rsp closed ->
  exists a, decided rules e (Answers a) /\ closed = (a_close a && client) /\ (forall l, a_location a = Some l -> valid_value l) /\
    (grpc_request q -> grpc_answer emit a rsp) /\
    (~ grpc_request q -> exists mention, mentions q mention /\ http_answer emit mention (q_version q) a rsp).
Proof.
  intros P NE R. destruct (total _ _ _ P NE) as (v & D & _). destruct v as [a|].
  - exists a. split; [exact D|]. pose proof (settled _ _ _ _ P NE D) as S. cbn [settles] in S.
    destruct S as [[_ X]|(L & _)]; [unfold respond in R; rewrite X in R; discriminate|].
    destruct (answered _ _ _ _ emit client q P NE D L) as (rsp' & R' & G & H). rewrite R' in R. injection R as <- <-. auto.
  - rewrite (passed _ _ _ emit client q P NE D) in R. discriminate.
Qed.
Lemma grpc_dec q : grpc_request q \/ ~ grpc_request q.
Proof.
  destruct (is_grpc (new_respond false false q)) eqn:E.
  - left. apply (is_grpc_iff false false). exact E.
  - right. intros G. apply (is_grpc_iff false false) in G. congruence.
Qed.
Lemma valid_headers rescue rules e emit client q rsp closed : place rescue rules -> e <> [] ->
  respond rescue (new_respond emit client q) (inr e) = Synthesized rsp closed -> forall h, In h (r_headers rsp) -> valid_value (snd h).
Proof.
  intros P NE R h I. destruct (synthesized_inv _ _ _ _ _ _ _ _ P NE R) as (a & _ & _ & L & G & H).
  destruct (grpc_dec q) as [Y|N].
  - exact (grpc_answer_valid _ _ _ _ (G Y) I).
  - destruct (H N) as (mention & _ & A). exact (http_answer_valid _ _ _ _ _ _ L A I).
Qed.

Definition failing (a : answer) : Prop := 400 <= a_status a < 600 /\ 1 <= a_grpc a <= 16.
Lemma failing_answer rescue rules e a : place rescue rules -> (forall k t, In (k, t) e -> ~ asked_for k) ->
  decided rules e (Answers a) -> failing a.
Proof.
  intros P N (i & r & pre & k & t & post & E & X & V & _).
  assert (K : ~ asked_for k) by (apply (N k t); rewrite X; apply in_or_app; right; left; reflexivity).
  destruct P; apply nth_error_In in E; cbn in E; repeat (destruct E as [<-|E]); try contradiction;
    destruct k; cbn in V, K; try discriminate; try tauto; injection V as <-; unfold failing; cbn; lia.
Qed.
Lemma failing_response rescue rules e emit client q rsp closed : place rescue rules -> e <> [] ->
  (forall k t, In (k, t) e -> ~ asked_for k) ->
  respond rescue (new_respond emit client q) (inr e) = Synthesized rsp closed ->
  (grpc_request q -> exists c, 1 <= c <= 16 /\ first_of (bs "grpc-status") (r_headers rsp) (to_dec c)) /\
  (~ grpc_request q -> 400 <= r_status rsp < 600 /\ r_version rsp = q_version q).
Proof.
  intros P NE N R. destruct (synthesized_inv _ _ _ _ _ _ _ _ P NE R) as (a & D & _ & _ & G & H).
  pose proof (failing_answer _ _ _ _ P N D) as [F1 F2]. split.
  - intros Y. destruct (G Y) as (m & _ & ->). exists (a_grpc a). split; [exact F2|]. cbn [r_headers].
    eexists [_; _], _. split; [reflexivity|]. cbn. intros [X|[X|[]]]; discriminate.
  - intros Y. destruct (H Y) as (mention & _ & m & _ & ->). cbn. split; [exact F1|reflexivity].
Qed.

(** ** Streams *)

Lemma rescued_end rescue post : poll_all rescue Body_rescued post = repeat Body_end (List.length post).
Proof. induction post as [|p post IH]; cbn [poll_all poll_frame repeat List.length]; [reflexivity|]. rewrite IH. reflexivity. Qed.
Lemma passthru_all rescue l : poll_all rescue Passthru l = l.
Proof. induction l as [|p l IH]; cbn [poll_all poll_frame]; [reflexivity|]. rewrite IH. reflexivity. Qed.
Lemma fine_prefix rescue emit post : forall pre, Forall fine pre ->
  poll_all rescue (Grpc_rescue emit) (pre ++ post) = pre ++ poll_all rescue (Grpc_rescue emit) post.
Proof.
  induction pre as [|p pre IH]; intros F; [reflexivity|]. inversion F as [|? ? Fp Fpre]; subst.
  cbn [app poll_all]. destruct p; try destruct Fp; cbn [poll_frame]; rewrite (IH Fpre); reflexivity.
Qed.
Lemma trailers_spec rescue s a emit e : text (message s) = a_message a -> code_header (grpc_status s) = to_dec (a_grpc a) ->
  rescue e = Rescued s -> exists t, rescue_trailers rescue emit e = Trailers t /\ grpc_trailers emit a t.
Proof.
  intros T C R. unfold rescue_trailers. rewrite R. eexists. split; [reflexivity|]. rewrite C.
  exists (match header_value (a_message a) with Some v => v | None => bs "Unexpected error" end).
  split; [|split].
  - intros V. assert (E : header_value (a_message a) = Some (a_message a)) by (apply header_value_iff; split; [reflexivity|exact V]). rewrite E. reflexivity.
  - intros V. apply header_value_none in V. rewrite V. reflexivity.
  - unfold text in T. destruct (message s) as [m|m]; subst m; destruct emit; reflexivity.
Qed.
Lemma stream_rescued rescue rules emit pre e a post : place rescue rules -> e <> [] -> Forall fine pre ->
  decided rules e (Answers a) -> (forall l, a_location a = Some l -> valid_value l) ->
  exists t, grpc_trailers emit a t /\
    poll_all rescue (Grpc_rescue emit) (pre ++ Body_error e :: post) = pre ++ Trailers t :: repeat Body_end (List.length post).
Proof.
  intros P NE F D L. pose proof (settled _ _ _ _ P NE D) as S. cbn [settles] in S.
  destruct S as [[(l & E & N) _]|(_ & s & R & C & _ & _ & T & _)]; [exfalso; exact (N (L l E))|].
  destruct (trailers_spec _ _ _ emit _ T C R) as (t & X & G). exists t. split; [exact G|].
  rewrite (fine_prefix _ _ _ _ F). cbn [poll_all poll_frame]. rewrite X. rewrite rescued_end. reflexivity.
Qed.
Lemma stream_passed rescue rules emit pre e post : place rescue rules -> e <> [] -> Forall fine pre ->
  decided rules e Passes ->
  poll_all rescue (Grpc_rescue emit) (pre ++ Body_error e :: post) = pre ++ Body_error e :: poll_all rescue (Grpc_rescue emit) post.
Proof.
  intros P NE F D. pose proof (settled _ _ _ _ P NE D) as S. cbn [settles] in S.
  rewrite (fine_prefix _ _ _ _ F). cbn [poll_all poll_frame]. unfold rescue_trailers. rewrite S. reflexivity.
Qed.
Lemma stream_fine rescue emit l : Forall fine l -> poll_all rescue (Grpc_rescue emit) l = l.
Proof. intros F. rewrite <- (app_nil_r l) at 1. rewrite (fine_prefix _ _ _ _ F). cbn [poll_all]. apply app_nil_r. Qed.
Lemma stream_body rescue emit client q rsp : exists b, respond rescue (new_respond emit client q) (inl rsp) = Responded rsp b /\
  (grpc_request q -> b = Grpc_rescue emit) /\ (~ grpc_request q -> b = Passthru).
Proof.
  cbn [respond]. destruct (new_respond_rest emit client q) as (_ & _ & Em & _). rewrite Em.
  destruct (is_grpc (new_respond emit client q)) eqn:G; eexists; (split; [reflexivity|]); split; intros H; try reflexivity.
  - exfalso. apply H. apply (is_grpc_iff emit client). exact G.
  - apply (is_grpc_iff emit client) in H. congruence.
Qed.

(** ** Headers of a peer's proxy *)

Lemma first_of_other n m hs v : n <> m -> first_of n hs v <-> first_of n (hm_remove hs m) v.
Proof.
  intros N. rewrite <- !hm_get_iff. unfold hm_get, hm_remove.
  induction hs as [|[x y] hs IH]; [reflexivity|]. cbn [find filter fst].
  destruct (beq x m) eqn:Xm; cbn [negb].
  - apply beq_eq in Xm. subst x. assert (E : beq m n = false) by (apply beq_neq; congruence).
    cbn [fst]. rewrite E. exact IH.
  - cbn [find fst]. destruct (beq x n); [reflexivity|exact IH].
Qed.
Lemma update_spec closable meshed rsp rsp' closed : update_response (is_closable closable meshed) rsp = (rsp', closed) ->
  r_status rsp' = r_status rsp /\ r_version rsp' = r_version rsp /\
  (closed = true <-> closable = true /\ meshed = true /\ asks_close rsp) /\
  r_headers rsp' = if closed && version_eqb (r_version rsp) Http_11
                   then without (bs "connection" :: error_headers) (r_headers rsp) ++ [(bs "connection", bs "close")]
                   else without error_headers (r_headers rsp).
Proof.
  unfold update_response, is_closable, asks_close, error_headers. intros U.
  assert (W : hm_remove (hm_remove (r_headers rsp) L5D_PROXY_ERROR) L5D_PROXY_CONNECTION = without [bs "l5d-proxy-error"; bs "l5d-proxy-connection"] (r_headers rsp)).
  { rewrite !remove_without, without_app. reflexivity. }
  pose proof (first_of_other (bs "l5d-proxy-connection") (bs "l5d-proxy-error") (r_headers rsp)) as O.
  destruct closable, meshed; cbn [andb negb] in U;
    try (injection U as <- <-; cbn [r_status r_version r_headers andb]; split; [reflexivity|]; split; [reflexivity|]; split;
         [split; [discriminate|intros (? & ? & ?); discriminate]|exact W]).
  destruct (hm_get (hm_remove (r_headers rsp) L5D_PROXY_ERROR) L5D_PROXY_CONNECTION) as [h|] eqn:G.
  - apply hm_get_iff in G. apply O in G; [|discriminate]. destruct (beq h CLOSE) eqn:B.
    + apply beq_eq in B. subst h. cbn [r_version r_status] in U. injection U as <- <-. 
      destruct (version_eqb (r_version rsp) Http_11); cbn [r_status r_version r_headers andb]; (split; [reflexivity|]; split; [reflexivity|]; split; [split; [intros _; split; [reflexivity|split; [reflexivity|exact G]]|reflexivity]|]).
      * unfold hm_insert. rewrite W, remove_without, without_app. f_equal.
        apply filter_ext. intros x. cbn [existsb app]. change CONNECTION with (bs "connection").
        destruct (beq (fst x) (bs "connection")), (beq (fst x) (bs "l5d-proxy-error")), (beq (fst x) (bs "l5d-proxy-connection")); reflexivity.
      * exact W.
    + injection U as <- <-. cbn [r_status r_version r_headers andb]. split; [reflexivity|]. split; [reflexivity|]. split; [|exact W].
      split; [discriminate|]. intros (_ & _ & A). apply hm_get_iff in A, G. assert (h = bs "close") by congruence. subst h. discriminate.
  - injection U as <- <-. cbn [r_status r_version r_headers andb]. split; [reflexivity|]. split; [reflexivity|]. split; [|exact W].
    split; [discriminate|]. intros (_ & _ & A). apply O in A; [|discriminate]. apply hm_get_iff in A. change L5D_PROXY_CONNECTION with (bs "l5d-proxy-connection") in G. change L5D_PROXY_ERROR with (bs "l5d-proxy-error") in G. congruence.
Qed.

Lemma told_asks_close emit rsp a q mention : emit = true -> a_close a = true ->
  (grpc_answer emit a rsp \/ http_answer emit mention (q_version q) a rsp) -> asks_close rsp.
Proof.
  intros -> C [(m & _ & ->)|(m & _ & ->)]; unfold asks_close; cbn [r_headers]; rewrite C; cbn [when andb app].
  - eexists [_; _; _; _; _], []. split; [reflexivity|]. cbn. intros H. repeat (destruct H as [H|H]; [discriminate|]). destruct H.
  - destruct mention; cbn [andb when app].
    + eexists [_; _; _], _. split; [reflexivity|]. cbn. intros H. repeat (destruct H as [H|H]; [discriminate|]). destruct H.
    + eexists [_; _], _. split; [reflexivity|]. cbn. intros H. repeat (destruct H as [H|H]; [discriminate|]). destruct H.
Qed.
Lemma first_of_insert n m v hs w : n <> m -> first_of n hs w -> first_of n (hm_insert hs m v) w.
Proof.
  intros N F. unfold hm_insert. apply (first_of_other n m hs w N) in F. destruct F as (pre & post & E & I).
  exists pre, (post ++ [(m, v)]). split; [rewrite E, <- app_assoc; reflexivity|exact I].
Qed.
Lemma received_close u v rsp : asks_close rsp -> asks_close (received u v rsp) /\ r_status (received u v rsp) = r_status rsp.
Proof.
  intros A. unfold received, asks_close in *. destruct u; [|split; [exact A|reflexivity]].
  unfold downgrade_response, orig_proto_upgrade_response. destruct (r_version rsp); cbn [r_headers r_status]; (split; [|reflexivity]).
  all: apply first_of_other; [discriminate|]; try exact A.
  all: apply first_of_other; [discriminate|]; apply first_of_insert; [discriminate|exact A].
Qed.
Lemma peer_close rescue rules e a client q rsp closed v rsp' c : place rescue rules -> e <> [] ->
  decided rules e (Answers a) -> a_close a = true ->
  respond rescue (new_respond true client q) (inr e) = Synthesized rsp closed ->
  update_response (is_closable true true) (received (q_was_upgrade q) v rsp) = (rsp', c) ->
  c = true /\ r_status rsp' = r_status rsp /\
  (forall h, In h (r_headers rsp') -> ~ In (fst h) error_headers) /\
  (r_version rsp' = Http_11 -> first_of (bs "connection") (r_headers rsp') (bs "close")).
Proof.
  intros P NE D C R U. destruct (synthesized_inv _ _ _ _ _ _ _ _ P NE R) as (a' & D' & _ & _ & G & H).
  destruct (total _ _ _ P NE) as (w & _ & Un). assert (E : Answers a' = Answers a) by (rewrite (Un _ D), (Un _ D'); reflexivity). injection E as ->.
  assert (A : asks_close rsp).
  { destruct (grpc_dec q) as [Y|Nq].
    - apply (told_asks_close true rsp a q false eq_refl C). left. exact (G Y).
    - destruct (H Nq) as (mention & _ & X). apply (told_asks_close true rsp a q mention eq_refl C). right. exact X. }
  destruct (received_close (q_was_upgrade q) v rsp A) as [A' St].
  destruct (update_spec true true _ _ _ U) as (U1 & U2 & U3 & U4).
  assert (Cc : c = true) by (apply U3; auto). split; [exact Cc|]. split; [rewrite U1; exact St|]. rewrite Cc in U4. cbn [andb] in U4.
  split.
  - intros h I X. rewrite U4 in I. destruct (version_eqb _ _).
    + apply in_app_or in I. destruct I as [I|[<-|[]]].
      * apply without_in in I. apply (proj2 I). right. exact X.
      * destruct X as [X|[X|[]]]; discriminate.
    + apply without_in in I. exact (proj2 I X).
  - intros V. rewrite U2 in V. rewrite U4. rewrite (proj2 (version_eqb_eq _ _) V).
    eexists _, []. split; [reflexivity|]. intros I. apply in_map_iff in I. destruct I as (h & Hh & I). apply without_in in I.
    apply (proj2 I). left. symmetry. exact Hh.
Qed.
