(** Proofs of C151 *)
From Coq Require Import String List NArith Bool Lia.
From Verif Require Import Bytes Http1Model Http1Spec RespondModel RespondSpec RespondProofs ResetModel ResetSpec.
Import ListNotations.
Open Scope N_scope.

(** ** The rescues, with the types of ResetModel.v *)
Lemma answers rescue rules e a emit client q : place rescue rules -> plain e <> [] -> decided rules (plain e) (Answers a) ->
  (forall l, a_location a = Some l -> valid_value l) ->
  exists rsp, respond rescue (new_respond emit client q) (@inr response error (plain e)) = Synthesized rsp (a_close a && client) /\
    (grpc_request q -> grpc_answer emit a rsp) /\
    (~ grpc_request q -> exists mention, mentions q mention /\ http_answer emit mention (q_version q) a rsp).
Proof. exact (answered rescue rules (plain e) a emit client q). Qed.
Lemma passes rescue rules e emit client q : place rescue rules -> plain e <> [] -> decided rules (plain e) Passes ->
  respond rescue (new_respond emit client q) (@inr response error (plain e)) = Failed (plain e).
Proof. exact (passed rescue rules (plain e) emit client q). Qed.

(** ** Causes *)
Lemma caused_has (ask : kind -> bool) e : is_caused_by ask (plain e) = true <-> exists n, In n e /\ ask (n_kind n) = true.
Proof.
  induction e as [|n e IH]; cbn [plain map is_caused_by].
  - split; [discriminate|intros (n & [] & _)].
  - fold (plain e). destruct (ask (n_kind n)) eqn:A.
    + split; [intros _; exists n; split; [left; reflexivity|exact A]|reflexivity].
    + rewrite IH. split; intros (m & I & Q); exists m.
      * split; [right; exact I|exact Q].
      * destruct I as [<-|I]; [congruence|]. auto.
Qed.
Definition harmless (k : kind) : Prop := k = H2_error \/ k = Io_error \/ k = Connect_timeout \/ k = Downgraded_h2 \/ k = Other.
Lemma harmless_none (r : rule) w e : Forall (fun n => harmless (n_kind n)) e -> (forall k t, harmless k -> r w k t = None) ->
  first_cause r w (plain e) = None.
Proof.
  intros F H. apply first_cause_none. intros k t I. unfold plain in I. apply in_map_iff in I as (n & [= <- <-] & I).
  apply H. rewrite Forall_forall in F. exact (F n I).
Qed.
Lemma none_of (r : rule) w e k0 : ~ has k0 e -> (forall k t, k <> k0 -> r w k t = None) -> first_cause r w (plain e) = None.
Proof.
  intros F H. apply first_cause_none. intros k t I. unfold plain in I. apply in_map_iff in I as (n & [= <- <-] & I).
  apply H. intros E. apply F. exists n. auto.
Qed.
Lemma some_of (r : rule) w e k0 v : has k0 e -> (forall t, r w k0 t = Some v) -> (forall k t, r w k t = Some v \/ r w k t = None) ->
  first_cause r w (plain e) = Some v.
Proof.
  intros (n & I & K) H D. induction e as [|m e IH]; [destruct I|]. cbn [plain map first_cause]. fold (plain e).
  destruct (r w (n_kind m) (n_text m)) as [v'|] eqn:R.
  - destruct (D (n_kind m) (n_text m)); congruence.
  - destruct I as [->|I]; [rewrite K, H in R; discriminate|auto].
Qed.
Lemma has_dec k e : (forall a, {a = k} + {a <> k}) -> has k e \/ ~ has k e.
Proof.
  intros D. induction e as [|n e [(m & I & H)|IH]].
  - right. intros (n & [] & _).
  - left. exists m. split; [right; exact I|exact H].
  - destruct (D (n_kind n)) as [E|E]; [left; exists n; split; [left; reflexivity|exact E]|].
    right. intros (m & [<-|I] & H); [congruence|]. apply IH. exists m. auto.
Qed.
Lemma plain_nil e : e <> [] -> plain e <> [].
Proof. destruct e; [congruence|discriminate]. Qed.
Lemma has_wrapped k w e : k <> Other -> has k (wrapped w e) <-> has k e.
Proof.
  intros K. unfold has, wrapped. split; intros (n & I & H); exists n; (split; [|exact H]).
  - apply in_app_iff in I as [I|I]; [|exact I]. apply in_map_iff in I as (t & <- & _). cbn in H. congruence.
  - apply in_app_iff. right. exact I.
Qed.
Lemma harmless_wrapped w e : Forall (fun n => harmless (n_kind n)) e -> Forall (fun n => harmless (n_kind n)) (wrapped w e).
Proof.
  intros H. unfold wrapped. apply Forall_app. split; [|exact H]. apply Forall_forall. intros n I. apply in_map_iff in I as (t & <- & _). unfold harmless. cbn. tauto.
Qed.
Lemma wrapped_nil w e : e <> [] -> wrapped w e <> [].
Proof. intros H E. apply app_eq_nil in E as [_ E]. exact (H E). Qed.

(** ** Verdicts *)
Lemma client_502 k e : k = Downgraded_h2 \/ k = Io_error -> has k e ->
  decided outbound_client_rules (plain e) (Answers (Answer 502 14 true (to_string (plain e)) None)).
Proof.
  intros K H. apply decided_iff. unfold outbound_client_rules. cbn [eval].
  rewrite (some_of _ _ e k (Answers (Answer 502 14 true (to_string (plain e)) None)) H); [reflexivity| |].
  - intros t. destruct K as [-> | ->]; reflexivity.
  - intros k' t. destruct k'; cbn; auto.
Qed.
Lemma client_first e : ~ has Downgraded_h2 e -> ~ has Io_error e ->
  first_cause (fun whole k _ => match k with Downgraded_h2 | Io_error => saying_it 502 14 true whole | _ => None end) (to_string (plain e)) (plain e) = None.
Proof.
  intros D I. apply first_cause_none. intros k t H. unfold plain in H. apply in_map_iff in H as (n & [= <- <-] & H).
  destruct (n_kind n) eqn:E; try reflexivity; exfalso; [apply D|apply I]; exists n; auto.
Qed.
Lemma client_504 e : ~ has Downgraded_h2 e -> ~ has Io_error e -> has Connect_timeout e ->
  decided outbound_client_rules (plain e) (Answers (Answer 504 4 true (to_string (plain e)) None)).
Proof.
  intros D I C. apply decided_iff. unfold outbound_client_rules. cbn [eval]. rewrite client_first by assumption.
  rewrite (some_of _ _ e Connect_timeout (Answers (Answer 504 4 true (to_string (plain e)) None)) C); [reflexivity|reflexivity|].
  intros k t. destruct k; cbn; auto.
Qed.
Lemma client_passes e : e <> [] -> ~ has Downgraded_h2 e -> ~ has Io_error e -> ~ has Connect_timeout e ->
  decided outbound_client_rules (plain e) Passes.
Proof.
  intros N D I C. apply decided_iff. unfold outbound_client_rules. cbn [eval]. rewrite client_first by assumption.
  rewrite (none_of _ _ e Connect_timeout C) by (intros k t K; destruct k; try reflexivity; congruence).
  rewrite (last_rule _ _ _ Passes); [reflexivity|apply plain_nil; exact N|reflexivity].
Qed.
Lemma in_client_passes e : e <> [] -> ~ has Io_error e -> ~ has Connect_timeout e -> decided inbound_client_rules (plain e) Passes.
Proof.
  intros N I C. apply decided_iff. unfold inbound_client_rules. cbn [eval].
  rewrite (none_of _ _ e Io_error I) by (intros k t K; destruct k; try reflexivity; congruence).
  rewrite (none_of _ _ e Connect_timeout C) by (intros k t K; destruct k; try reflexivity; congruence).
  rewrite (last_rule _ _ _ Passes); [reflexivity|apply plain_nil; exact N|reflexivity].
Qed.
Lemma in_client_502 e : has Io_error e -> decided inbound_client_rules (plain e) (Answers (Answer 502 14 true (to_string (plain e)) None)).
Proof.
  intros H. apply decided_iff. unfold inbound_client_rules. cbn [eval].
  rewrite (some_of _ _ e Io_error (Answers (Answer 502 14 true (to_string (plain e)) None)) H); [reflexivity|reflexivity|].
  intros k t. destruct k; cbn; auto.
Qed.
Lemma in_client_504 e : ~ has Io_error e -> has Connect_timeout e ->
  decided inbound_client_rules (plain e) (Answers (Answer 504 4 true (to_string (plain e)) None)).
Proof.
  intros I H. apply decided_iff. unfold inbound_client_rules. cbn [eval].
  rewrite (none_of _ _ e Io_error I) by (intros k t K; destruct k; try reflexivity; congruence).
  rewrite (some_of _ _ e Connect_timeout (Answers (Answer 504 4 true (to_string (plain e)) None)) H); [reflexivity|reflexivity|].
  intros k t. destruct k; cbn; auto.
Qed.
Ltac skip F := rewrite (harmless_none _ _ _ F) by (intros k t [-> |[-> |[-> |[-> | ->]]]]; reflexivity).
Lemma server_passes e : Forall (fun n => harmless (n_kind n)) e -> has H2_error e -> decided outbound_rules (plain e) Passes.
Proof.
  intros F H. apply decided_iff. unfold outbound_rules. cbn [eval]. do 9 skip F.
  rewrite (some_of _ _ e H2_error Passes H); [reflexivity|reflexivity|]. intros k t. destruct k; auto.
Qed.
Lemma server_500 e : e <> [] -> Forall (fun n => harmless (n_kind n)) e -> ~ has H2_error e ->
  decided outbound_rules (plain e) (Answers (Answer 500 13 true (bs "unexpected error") None)).
Proof.
  intros N F H. apply decided_iff. unfold outbound_rules. cbn [eval]. do 9 skip F.
  rewrite (none_of _ _ e H2_error H) by (intros k t K; destruct k; try reflexivity; congruence).
  rewrite (last_rule _ _ _ (Answers (Answer 500 13 true (bs "unexpected error") None))); [reflexivity|apply plain_nil; exact N|reflexivity].
Qed.
Lemma in_server_passes e : Forall (fun n => harmless (n_kind n)) e -> has H2_error e -> decided inbound_rules (plain e) Passes.
Proof.
  intros F H. apply decided_iff. unfold inbound_rules. cbn [eval]. do 10 skip F.
  rewrite (some_of _ _ e H2_error Passes H); [reflexivity|reflexivity|]. intros k t. destruct k; auto.
Qed.
Lemma in_server_500 e : e <> [] -> Forall (fun n => harmless (n_kind n)) e -> ~ has H2_error e ->
  decided inbound_rules (plain e) (Answers (Answer 500 13 true (bs "unexpected error") None)).
Proof.
  intros N F H. apply decided_iff. unfold inbound_rules. cbn [eval]. do 10 skip F.
  rewrite (none_of _ _ e H2_error H) by (intros k t K; destruct k; try reflexivity; congruence).
  rewrite (last_rule _ _ _ (Answers (Answer 500 13 true (bs "unexpected error") None))); [reflexivity|apply plain_nil; exact N|reflexivity].
Qed.

(** ** Reasons *)
Lemma downgrade_iff e r : downgrade_h2_error e = Some r <-> first_reason e r.
Proof.
  unfold first_reason. induction e as [|n e IH]; cbn [downgrade_h2_error].
  - split; [discriminate|]. intros (b & n & a & E & _). destruct b; discriminate.
  - destruct (reason n) as [x|] eqn:R.
    + assert (n_kind n = H2_error /\ n_reason n = Some x) as (K & X) by (unfold reason in R; destruct (n_kind n); try discriminate; auto).
      split.
      * intros [= ->]. exists [], n, e. split; [reflexivity|]. split; [exact K|]. split; [exact X|]. intros m [].
      * intros (b & m & a & E & K' & X' & F). destruct b as [|b0 b]; injection E as -> ->; [congruence|].
        rewrite (F b0 (or_introl eq_refl) K) in X. discriminate.
    + rewrite IH. split.
      * intros (b & m & a & -> & K & X & F). exists (n :: b), m, a. split; [reflexivity|]. split; [exact K|]. split; [exact X|].
        intros m' [<-|I] K'; [unfold reason in R; rewrite K' in R; exact R|exact (F m' I K')].
      * intros (b & m & a & E & K & X & F). destruct b as [|b0 b]; injection E as -> ->.
        -- unfold reason in R. rewrite K in R. congruence.
        -- exists b, m, a. split; [reflexivity|]. split; [exact K|]. split; [exact X|]. intros m' I. apply F. right. exact I.
Qed.
Lemma h2_reason_first e n : first_h2 e n -> h2_reason e = reason_or_internal n.
Proof.
  intros (b & a & -> & K & F). induction b as [|m b IH]; cbn [app h2_reason].
  - rewrite K. reflexivity.
  - destruct (n_kind m) eqn:E; try (apply IH; intros (x & I & Q); apply F; exists x; split; [right; exact I|exact Q]).
    exfalso. apply F. exists m. split; [left; reflexivity|exact E].
Qed.
Lemma first_h2_wrapped w e n : first_h2 e n -> first_h2 (wrapped w e) n.
Proof.
  intros (b & a & -> & K & F). exists (map (fun t => Node Other t None) w ++ b), a. split; [unfold wrapped; rewrite app_assoc; reflexivity|]. split; [exact K|].
  intros H. apply F. apply (has_wrapped H2_error w b); [discriminate|exact H].
Qed.
Lemma first_h2_has e n : first_h2 e n -> has H2_error e.
Proof. intros (b & a & -> & K & _). exists n. split; [apply in_elt|exact K]. Qed.
Lemma has_first_h2 e : has H2_error e -> exists n, first_h2 e n.
Proof.
  intros (n & I & K). induction e as [|m e IH]; [destruct I|]. assert (n_kind m = H2_error \/ n_kind m <> H2_error) as [E|E].
  { destruct (n_kind m); auto; right; discriminate. }
  - exists m, [], e. split; [reflexivity|]. split; [exact E|]. intros (x & [] & _).
  - destruct I as [->|I]; [congruence|]. destruct (IH I) as (x & b & a & -> & Kx & F). exists x, (m :: b), a. split; [reflexivity|]. split; [exact Kx|].
    intros (y & [<-|J] & Q); [congruence|]. apply F. exists y. auto.
Qed.

(** ** Through the proxy *)
Lemma transport_facts e : of_transport e -> e <> [] /\ Forall (fun n => harmless (n_kind n)) e /\ ~ has Downgraded_h2 e /\ transparent e = e.
Proof.
  intros (t & s & -> & F). split; [discriminate|]. rewrite Forall_forall in F. split; [|split; [|reflexivity]].
  - constructor; [unfold harmless; cbn; tauto|]. apply Forall_forall. intros n I. unfold harmless. destruct (F n I) as [H|[H|[H|H]]]; tauto.
  - intros (n & [<-|I] & K); [discriminate|]. destruct (F n I) as [H|[H|[H|H]]]; congruence.
Qed.
Lemma answers_client e a emit r h2 w server : e <> [] -> decided outbound_client_rules (plain e) (Answers a) -> a_location a = None -> a_close a = true ->
  answered_with emit r a (through outbound_client_rescue server (new_respond emit true r) h2 w e).
Proof.
  intros N D L C. destruct (answers _ _ e a emit true r Outbound_client (plain_nil _ N) D) as (rsp & R & G1 & G2); [congruence|].
  exists rsp. split; [unfold through; rewrite R, C; reflexivity|split; assumption].
Qed.
Lemma through_table e emit r h2 w : e <> [] -> Forall (fun n => harmless (n_kind n)) e -> ~ has Downgraded_h2 e ->
  let o := through outbound_client_rescue outbound_server_rescue (new_respond emit true r) h2 w e in
  (has Io_error e -> answered_with emit r (Answer 502 14 true (to_string (plain e)) None) o) /\
  (~ has Io_error e -> has Connect_timeout e -> answered_with emit r (Answer 504 4 true (to_string (plain e)) None) o) /\
  (~ has Io_error e -> ~ has Connect_timeout e ->
     (forall n, first_h2 e n -> o = if h2 then Stream_reset (reason_or_internal n) else Connection_ends) /\
     (~ has H2_error e -> answered_with emit r (Answer 500 13 true (bs "unexpected error") None) o)).
Proof.
  intros N F D. cbv zeta. split; [|split].
  - intros I. apply answers_client; try reflexivity; [exact N|]. apply (client_502 Io_error); auto.
  - intros I C. apply answers_client; try reflexivity; [exact N|]. apply client_504; assumption.
  - intros I C. unfold through. rewrite (passes _ _ _ emit true r Outbound_client (plain_nil _ N) (client_passes e N D I C)).
    pose proof (wrapped_nil w e N) as NW. pose proof (harmless_wrapped w e F) as FW. split.
    + intros n H. rewrite (passes _ _ _ emit true r Outbound_server (plain_nil _ NW)).
      * unfold not_answered. rewrite (h2_reason_first _ n (first_h2_wrapped w e n H)). reflexivity.
      * apply server_passes; [exact FW|]. apply has_wrapped; [discriminate|]. exact (first_h2_has _ _ H).
    + intros H. destruct (answers _ _ (wrapped w e) (Answer 500 13 true (bs "unexpected error") None) emit true r Outbound_server (plain_nil _ NW)) as (rsp & R & G1 & G2).
      * apply server_500; [exact NW|exact FW|]. rewrite has_wrapped by discriminate. exact H.
      * discriminate.
      * exists rsp. rewrite R. split; [reflexivity|split; assumption].
Qed.

Lemma upgraded describe emit r w e x : first_reason e x ->
  answered_with emit r (Answer 502 14 true (reset_message describe x) None) (outbound describe emit r (Upgraded false) w e).
Proof.
  intros H. apply downgrade_iff in H. unfold outbound. cbn [client_error]. unfold error_h2. rewrite H.
  apply answers_client; try reflexivity; [discriminate|].
  apply (client_502 Downgraded_h2 [Node Other (n_text (downgraded describe x)) None; downgraded describe x]); [auto|].
  exists (downgraded describe x). split; [right; left; reflexivity|reflexivity].
Qed.
Lemma table describe emit r c w e : of_transport e -> c <> Upgraded false \/ (forall x, ~ first_reason e x) ->
  let o := outbound describe emit r c w e in
  (has Io_error e -> answered_with emit r (Answer 502 14 true (to_string (plain e)) None) o) /\
  (~ has Io_error e -> has Connect_timeout e -> answered_with emit r (Answer 504 4 true (to_string (plain e)) None) o) /\
  (~ has Io_error e -> ~ has Connect_timeout e ->
     (forall n, first_h2 e n -> o = if version_eqb (q_version r) Http_2 then Stream_reset (reason_or_internal n) else Connection_ends) /\
     (~ has H2_error e -> answered_with emit r (Answer 500 13 true (bs "unexpected error") None) o)).
Proof.
  intros T C. destruct (transport_facts e T) as (N & F & D & P). cbv zeta. unfold outbound.
  assert (client_error describe c e = e) as ->.
  { destruct c as [| |[]]; cbn [client_error]; try reflexivity; [exact P|]. destruct C as [C|C]; [congruence|]. unfold error_h2.
    destruct (downgrade_h2_error e) as [x|] eqn:X; [|exact P]. apply downgrade_iff in X. destruct (C x X). }
  apply through_table; assumption.
Qed.
Lemma inbound_resets describe emit r w e n : of_transport e -> ~ has Io_error e -> ~ has Connect_timeout e -> first_h2 e n ->
  inbound describe emit r By_h2 w e = Stream_reset (reason_or_internal n).
Proof.
  intros T I C H. destruct (transport_facts e T) as (N & F & D & P). unfold inbound. cbn [client_error]. unfold through.
  rewrite (passes _ _ _ emit true r Inbound_client (plain_nil _ N) (in_client_passes e N I C)).
  rewrite (passes _ _ _ emit true r Inbound_server (plain_nil _ (wrapped_nil w e N))).
  - unfold not_answered. rewrite (h2_reason_first _ n (first_h2_wrapped w e n H)). reflexivity.
  - apply in_server_passes; [apply harmless_wrapped; exact F|]. apply has_wrapped; [discriminate|]. exact (first_h2_has _ _ H).
Qed.
Lemma in_answers_client e a emit r h2 w server : e <> [] -> decided inbound_client_rules (plain e) (Answers a) -> a_location a = None -> a_close a = true ->
  answered_with emit r a (through inbound_client_rescue server (new_respond emit true r) h2 w e).
Proof.
  intros N D L C. destruct (answers _ _ e a emit true r Inbound_client (plain_nil _ N) D) as (rsp & R & G1 & G2); [congruence|].
  exists rsp. split; [unfold through; rewrite R, C; reflexivity|split; assumption].
Qed.
Lemma inbound_table describe emit r c w e : of_transport e -> c = By_http1 \/ c = By_h2 ->
  let o := inbound describe emit r c w e in
  (has Io_error e -> answered_with emit r (Answer 502 14 true (to_string (plain e)) None) o) /\
  (~ has Io_error e -> has Connect_timeout e -> answered_with emit r (Answer 504 4 true (to_string (plain e)) None) o) /\
  (~ has Io_error e -> ~ has Connect_timeout e ->
     (forall n, first_h2 e n -> o = Stream_reset (reason_or_internal n)) /\
     (~ has H2_error e -> answered_with emit r (Answer 500 13 true (bs "unexpected error") None) o)).
Proof.
  intros T K. assert (inbound describe emit r c w e = inbound describe emit r By_h2 w e) as -> by (destruct K as [-> | ->]; reflexivity).
  destruct (transport_facts e T) as (N & F & _ & _). cbv zeta. split; [|split].
  - intros I. apply in_answers_client; try reflexivity; [exact N|]. apply in_client_502. exact I.
  - intros I C. apply in_answers_client; try reflexivity; [exact N|]. apply in_client_504; assumption.
  - intros I C. split; [intros n H; apply inbound_resets; assumption|]. intros H. unfold inbound. cbn [client_error]. unfold through.
    rewrite (passes _ _ _ emit true r Inbound_client (plain_nil _ N) (in_client_passes e N I C)).
    pose proof (wrapped_nil w e N) as NW. pose proof (harmless_wrapped w e F) as FW.
    destruct (answers _ _ (wrapped w e) (Answer 500 13 true (bs "unexpected error") None) emit true r Inbound_server (plain_nil _ NW)) as (rsp & R & G1 & G2).
    + apply in_server_500; [exact NW|exact FW|]. rewrite has_wrapped by discriminate. exact H.
    + discriminate.
    + exists rsp. rewrite R. split; [reflexivity|split; assumption].
Qed.
Lemma received_facts t t' x : let e := received t t' x in
  of_transport e /\ ~ has Io_error e /\ ~ has Connect_timeout e /\ first_h2 e (Node H2_error t' (Some x)) /\ first_reason e x.
Proof.
  cbv zeta. unfold received. split; [exists t, [Node H2_error t' (Some x)]; split; [reflexivity|constructor; [left; reflexivity|constructor]]|].
  split; [intros (n & [<-|[<-|[]]] & K); discriminate|]. split; [intros (n & [<-|[<-|[]]] & K); discriminate|].
  split.
  - exists [Node Other t None], []. split; [reflexivity|]. split; [reflexivity|]. intros (n & [<-|[]] & K); discriminate.
  - exists [Node Other t None], (Node H2_error t' (Some x)), []. split; [reflexivity|]. split; [reflexivity|]. split; [reflexivity|].
    intros m [<-|[]] K; discriminate.
Qed.
Lemma two_proxies describe emit emit' r0 r w w' t t' u u' x : let e := received t t' x in
  inbound describe emit r0 By_h2 w e = Stream_reset x /\
  (q_version r = Http_2 -> outbound describe emit' r By_h2 w' (received u u' x) = Stream_reset x) /\
  answered_with emit' r (Answer 502 14 true (reset_message describe x) None) (outbound describe emit' r (Upgraded false) w' (received u u' x)).
Proof.
  cbv zeta. destruct (received_facts t t' x) as (T & I & C & H & _). destruct (received_facts u u' x) as (T2 & I2 & C2 & H2 & R2). cbv zeta in *.
  split; [rewrite (inbound_resets _ _ _ _ _ _ T I C H); reflexivity|]. split.
  - intros V. destruct (table describe emit' r By_h2 w' _ T2) as (_ & _ & Q); [left; discriminate|]. destruct (Q I2 C2) as (Q1 & _). rewrite (Q1 _ H2), V. reflexivity.
  - apply upgraded. exact R2.
Qed.
Lemma kind_dec k : k = H2_error \/ k = Io_error \/ k = Connect_timeout -> forall a, {a = k} + {a <> k}.
Proof. intros K a. destruct a; try (right; destruct K as [->|[->| ->]]; discriminate); destruct k; try (left; reflexivity); right; discriminate. Qed.
Lemma reason_dec e : (exists x, first_reason e x) \/ forall x, ~ first_reason e x.
Proof.
  destruct (downgrade_h2_error e) as [x|] eqn:D; [left; exists x; apply downgrade_iff; exact D|]. right. intros x H. apply downgrade_iff in H. congruence.
Qed.
Lemma ends describe emit r w e : of_transport e -> 
  (outbound describe emit r (Upgraded false) w e = Connection_ends <->
   q_version r <> Http_2 /\ has H2_error e /\ (forall x, ~ first_reason e x) /\ ~ has Io_error e /\ ~ has Connect_timeout e).
Proof.
  intros T. assert (q_version r = Http_2 \/ q_version r <> Http_2) as V by (destruct (q_version r); auto; right; discriminate).
  assert (version_eqb (q_version r) Http_2 = false <-> q_version r <> Http_2) as VF by (destruct (q_version r); cbn; split; congruence).
  split.
  - intros E. destruct (reason_dec e) as [(x & X)|X].
    + destruct (upgraded describe emit r w e x X) as (rsp & Q & _). congruence.
    + destruct (table describe emit r (Upgraded false) w e T (or_intror X)) as (A & B & C). cbv zeta in *.
      destruct (has_dec Io_error e) as [I|I]; [apply kind_dec; auto|destruct (A I) as (? & Q & _); congruence|].
      destruct (has_dec Connect_timeout e) as [J|J]; [apply kind_dec; auto|destruct (B I J) as (? & Q & _); congruence|].
      destruct (C I J) as (C1 & C2). destruct (has_dec H2_error e) as [H|H]; [apply kind_dec; auto| |destruct (C2 H) as (? & Q & _); congruence].
      destruct (has_first_h2 e H) as (n & Fn). rewrite (C1 n Fn) in E. assert (version_eqb (q_version r) Http_2 = false) as Q by (destruct (version_eqb (q_version r) Http_2); [discriminate|reflexivity]). apply VF in Q. auto.
  - intros (Q & H & X & I & J). destruct (table describe emit r (Upgraded false) w e T (or_intror X)) as (_ & _ & C). destruct (C I J) as (C1 & _).
    destruct (has_first_h2 e H) as (n & Fn). rewrite (C1 n Fn). apply VF in Q. rewrite Q. reflexivity.
Qed.

(** ** Bodies *)
Lemma body_upgraded describe e : 
  (forall x, first_reason e x -> plain (body_error describe (Upgraded false) e) = [(Downgraded_h2, reset_message describe x)]) /\
  ((forall x, ~ first_reason e x) -> body_error describe (Upgraded false) e = e).
Proof.
  cbn [body_error]. split.
  - intros x H. apply downgrade_iff in H. rewrite H. reflexivity.
  - intros H. destruct (downgrade_h2_error e) as [x|] eqn:D; [|reflexivity]. apply downgrade_iff in D. destruct (H x D).
Qed.
Lemma body_passes emit e b : b = Passthru \/ b = Grpc_rescue emit -> of_transport e -> ~ has Io_error e -> ~ has Connect_timeout e -> has H2_error e ->
  body_through outbound_client_rescue outbound_server_rescue b e = Body_error (plain e).
Proof.
  intros B T I C H. destruct (transport_facts e T) as (N & F & D & P). destruct B as [->| ->]; [reflexivity|].
  pose proof (settled _ _ _ _ Outbound_client (plain_nil _ N) (client_passes e N D I C)) as S1. pose proof (settled _ _ _ _ Outbound_server (plain_nil _ N) (server_passes e F H)) as S2.
  cbn [settles] in S1, S2. unfold body_through. cbn [poll_frame]. unfold rescue_trailers. rewrite S1. cbn [snd poll_frame]. unfold rescue_trailers. rewrite S2. reflexivity.
Qed.
