(** Theorems about log streams (C145). *)
From Coq Require Import String List Arith NArith Bool Lia.
From Verif Require Import Bytes StreamModel StreamSpec StreamProofs.
Import ListNotations.
Local Open Scope nat_scope.

(** Filters that let a level and what is more severe pass: they meet what the theorems ask for. *)
Definition level (f meta ctx : N) : bool := (f <=? meta)%N.
Definition level_cares (f meta : N) : interest := if (f <=? meta)%N then Always else Never.
Definition plain (n : nat) : bool := false.
Example C145_params : truthful level level_cares.
Proof. intros f meta ctx. unfold level_cares, level. destruct (f <=? meta)%N; split; auto; discriminate. Qed.

(** While its client has not gone, every line that passes the filter of a stream since it was started
    is on its way to the client, in order, or is counted as lost: in the counter, in the report that is
    being sent or in one that has been. *)
Theorem C145_lines : forall enabled cares counts all i f h, truthful enabled cares ->
  since all i f h -> ~ In (Hang_up i) h ->
  exists r, nth_error (st_streams (run enabled cares counts init all)) i = Some r /\
    without (wanted enabled f h)
      (lines (r_read r ++ r_body r) ++ match r_task r with Sending l => [l] | _ => [] end ++ r_queue r)
      (reported (r_read r ++ r_body r) + match r_task r with Reporting n => n | _ => 0 end + r_dropped r).
Proof.
  intros enabled cares counts all i f h T S N. destruct (account_since enabled cares counts all i f h T S N) as (r & R & A).
  exists r. split; auto. exact (a_all _ _ A).
Qed.
Print Assumptions C145_lines.

(** No loss stays silent: when the task runs and the client reads for long enough, the client has all
    lines but those that it has been told are lost. *)
Theorem C145_accounted : forall enabled cares counts all i f h, truthful enabled cares ->
  since all i f h -> ~ In (Hang_up i) h ->
  exists k, forall n, k <= n ->
    let got := has_read (run enabled cares counts init (all ++ rounds i n)) i in
    without (wanted enabled f h) (lines got) (reported got).
Proof. exact drained. Qed.
Print Assumptions C145_accounted.

Definition five : list event :=
  [Open 3; Open 5; Emit 4 0 [97; 10]; Emit 2 0 [98; 10]; Emit 5 0 [99; 10]; Hang_up 1; Task 1; Task 1; Open 2; Emit 3 0 [100; 10]]%N.
Example C145_accounted_case :
  since five 0 3 [Open 5; Emit 4 0 [97; 10]; Emit 2 0 [98; 10]; Emit 5 0 [99; 10]; Hang_up 1; Task 1; Task 1; Open 2; Emit 3 0 [100; 10]]%N /\
  has_read (run level level_cares plain init (five ++ rounds 0 7)) 0 = [Line [97; 10]; Line [99; 10]; Line [100; 10]]%N /\
  has_read (run level level_cares plain init (five ++ rounds 2 3)) 2 = [Line [100; 10]]%N /\
  map r_idx (st_streams (run level level_cares plain init five)) = [0; 1; 1].
Proof. split; [exists []; auto | repeat split; vm_compute; reflexivity]. Qed.

(** With fewer than 511 lines waiting, a line is not lost. *)
Theorem C145_room : forall enabled cares counts all i f h r meta ctx line, truthful enabled cares ->
  since all i f h -> nth_error (st_streams (run enabled cares counts init all)) i = Some r -> r_task r <> Ended ->
  enabled f meta ctx = true -> List.length (r_queue r) < 511 ->
  exists r', nth_error (st_streams (run enabled cares counts init (all ++ [Emit meta ctx line]))) i = Some r' /\
    r_queue r' = r_queue r ++ [line] /\ r_dropped r' = r_dropped r.
Proof. exact room. Qed.
Print Assumptions C145_room.

(** No stream holds more than 512 lines and 1024 frames. *)
Theorem C145_bounded : forall enabled cares counts all i r, truthful enabled cares ->
  nth_error (st_streams (run enabled cares counts init all)) i = Some r ->
  List.length (r_queue r) <= 512 /\ List.length (r_body r) <= 1024.
Proof. exact bounded. Qed.
Print Assumptions C145_bounded.

(** What a client reads depends on its own stream and on what is logged: not on other streams, on their
    filters, or on clients that are slow or go away. *)
Theorem C145_alone : forall enabled cares counts all all' i f h h', truthful enabled cares ->
  since all i f h -> since all' i f h' -> filter (concerns i) h = filter (concerns i) h' ->
  has_read (run enabled cares counts init all) i = has_read (run enabled cares counts init all') i.
Proof. exact alone. Qed.
Print Assumptions C145_alone.

(** Exactly the streams that have not ended are written to, and asked what they care for. *)
Theorem C145_registered : forall enabled cares counts all, truthful enabled cares ->
  let s := run enabled cares counts init all in
  NoDup (map w_id (writers (st_slab s))) /\ NoDup (st_filters s) /\
  (forall i, In i (map w_id (writers (st_slab s))) <-> live s i) /\
  (forall i, In i (st_filters s) <-> live s i).
Proof. exact registered. Qed.
Print Assumptions C145_registered.

(** Without a stream, nothing is of interest. *)
Theorem C145_idle : forall enabled cares counts all meta, truthful enabled cares ->
  (forall i, ~ live (run enabled cares counts init all) i) -> callsite_enabled cares (run enabled cares counts init all) meta = Never.
Proof. exact idle. Qed.
Print Assumptions C145_idle.
Example C145_idle_case : let s := run level level_cares plain init [Open 3; Emit 4 0 [97; 10]; Hang_up 0; Task 0; Task 0]%N in
  (forall i, ~ live s i) /\ st_slab s = Slab [None] [0] /\ st_filters s = [].
Proof.
  vm_compute. split; [|auto]. intros i (r & H & E). destruct i as [|[|i]]; try discriminate. inversion H; subst r. now apply E.
Qed.

(** Once the client has gone and a line passes the filter, the stream ends as soon as its task has run
    twice. *)
Theorem C145_hang_up_partial : forall enabled cares counts all i f h h', truthful enabled cares ->
  since all i f (h ++ Hang_up i :: h') -> wanted enabled f h' <> [] ->
  ~ live (run enabled cares counts init (all ++ [Task i; Task i])) i.
Proof. exact hung_up. Qed.
Print Assumptions C145_hang_up_partial.

(** Until then it does not end, whatever happens. *)
Theorem C145_quiet : forall enabled cares counts all i f h, truthful enabled cares ->
  since all i f h -> wanted enabled f h = [] -> live (run enabled cares counts init all) i.
Proof. exact quiet. Qed.
Print Assumptions C145_quiet.

(** So a stream whose client has gone need not end. *)
Theorem C145_hang_up_refuted : ~ forall enabled cares counts all i f h, truthful enabled cares ->
  since all i f h -> In (Hang_up i) h -> exists n, ~ live (run enabled cares counts init (all ++ repeat (Task i) n)) i.
Proof.
  intros H. pose proof C145_params as T.
  destruct (H level level_cares plain [Open 3; Hang_up 0]%N 0 3%N [Hang_up 0] T) as (n & L).
  - exists []; auto.
  - now left.
  - apply L. apply (quiet level level_cares plain _ 0 3%N ([Hang_up 0] ++ repeat (Task 0) n) T).
    + exists []. auto.
    + simpl. clear. induction n; simpl; auto.
Qed.
Print Assumptions C145_hang_up_refuted.

(** What reports a loss is an object with its number, which is not zero. *)
Theorem C145_report : forall enabled cares counts all i n decimal, truthful enabled cares ->
  In (Dropped n) (has_read (run enabled cares counts init all) i) ->
  (0 < n)%N /\ text decimal (Dropped n) = bs "{""dropped_events"":"%string ++ decimal n ++ bs "}"%string.
Proof. exact (fun enabled cares counts all i n decimal T H => conj (says enabled cares counts all i n T H) eq_refl). Qed.
Print Assumptions C145_report.

(** It does not end its line, though, as all that is logged does: the next object is on the same line. *)
Theorem C145_one_line_refuted : ~ forall enabled cares counts decimal all i x, truthful enabled cares ->
  (forall meta ctx line, In (Emit meta ctx line) all -> one_line line) ->
  In x (has_read (run enabled cares counts init all) i) -> one_line (text decimal x).
Proof.
  intros H. pose proof C145_params as T.
  assert (L : one_line [97; 10]%N). { exists [97%N]. split; auto. intros [E|[]]. discriminate. }
  specialize (H level level_cares plain (fun _ => []) (Open 3%N :: repeat (Emit 3 0 [97; 10])%N (S channel_capacity) ++ rounds 0 4) 0 (Dropped 1) T).
  destruct H as (a & E & _).
  - intros meta ctx line I. destruct I as [I|I]; [discriminate|].
    apply in_app_iff in I. destruct I as [I|I].
    + apply repeat_spec in I. inversion I; subst; exact L.
    + simpl in I. repeat (destruct I as [I|I]; [discriminate|]). destruct I.
  - vm_compute. auto.
  - assert (X : last (text (fun _ => []) (Dropped 1)) 0%N = last (a ++ [10%N]) 0%N) by now rewrite E.
    rewrite last_last in X. vm_compute in X. discriminate.
Qed.
Print Assumptions C145_one_line_refuted.
