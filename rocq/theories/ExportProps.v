(** C128 and C129: the export of spans. *)
From Coq Require Import String List NArith Arith Lia.
From Verif Require Import Bytes TraceModel ExportModel ExportSpec ExportProofs.
Import ListNotations.
Open Scope N_scope.

(** A span with that name, and ids of the right lengths *)
Definition named (n : N) : raw :=
  Raw (repeat 1 16) (repeat 2 8) (repeat 3 8) [n] 0 0 [(bs "http.method"%string, bs "GET"%string)] Server [(bs "app"%string, bs "web"%string)].
Definition sent (n : N) : data :=
  Data (repeat 1 16) (repeat 2 8) (repeat 3 8) [n] 0 0 [(bs "app"%string, bs "web"%string); (bs "http.method"%string, bs "GET"%string)] Server true.
(** One whose trace id is too long *)
Definition too_long : raw := Raw (repeat 1 20) (repeat 2 8) (repeat 3 8) [7] 0 0 [] Client [].

(** Two spans come, are flushed by the tick at 10 s, and the call fails; a third and one that cannot be sent come; the call for
    the third is not made yet. *)
Definition some_events : list event :=
  [Comes 1000 (named 1); Comes 4000 (named 2); Ticks 10001; Puts 10001; Takes; Comes 10500 (named 3); Answers false;
   Comes 10600 too_long; Ticks 20001; Puts 20001; Comes 20002 (named 4)].
Example C128_case : in_order 0 some_events /\ received some_events = [sent 1; sent 2; sent 3; sent 4] /\
  exists x, run (start 0) some_events = Some x /\ calls x = [[sent 1; sent 2]] /\ x_slot x = Some [sent 3] /\
    x_phase x = Collects [sent 4] 30001 /\ delivered x = [].
Proof.
  split; [cbn; repeat split; discriminate|]. split; [reflexivity|]. eexists. split; [vm_compute; reflexivity|]. repeat split.
Qed.

(* ---- C128 ---- *)

(** The batches that are sent are, one after the other, the spans in the order in which they came, each once; no more than two
    batches of spans are waiting to be sent. *)
Theorem C128_in_order : forall now es x, run (start now) es = Some x ->
  exists waiting, received es = concat (calls x) ++ waiting /\ (List.length waiting <= 2 * MAX_BATCH_SIZE)%nat.
Proof. exact kept. Qed.
Print Assumptions C128_in_order.

(** No batch is empty or of more than a thousand spans. *)
Theorem C128_batches : forall now es x b, run (start now) es = Some x -> In b (calls x) ->
  b <> [] /\ (List.length b <= 1000)%nat.
Proof. exact batches. Qed.
Print Assumptions C128_batches.

(** A batch that is being collected has the spans that came last, and as soon as ten seconds have passed since one of them
    came, the tick closes it. *)
Theorem C128_timely : forall now es x batch tick, in_order now es -> run (start now) es = Some x ->
  x_phase x = Collects batch tick ->
  exists before last, arrivals es = before ++ last /\ map snd last = batch /\
    forall t, (exists p, In p last /\ fst p + 10000 <= t) ->
      exists y, step x (Ticks t) = Some y /\ x_phase y = Reserves batch false.
Proof. exact timely. Qed.
Print Assumptions C128_timely.

(** And the tick does not come sooner: ten seconds pass since the batch before was put into the channel, or since the start. *)
Theorem C128_not_sooner : forall now es x t last y, in_order now (es ++ [Ticks t]) -> run (start now) es = Some x ->
  previous now es last -> step x (Ticks t) = Some y -> last + 10000 <= t.
Proof. exact not_sooner. Qed.
Print Assumptions C128_not_sooner.
Example C128_not_sooner_case : exists x y, run (start 0) [Comes 1000 (named 1); Ticks 10001; Puts 10002; Takes] = Some x /\
  previous 0 [Comes 1000 (named 1); Ticks 10001; Puts 10002; Takes] 10002 /\ step x (Ticks 20002) = Some y /\ step x (Ticks 20001) = None.
Proof.
  do 2 eexists. split; [vm_compute; reflexivity|].
  split; [apply (Last_batch _ _ [Comes 1000 (named 1); Ticks 10001] [Takes] _ eq_refl); intros u [H|[]]; discriminate|].
  split; vm_compute; reflexivity.
Qed.

(** But when the spans end, the last batch is put into the channel and the task returns, with nobody to take it: the spans
    that are collected at that time are never sent, whatever the collector does. *)
Theorem C128_last_refuted : forall now es x d batch tick, run (start now) es = Some x ->
  x_phase x = Collects (d :: batch) tick ->
  forall t l u y, (forall e, In e l -> e = Takes \/ exists ok, e = Answers ok) ->
  run (start now) (es ++ [Ends t] ++ l ++ [Puts u]) = Some y ->
  (forall e, step y e = None) /\ received es = concat (calls y) ++ d :: batch.
Proof. exact never_sent. Qed.
Print Assumptions C128_last_refuted.
Example C128_last_case : exists y, run (start 0) (some_events ++ [Ends 20003] ++ [Takes] ++ [Puts 20003]) = Some y /\
  calls y = [[sent 1; sent 2]; [sent 3]].
Proof. eexists. split; vm_compute; reflexivity. Qed.

(** A call that fails is not made again, and its spans are lost, also when the next one succeeds. *)
Theorem C128_failed_refuted : ~ forall now es x, run (start now) es = Some x -> x_flight x = None -> x_slot x = None ->
  (exists l b, x_answered x = l ++ [(b, true)]) ->
  (exists tick, x_phase x = Collects [] tick) -> forall d, In d (received es) -> In d (delivered x).
Proof.
  intros H.
  assert (R : exists x, run (start 0) [Comes 1000 (named 1); Ticks 10001; Puts 10001; Takes; Answers false;
      Comes 10500 (named 2); Ticks 20001; Puts 20001; Takes; Answers true] = Some x /\ x_flight x = None /\ x_slot x = None /\
      x_answered x = [([sent 1], false)] ++ [([sent 2], true)] /\ (exists tick, x_phase x = Collects [] tick) /\ delivered x = [sent 2]).
  { eexists. split; [vm_compute; reflexivity|]. repeat split. eexists. reflexivity. }
  destruct R as (x & R & F & S & A & P & D).
  specialize (H _ _ _ R F S (ex_intro _ _ (ex_intro _ _ A)) P (sent 1) (or_introl eq_refl)). rewrite D in H.
  destruct H as [H|[]]. discriminate.
Qed.
Print Assumptions C128_failed_refuted.

(* ---- C129 ---- *)

(** A span is sent exactly when its ids have the lengths that the protocol asks for, and then with what was recorded: its ids,
    its name, its times and its kind, and as attributes the labels that all spans share and then its own. *)
Theorem C129_converted : forall s d, convert_span s = Some d <->
  len (r_trace_id s) = 16 /\ len (r_span_id s) = 8 /\ len (r_parent_id s) = 8 /\
  d = Data (r_trace_id s) (r_span_id s) (r_parent_id s) (r_name s) (r_start s) (r_end s) (r_shared s ++ r_labels s) (r_kind s)
        (match r_kind s with Client => false | Server => true end).
Proof. exact convert_iff. Qed.
Print Assumptions C129_converted.
Example C129_case : convert_span (named 9) = Some (sent 9) /\ convert_span too_long = None.
Proof. split; reflexivity. Qed.

(** So for a sampled request whose trace context is understood, its span is sent exactly when the trace id of that context is
    of 16 bytes and its parent id of 8. *)
Theorem C129_exported : forall hs c id hs' sp name from to labels shared k, len id = 8 -> unpack_trace_context hs = Ctx c ->
  trace_call true hs id = Forward hs' (Some sp) ->
  ((exists d, convert_span (recorded sp name from to labels shared k) = Some d) <->
   len (c_trace_id c) = 16 /\ len (c_parent_id c) = 8).
Proof. exact exported. Qed.
Print Assumptions C129_exported.
Example C129_exported_case : exists hs' sp c,
  trace_call true [(TRACEPARENT, bs "00-4bf92f3577b34da6a3ce929d0e0e4736-00f067aa0ba902b7-01")] (repeat 9 8) = Forward hs' (Some sp) /\
  unpack_trace_context [(TRACEPARENT, bs "00-4bf92f3577b34da6a3ce929d0e0e4736-00f067aa0ba902b7-01")] = Ctx c /\
  len (c_trace_id c) = 16 /\ len (c_parent_id c) = 8.
Proof. do 3 eexists. split; [vm_compute; reflexivity|]. split; [vm_compute; reflexivity|]. split; reflexivity. Qed.

(** But a context with longer ids is forwarded and its span recorded, and then it is never sent. *)
Theorem C129_long_refuted : ~ forall hs id hs' sp name from to labels shared k, len id = 8 ->
  trace_call true hs id = Forward hs' (Some sp) ->
  exists d, convert_span (recorded sp name from to labels shared k) = Some d.
Proof.
  intros H.
  destruct (H [(TRACEPARENT, bs "00-4bf92f3577b34da6a3ce929d0e0e47360011-00f067aa0ba902b7-01"%string)] (repeat 9 8)
    [(TRACEPARENT, bs "00-4bf92f3577b34da6a3ce929d0e0e47360011-0909090909090909-01"%string)]
    (Span [75; 249; 47; 53; 119; 179; 77; 166; 163; 206; 146; 157; 14; 14; 71; 54; 0; 17] (repeat 9 8) [0; 240; 103; 170; 11; 169; 2; 183])
    [] 0 0 [] [] Server eq_refl) as (d & E); [vm_compute; reflexivity|discriminate].
Qed.
Print Assumptions C129_long_refuted.

(** The counters of requests and of spans are not counted: they are zero, whatever was sent. *)
Theorem C129_counters_refuted : forall now es x, run (start now) es = Some x -> x_counters x = Counters 1 0 0.
Proof. exact counted. Qed.
Print Assumptions C129_counters_refuted.
