(** Properties C12 (replays carry the same body), C13 (bounded buffering) and C47
    (contracts of bodies and buffers). *)
From Coq Require Import String List NArith Lia.
From Verif Require Import Bytes ReplayModel ReplaySpec ReplayProofs.
Import ListNotations.
Open Scope N_scope.

(** Whatever polls, clones and drops are made, on however many handles: a handle
    that started after something had been read is given a prefix of the body's data;
    if it was told the end, it was given exactly the body's data and the body's
    trailers; trailers come once, and only after all the data. *)
Theorem C12_replay_same_body :
  forall b limit ops w t i,
    run (init b limit) ops = (w, t) -> started_late b i t ->
    (exists r, body_data b = data_of i t ++ r) /\
    (ended i t -> data_of i t = body_data b /\
       trailers_of i t = match body_trailers b with Some x => [x] | None => [] end) /\
    (trailers_of i t = [] \/
       trailers_of i t = match body_trailers b with Some x => [x] | None => [] end /\ data_of i t = body_data b).
Proof. exact replay_faithful. Qed.
Print Assumptions C12_replay_same_body.

(** It fails with the "capped" error only if the limit had been exceeded before. *)
Theorem C12_capped_only_if_exceeded :
  forall b limit ops w t i,
    run (init b limit) ops = (w, t) -> started_late b i t -> In (i, PCapped) t ->
    exists t1 t2 j, t = t1 ++ t2 /\ untouched i t1 /\ limit < len (data_of j t1).
Proof. exact capped_only_if. Qed.
Print Assumptions C12_capped_only_if_exceeded.

(** A replay that starts once the limit has been exceeded gets nothing but errors. *)
Theorem C12_refused_after_limit :
  forall b limit ops1 ops2 w1 t1 w2 t2 i j,
    run (init b limit) ops1 = (w1, t1) -> run w1 ops2 = (w2, t2) ->
    started_late b j t1 -> limit < len (data_of j t1) -> i <> 0%nat -> untouched i t1 ->
    forall p, In (i, p) t2 -> p = PCapped \/ p = PPanic.
Proof. exact refused_after_limit. Qed.
Print Assumptions C12_refused_after_limit.

(** Reading a handle whose state is at hand comes to an end, for any body. *)
Theorem C12_reads_come_to_an_end :
  forall b limit ops w t i c,
    run (init b limit) ops = (w, t) -> is_capped w i = Some c ->
    exists w' t', run w (repeat (Poll i) (length b + 3)) = (w', t') /\ (In (i, PEnd) t' \/ In (i, PCapped) t').
Proof. exact reads_come_to_an_end. Qed.
Print Assumptions C12_reads_come_to_an_end.

(** The condition is needed: a replay begun before anything was read is given the
    first chunk twice. *)
Theorem C12_unread_replay_refuted :
  exists b limit ops i,
    let '(_, t) := run (init b limit) ops in
    ended i t /\ body_data b = bs "hi" /\ data_of i t = bs "hihi".
Proof.
  exists [IData (bs "hi")], 100, [Clone 0; Drop 0; Poll 1; Poll 1; Poll 1], 1%nat.
  vm_compute. repeat split. right. right. left. reflexivity.
Qed.
Print Assumptions C12_unread_replay_refuted.

(** A case that meets the hypotheses: the first attempt reads "he" and is dropped,
    the second reads two chunks and is dropped, the third reads everything. *)
Definition demo_body : body :=
  [IData (bs "he"); IPending; IData (bs "llo"); IData (bs "!"); ITrailers [(bs "a", bs "b")]].
Definition demo_ops : list op :=
  [Clone 0; Poll 0; Drop 0; Clone 1; Poll 1; Poll 1; Poll 1; Drop 1; Poll 2; Poll 2; Poll 2; Poll 2].
Example C12_demo :
  let '(w, t) := run (init demo_body 10) demo_ops in
  started_late demo_body 2 t /\ ended 2 t /\ data_of 2 t = bs "hello!" /\
  trailers_of 2 t = [[(bs "a", bs "b")]] /\ data_of 1 t = bs "hello".
Proof.
  vm_compute. split; [|repeat split; auto 20].
  right. right. eexists [_], _, 0%nat, _. split; [reflexivity|]. split; [|split; [left; reflexivity|discriminate]].
  intros p [H|[]]. discriminate.
Qed.
Example C12_demo_capped :
  let '(w1, t1) := run (init demo_body 4) [Clone 0; Poll 0; Poll 0; Poll 0] in
  started_late demo_body 0 t1 /\ 4 < len (data_of 0 t1) /\ untouched 1 t1.
Proof.
  vm_compute. split; [now left|]. split; [reflexivity|].
  intros p [H|[H|[H|[]]]]; discriminate.
Qed.

(** ** C13 *)
(** The bytes kept for replays never exceed the limit. *)
Theorem C13_buffer_bounded :
  forall b limit ops w t, run (init b limit) ops = (w, t) -> buffered w <= limit.
Proof. exact buffer_bounded. Qed.
Print Assumptions C13_buffer_bounded.

(** Exceeding the limit discards the buffer, for ever. *)
Theorem C13_exceeding_discards :
  forall b limit ops w t i, run (init b limit) ops = (w, t) -> started_late b i t ->
    limit < len (data_of i t) -> buffered w = 0.
Proof. exact over_limit_discarded. Qed.
Print Assumptions C13_exceeding_discards.

(** and every handle that can tell says so. *)
Theorem C13_exceeding_reported :
  forall b limit ops w t i j c, run (init b limit) ops = (w, t) -> started_late b i t ->
    limit < len (data_of i t) -> is_capped w j = Some c -> c = true.
Proof. exact over_limit_capped. Qed.
Print Assumptions C13_exceeding_reported.

Theorem C13_capped_for_ever :
  forall b limit ops1 ops2 w1 t1 w2 t2 i,
    run (init b limit) ops1 = (w1, t1) -> is_capped w1 i = Some true -> run w1 ops2 = (w2, t2) ->
    buffered w2 = 0 /\ forall j c, is_capped w2 j = Some c -> c = true.
Proof. exact capped_for_ever. Qed.
Print Assumptions C13_capped_for_ever.

Example C13_demo :
  let '(w, t) := run (init demo_body 10) demo_ops in buffered w = 6.
Proof. vm_compute. reflexivity. Qed.
Example C13_demo_capped :
  let '(w, t) := run (init demo_body 4) [Clone 0; Poll 0; Poll 0; Poll 0] in
  is_capped w 0 = Some true /\ 4 < len (data_of 0 t).
Proof. vm_compute. split; reflexivity. Qed.

(** ** C47 *)
(** A handle that reports the end of its stream has nothing more to give. *)
Theorem C47_end_of_stream_sound :
  forall b limit eos ops w t i h w' t',
    (forall r, eos r = true -> r = []) ->
    run (init b limit) ops = (w, t) -> nth_error (w_handles w) i = Some (Some h) ->
    is_end_stream eos (eos b) h = true -> step w (Poll i) = (w', t') ->
    t' = [(i, PEnd)] \/ t' = [(i, PPanic)].
Proof. exact end_of_stream_sound. Qed.
Print Assumptions C47_end_of_stream_sound.
(** A body that has nothing from the start says so in every copy, and whatever was read: its length is known to be zero. *)
Theorem C47_empty_from_the_start :
  forall eos b limit ops w t i h, eos b = true -> run (init b limit) ops = (w, t) -> nth_error (w_handles w) i = Some (Some h) ->
    is_end_stream eos (eos b) h = true.
Proof. exact empty_from_the_start. Qed.
Print Assumptions C47_empty_from_the_start.

(** The buffer delivers its bytes in order through `advance` and `copy_to_bytes`, as
    long as it holds no empty chunk, and then it has none afterwards either, so that the first chunk is never empty
    while bytes remain. *)
Theorem C47_advance :
  forall bufs n,
    (n <= total bufs -> exists bufs', advance bufs n = Some bufs' /\ concat bufs' = skipn (N.to_nat n) (concat bufs) /\
       (Forall (fun c => c <> []) bufs -> Forall (fun c => c <> []) bufs')) /\
    (total bufs < n -> advance bufs n = None).
Proof. exact (fun bufs n => conj (advance_spec' bufs n) (advance_beyond bufs n)). Qed.
Print Assumptions C47_advance.

Theorem C47_copy_partial :
  forall fuel bufs n, Forall (fun c => c <> []) bufs -> (length bufs <= fuel)%nat ->
    (n <= total bufs -> exists rest, copy_to_bytes fuel bufs n = Copied (firstn (N.to_nat n) (concat bufs)) rest /\
       concat rest = skipn (N.to_nat n) (concat bufs) /\ Forall (fun c => c <> []) rest) /\
    (total bufs < n -> copy_to_bytes fuel bufs n = CopyPanic).
Proof. exact copy_spec. Qed.
Print Assumptions C47_copy_partial.

(** A body that begins with an empty data frame is buffered with an empty chunk in
    front; copying from its replay never comes to an end, and its first chunk is
    empty although bytes remain. *)
Theorem C47_empty_frame_refuted :
  exists b ops w t s, run (init b 100) ops = (w, t) /\ w_shared w = Some s /\
    chunk (st_replay s) = [] /\ has_remaining (st_replay s) = true /\
    forall fuel, copy_to_bytes fuel (st_replay s) (total (st_replay s)) = CopyStuck.
Proof.
  exists [IData []; IData (bs "hello")], [Clone 0; Poll 0; Poll 0; Drop 0].
  eexists _, _, _. split; [vm_compute; reflexivity|]. split; [reflexivity|].
  split; [reflexivity|]. split; [vm_compute; reflexivity|]. intros fuel.
  cbn [st_replay]. unfold copy_to_bytes. change (total _) with 5. change (5 <=? len []) with false. cbv iota.
  change (5 <? 5) with false. cbv iota. rewrite put_take_stuck; [reflexivity|discriminate|vm_compute; reflexivity].
Qed.
Print Assumptions C47_empty_frame_refuted.

(** The lower size hint may exceed what is left: data already given to the active
    handle is counted again. *)
Definition exact_hint (r : body) : N * option N := (len (body_data r), Some (len (body_data r))).
Theorem C47_size_hint_refuted :
  exists b ops h w t, run (init b 100) ops = (w, t) /\ nth_error (w_handles w) 0 = Some (Some h) /\
    data_of 0 t = body_data b /\ 0 < fst (size_hint exact_hint (exact_hint b) h).
Proof.
  exists [IData (bs "hello")], [Poll 0]. do 3 eexists. split; [vm_compute; reflexivity|].
  split; [reflexivity|]. split; vm_compute; reflexivity.
Qed.
Print Assumptions C47_size_hint_refuted.

Example C47_demo :
  Forall (fun c => c <> []) [bs "ab"; bs "c"] /\
  copy_to_bytes 2 [bs "ab"; bs "cd"] 3 = Copied (bs "abc") [bs "d"] /\
  is_end_stream (fun r => match r with [] => true | _ => false end) false
    (Handle (Some (BState [] None [] true 5)) false false) = true.
Proof. split; [repeat constructor; discriminate|]. split; vm_compute; reflexivity. Qed.
