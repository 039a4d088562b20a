(** C68: the watches of what the control plane says.  C69: the limits on its streams. *)
From Coq Require Import List NArith Bool.
From Verif Require Import WatchModel WatchSpec WatchProofs.
Import ListNotations.

(** A watch shows what was delivered last, or its initial value; everything delivered is published,
    in the same order, whatever failed in between. *)
Theorem C68_latest : forall A (recovers : N -> bool) (start : state A) es acts s,
  starts start -> run recovers start es acts s -> ~ In Dropped es ->
  value s = latest (value start) (delivered es) /\ publications acts = delivered es.
Proof. exact @latest_value. Qed.
Print Assumptions C68_latest.

(** It ends only because of a failure it does not recover from or because nobody reads it. *)
Theorem C68_over : forall A (recovers : N -> bool) (start : state A) es acts s,
  starts start -> run recovers start es acts s -> (tk s = Over <-> rejected recovers es \/ abandoned start es).
Proof. exact @over. Qed.
Print Assumptions C68_over.

(** Until then, when the control plane is back, after at most one wait, what it says is shown. *)
Theorem C68_back : forall A (recovers : N -> bool) (start : state A) es acts s,
  starts start -> run recovers start es acts s -> tk s <> Over -> ~ In Dropped es ->
  forall v, exists wait acts' s', (wait = [] \/ wait = [Yielded]) /\
    run recovers start (es ++ wait ++ [Delivered v]) (acts ++ acts') s' /\ value s' = Some v.
Proof. exact @back. Qed.
Print Assumptions C68_back.

(** Which failures those are: with inbound policies and service profiles, InvalidArgument and
    FailedPrecondition; with outbound policies also NotFound and Unimplemented; with identities from
    SPIRE only InvalidArgument *)
Theorem C68_codes : forall c,
  (inbound_recovers c = false <-> c = 3%N \/ c = 9%N) /\
  (outbound_recovers c = false <-> c = 3%N \/ c = 9%N \/ c = 5%N \/ c = 12%N) /\
  (spire_recovers c = false <-> c = 3%N).
Proof. exact codes. Qed.
Print Assumptions C68_codes.

(** Backoffs do not end (C18).  Then between two lookups there is one wait, or the first of them gave
    something. *)
Theorem C68_paced : forall A (recovers : N -> bool) (start : state A) es acts s,
  starts start -> run recovers start es acts s -> ~ In Ended es ->
  forall l1 l2 l3, acts = l1 ++ Looks_up :: l2 ++ Looks_up :: l3 -> ~ In Looks_up l2 ->
  (exists b, l2 = [Waited b]) \/ (l2 <> [] /\ all_published l2).
Proof. intros A r start es acts s St R N. apply (pacing_run r start es acts s St R N). Qed.
Print Assumptions C68_paced.

(** Lookups that fail one after the other wait for one and the same backoff, whose delays grow. *)
Theorem C68_backoff : forall A (recovers : N -> bool) (start : state A) es acts s,
  starts start -> run recovers start es acts s -> ~ In Ended es ->
  forall l1 b b' l2, acts = l1 ++ Waited b :: Looks_up :: Waited b' :: l2 -> b = b'.
Proof. intros A r start es acts s St R N. apply (pacing_run r start es acts s St R N). Qed.
Print Assumptions C68_backoff.

(** Once something was delivered, it starts from the beginning. *)
Theorem C68_reset : forall A (recovers : N -> bool) (start : state A) es acts s,
  starts start -> run recovers start es acts s -> ~ In Ended es ->
  forall l1 v l2 b, acts = l1 ++ Publishes v :: l2 -> In (Waited b) l1 -> ~ In (Waited b) l2.
Proof. intros A r start es acts s St R N. apply (pacing_run r start es acts s St R N). Qed.
Print Assumptions C68_reset.

(** Not every lookup after a failed one waits: a control plane that answers each lookup with
    something and then ends the stream is asked again and again without any wait. *)
Theorem C68_hot_refuted : forall A (recovers : N -> bool) (v : A), recovers 0%N = true ->
  forall n, exists es acts (s : state A), run recovers spawn_watch es acts s /\ lookups acts = S n /\ (forall b, ~ In (Waited b) acts).
Proof.
  intros A r v R n. destruct (hot r R v n) as (es & acts & s & H & _ & _ & L & W & _). exists es, acts, s. auto.
Qed.
Print Assumptions C68_hot_refuted.

(** Not every watch ends when nobody reads it: one with an initial value, such as the policies of
    inbound ports, goes on looking up until the first lookup succeeds. *)
Theorem C68_unread_refuted : forall A (recovers : N -> bool) (v : A) c, recovers c = true ->
  forall n, exists es acts (s : state A), run recovers (spawn_with_init v) (Dropped :: es) acts s /\ tk s <> Over /\ lookups acts = S n.
Proof. intros A r v c R n. exact (unread r c R v n). Qed.
Print Assumptions C68_unread_refuted.

(** A history: the first lookup is refused twice, then there are two values, the stream ends, the
    next lookup fails and is repeated, and there is a third value *)
Definition C68_history : list (event nat) :=
  [Failed 14%N; Yielded; Failed 14%N; Yielded; Delivered 1; Delivered 2; Failed 0%N; Failed 4%N; Yielded; Delivered 3].
Example C68_case : exists acts s,
  run inbound_recovers (spawn_with_init 0) C68_history acts s /\ value s = Some 3 /\ tk s = Streaming /\
  acts = [Looks_up; Waited 0; Looks_up; Waited 0; Looks_up; Publishes 1; Publishes 2; Looks_up; Waited 2; Looks_up; Publishes 3].
Proof.
  eexists. eexists. split.
  - change C68_history with ([] ++ C68_history). eapply go_run; [apply run_init|]. vm_compute. reflexivity.
  - repeat split.
Qed.
Example C68_case_over : exists acts s,
  run inbound_recovers (spawn_with_init 0) (C68_history ++ [Failed 9%N]) acts s /\ value s = Some 3 /\ tk s = Over.
Proof.
  eexists. eexists. split.
  - change (C68_history ++ [Failed 9%N]) with ([] ++ C68_history ++ [@Failed nat 9%N]). eapply go_run; [apply run_init|]. vm_compute. reflexivity.
  - split; reflexivity.
Qed.

(** ** C69 *)

(** What a poll of a stream with limits gives depends only on when the call was made, when the
    response and the last item came and what the stream inside gives now: an item *)
Theorem C69_item : forall A l start (ps : list (N * inner A)) os t r now (i : inner A) r' o v,
  polls l start ps os t r -> poll l r now i = Some (r', o) -> (o = Out_item v <-> i = Item v /\ ~ expired l ps now).
Proof. exact @item_iff. Qed.
Print Assumptions C69_item.

(** an error of the stream *)
Theorem C69_error : forall A l start (ps : list (N * inner A)) os t r now (i : inner A) r' o c,
  polls l start ps os t r -> poll l r now i = Some (r', o) -> (o = Out_error c <-> i = Error c /\ ~ expired l ps now).
Proof. exact @error_iff. Qed.
Print Assumptions C69_error.

(** an error because no item came within the initial limit, which is counted from the call *)
Theorem C69_timeout : forall A l start (ps : list (N * inner A)) os t r now (i : inner A) r' o,
  polls l start ps os t r -> poll l r now i = Some (r', o) ->
  (o = Out_timeout <-> i = Pending /\ late l start ps now /\ ~ expired l ps now).
Proof. exact @timeout_iff. Qed.
Print Assumptions C69_timeout.

(** or the end: of the stream, because it is old, because it is quiet, or because it outlived the
    initial limit when there is no idle limit *)
Theorem C69_end : forall A l start (ps : list (N * inner A)) os t r now (i : inner A) r' o,
  polls l start ps os t r -> poll l r now i = Some (r', o) ->
  (o = Out_end <-> expired l ps now \/ i = End \/ (i = Pending /\ (quiet l ps now \/ outlived l start ps now))).
Proof. exact @end_iff. Qed.
Print Assumptions C69_end.

(** The items are those of the stream, in order and from the first. *)
Theorem C69_items : forall A l start (ps : list (N * inner A)) os t r,
  polls l start ps os t r -> exists more, items_in ps = items_out os ++ more.
Proof. exact @prefix. Qed.
Print Assumptions C69_items.

(** The initial limit does not only bound the wait for the first item: without an idle limit, it ends
    streams that gave one. *)
Theorem C69_initial_refuted : ~ forall A l start (ps : list (N * inner A)) os t r now (i : inner A) r' o,
  polls l start ps os t r -> poll l r now i = Some (r', o) ->
  lifetime l = None -> idle l = None -> last_item ps <> None -> i = Pending -> o = Out_pending.
Proof.
  intros H.
  assert (P : polls (Limits (Some 3%N) None None) 0%N [(1%N, Responded); (1%N, Item 7)] [Out_responded; Out_item 7] 1%N
                (Receiving None (Some 3%N) false)).
  { refine (go_polls_run _ _ _ _ _ _ _ _ [] [] (polls_init _ _) _). vm_compute. reflexivity. }
  assert (X : @Out_end nat = Out_pending).
  { refine (H nat _ _ _ _ _ _ 4%N Pending Closed _ P _ eq_refl eq_refl _ eq_refl); [reflexivity|discriminate]. }
  discriminate.
Qed.
Print Assumptions C69_initial_refuted.

(** A stream that gives two items and is then quiet for as long as the idle limit; one whose response
    comes, but no item *)
Example C69_case : exists t r, polls (Limits (Some 3%N) (Some 10%N) (Some 100%N)) 0%N
  [(1, Responded); (2, Item 7%nat); (5, Pending); (11, Item 8%nat); (20, Pending); (21, Pending)]%N
  [Out_responded; Out_item 7; Out_pending; Out_item 8; Out_pending; Out_end] t r.
Proof.
  eexists. eexists. refine (go_polls_run _ _ _ _ _ _ _ _ [] [] (polls_init _ _) _). vm_compute. reflexivity.
Qed.
Example C69_case_late : exists t r, polls (A := nat) (Limits (Some 3%N) (Some 10%N) (Some 100%N)) 0%N
  [(1, Responded); (2, Pending); (3, Pending)]%N [Out_responded; Out_pending; Out_timeout] t r.
Proof.
  eexists. eexists. refine (go_polls_run _ _ _ _ _ _ _ _ [] [] (polls_init _ _) _). vm_compute. reflexivity.
Qed.
Example C69_case_old : exists t r, polls (Limits None None (Some 100%N)) 0%N
  [(1, Responded); (100, Item 7%nat); (101, Item 8%nat)]%N [Out_responded; Out_item 7; Out_end] t r.
Proof.
  eexists. eexists. refine (go_polls_run _ _ _ _ _ _ _ _ [] [] (polls_init _ _) _). vm_compute. reflexivity.
Qed.
