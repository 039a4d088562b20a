(** Property C48: looking ahead at the trailers does not change the response. *)
From Coq Require Import String List NArith.
From Verif Require Import Bytes FilterModel PeekModel PeekSpec PeekProofs.
Import ListNotations.
Open Scope N_scope.

(** Whoever polls the peeked body often enough is told the end, and sees the same
    data, trailers and error as the original body gives. *)
Theorem C48_same_frames :
  forall v eos b n,
    (forall r, eos r = true -> seen r = []) -> (length b + 2 < n)%nat ->
    In None (polls n (map_response v eos b)) /\
    seen (before_end (polls n (map_response v eos b))) = seen b.
Proof. exact peeked_faithful. Qed.
Print Assumptions C48_same_frames.

(** And a prefix of them at any time before. *)
Theorem C48_prefix :
  forall v eos b n,
    (forall r, eos r = true -> seen r = []) ->
    exists r, seen b = seen (before_end (polls n (map_response v eos b))) ++ r.
Proof. exact peeked_prefix. Qed.
Print Assumptions C48_prefix.

(** The trailers are known in advance exactly if they come first, or right after the
    first data frame without further waiting. *)
Theorem C48_peeked_iff :
  forall v eos b t,
    (v = V2 \/ v = V3) -> (forall r, eos r = true -> seen r = []) ->
    peek_trailers (map_response v eos b) = Some t <->
    exists k, b = repeat BPending k ++ BFrame (FTrailers t) :: skipn (S k) b /\ eos b = false \/
    exists d, b = repeat BPending k ++ BFrame (FData d) :: BFrame (FTrailers t) :: skipn (S (S k)) b /\ eos b = false.
Proof. exact peek_trailers_iff. Qed.
Print Assumptions C48_peeked_iff.

(** After any number of polls, a reported end of stream is true and the size hint
    bounds what is left. *)
Theorem C48_end_of_stream :
  forall v eos b n x p,
    (forall r, eos r = true -> seen r = []) ->
    Nat.iter n (fun p => snd (poll_frame p)) (map_response v eos b) = p ->
    peek_eos eos p = true -> seen (before_end (polls x p)) = [].
Proof. exact peek_eos_sound. Qed.
Print Assumptions C48_end_of_stream.

Theorem C48_size_hint :
  forall v hint eos b,
    (forall r, fst (hint r) <= data_len (seen r) /\ forall u, snd (hint r) = Some u -> data_len (seen r) <= u) ->
    (forall r, eos r = true -> seen r = []) ->
    forall n p, Nat.iter n (fun p => snd (poll_frame p)) (map_response v eos b) = p ->
    forall m, (forall k, (m <= k)%nat -> seen (before_end (polls k p)) = seen (before_end (polls m p))) ->
    fst (peek_hint hint p) <= data_len (seen (before_end (polls m p))) /\
    forall u, snd (peek_hint hint p) = Some u -> data_len (seen (before_end (polls m p))) <= u.
Proof. exact peek_hint_remaining. Qed.
Print Assumptions C48_size_hint.

(** A body that is exact about its size is exact when it was peeked *)
Theorem C48_hint_exact :
  forall v hint eos b,
    (forall r, fst (hint r) = data_len (seen r) /\ forall u, snd (hint r) = Some u -> u = data_len (seen r)) ->
    forall n p, Nat.iter n (fun p => snd (poll_frame p)) (map_response v eos b) = p ->
    forall m, (forall k, (m <= k)%nat -> seen (before_end (polls k p)) = seen (before_end (polls m p))) ->
    fst (peek_hint hint p) = data_len (seen (before_end (polls m p))) /\
    forall u, snd (peek_hint hint p) = Some u -> u = data_len (seen (before_end (polls m p))).
Proof. exact peek_hint_exact. Qed.
Print Assumptions C48_hint_exact.

(** And one that knows its end knows it when it was peeked *)
Theorem C48_end_known :
  forall v eos b n p,
    (forall r, eos r = true <-> seen r = []) ->
    Nat.iter n (fun p => snd (poll_frame p)) (map_response v eos b) = p ->
    (forall x, seen (before_end (polls x p)) = []) -> peek_eos eos p = true.
Proof. exact peek_eos_known. Qed.
Print Assumptions C48_end_known.
Example C48_end_known_demo : let eos r := match seen r with [] => true | _ => false end in
  (forall r, eos r = true <-> seen r = []) /\
  forall x, seen (before_end (polls x (Nat.iter 1 (fun p => snd (poll_frame p)) (map_response V2 eos [BFrame (FData (bs "hi"))])))) = [].
Proof.
  split; [intros r; destruct (seen r); split; congruence|]. intros x. vm_compute Nat.iter. destruct x; [reflexivity|]. cbn. reflexivity.
Qed.

Example C48_demo :
  let eos r := match r with [] => true | _ => false end in
  let b := [BPending; BFrame (FData (bs "hi")); BFrame (FTrailers [(bs "grpc-status", bs "14")]); BPending] in
  (forall r, eos r = true -> seen r = []) /\
  peek_trailers (map_response V2 eos b) = Some [(bs "grpc-status", bs "14")] /\
  polls 4 (map_response V2 eos b) =
    [Some (BFrame (FData (bs "hi"))); Some (BFrame (FTrailers [(bs "grpc-status", bs "14")])); None; None] /\
  peek_eos eos (Nat.iter 2 (fun p => snd (poll_frame p)) (map_response V2 eos b)) = true.
Proof. split; [now intros [|x r]|]. vm_compute. auto. Qed.
Example C48_hint_demo :
  let hint r := (data_len (seen r), Some (data_len (seen r))) in
  peek_hint hint (map_response V2 (fun _ => false) [BFrame (FData (bs "hi")); BPending; BFrame (FData (bs "ho"))]) = (4, Some 4).
Proof. vm_compute. reflexivity. Qed.
