(** Property C11: peeked bytes are replayed. *)
From Coq Require Import List NArith String.
From Verif Require Import Bytes IoModel IoSpec IoProofs.
Import ListNotations.
Open Scope N_scope.
Open Scope string_scope.

(** Whatever the buffer sizes and the socket's behaviour, what was delivered
    followed by what is still to come is the prefix followed by the socket's
    bytes. *)
Theorem C11_reads_replay_prefix :
  forall prefix inner l b i', reads (Prefixed prefix inner) l = (b, i') ->
    (b ++ contents i' = prefix ++ contents inner)%list.
Proof. exact (fun prefix inner l b i' => reads_conserve l (Prefixed prefix inner) b i'). Qed.
Print Assumptions C11_reads_replay_prefix.

(** As long as there is a prefix, a read delivers a part of it at once, without
    touching the socket. *)
Theorem C11_prefix_first :
  forall p inner n a r i', p <> [] -> 0 < n -> poll_read (Prefixed p inner) n a = (r, i') ->
    exists b, r = Got b /\ b <> [] /\ exists rest, p = (b ++ rest)%list /\ i' = Prefixed rest inner.
Proof. exact prefix_first. Qed.
Print Assumptions C11_prefix_first.

(** The end of the stream is reported only when everything was delivered. *)
Theorem C11_end_only_at_end :
  forall i n k b i', 0 < n -> 0 < k -> poll_read i n (AReady k) = (Got b, i') ->
    (b = [] <-> contents i = []).
Proof. exact read_progress. Qed.
Print Assumptions C11_end_only_at_end.

(** Peeking into a buffer of any size gives what a read into one of that size would, and takes nothing: as much of the prefix as fits *)
Theorem C11_peek :
  forall p inner n a, p <> [] ->
    fst (poll_read (Prefixed p inner) n a) = Got (peek p n) /\ len (peek p n) = N.min n (len p) /\ exists rest, p = (peek p n ++ rest)%list.
Proof. exact peek_same. Qed.
Print Assumptions C11_peek.
Example C11_peek_demo : bs "abc" <> [] /\ peek (bs "abc") 2 = bs "ab" /\ peek (bs "abc") 9 = bs "abc".
Proof. split; [discriminate|]. split; reflexivity. Qed.

Example C11_demo :
  reads (Prefixed (bs "abc") (Raw (bs "defg")))
    [(2, APending); (1, AReady 3); (2, APending); (9, AReady 3); (5, AReady 7)] =
  (bs "abcdefg", Prefixed [] (Raw [])).
Proof. reflexivity. Qed.
