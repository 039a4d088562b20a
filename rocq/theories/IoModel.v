(** Model of readable streams and of linkerd/io/src/prefixed.rs. *)
From Coq Require Import List NArith Bool.
From Verif Require Import Bytes.
Import ListNotations.
Open Scope N_scope.

(** A stream is either a socket from which the bytes [s] are still to come, or
    a [PrefixedIo] (prefixed.rs:9-14) around another stream. *)
Inductive io :=
| Raw (s : bytes)
| Prefixed (prefix : bytes) (inner : io).

(** What the socket does when it is polled: it has up to [k] bytes, it is
    pending, or it fails. *)
Inductive avail := AReady (k : N) | APending | AError.

(** Result of a poll: the bytes put into the buffer, pending, or an error. *)
Inductive polled := Got (b : bytes) | Wait | Failed.

(** Helper: the first bytes *)
Definition take (n : N) (s : bytes) : bytes := firstn (N.to_nat n) s.
(** Helper: the other bytes *)
Definition drop (n : N) (s : bytes) : bytes := skipn (N.to_nat n) s.

(** prefixed.rs:54-78; [n] is `buf.remaining()`. *)
Fixpoint poll_read (i : io) (n : N) (a : avail) : polled * io :=
  match i with
  | Raw s =>
      match a with
      | AReady k => let m := N.min n k in (Got (take m s), Raw (drop m s))
      | APending => (Wait, i)
      | AError => (Failed, i)
      end
  | Prefixed prefix inner =>
      let peeked_len := len prefix in
      if peeked_len =? 0 then
        let '(r, inner') := poll_read inner n a in (r, Prefixed prefix inner')
      else
        let l := N.min n peeked_len in
        let prefix' := if peeked_len =? l then [] else drop l prefix in
        (Got (take l prefix), Prefixed prefix' inner)
  end.

(** prefixed.rs:35-43 *)
Definition peek (prefix : bytes) (n : N) : bytes := take (N.min (len prefix) n) prefix.

(** A sequence of reads: the concatenation of what was delivered. *)
Fixpoint reads (i : io) (l : list (N * avail)) : bytes * io :=
  match l with
  | [] => ([], i)
  | (n, a) :: l' =>
      let '(r, i') := poll_read i n a in
      let '(b, i'') := reads i' l' in
      (match r with Got x => x ++ b | _ => b end, i'')
  end.

(** [AsyncReadExt::read_buf] run to completion: pending polls are repeated.
    [n] is the spare capacity of the buffer, at least one byte, and [k] the
    number of bytes the socket has, at least one; so no bytes means the end of
    the stream. *)
Definition read_buf (i : io) (nk : positive * positive) : bytes * io :=
  match poll_read i (Npos (fst nk)) (AReady (Npos (snd nk))) with
  | (Got b, i') => (b, i')
  | (_, i') => ([], i')
  end.
