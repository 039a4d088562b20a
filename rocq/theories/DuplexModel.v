(** Model of linkerd/duplex/src/lib.rs, which copies bytes between the two sockets of a proxied connection.

    The sockets are given by what they answer to the calls that are made on them: a poll takes a list of answers, one
    for each call in the order in which the calls are made, and leaves a trace of the calls.  When there are no answers
    left the poll is still going on.  The buffer of a direction is the bytes of `CopyBuf` from `read_pos` to
    `write_pos`. *)
From Coq Require Import List NArith Bool.
From Verif Require Import Bytes.
Import ListNotations.
Open Scope N_scope.

(** The socket of the client and that of the server *)
Inductive side := Inner | Outer.
(** The one across *)
Definition across (s : side) : side := match s with Inner => Outer | Outer => Inner end.
(** `std::io::Error`: of the socket, or lib.rs:290-292 *)
Inductive failure := Socket_error | Write_zero.
(** `io::Poll` *)
Inductive poll (A : Type) := Ready (a : A) | Pending | Failed (e : failure).
Arguments Ready {A}. Arguments Pending {A}. Arguments Failed {A}.

(** What a socket says to a call: that it is ready, is not or has failed.  If it is and the call is to read, it has
    some bytes; if the call is to write, it takes up to some number of bytes. *)
Inductive status := Is_ready | Is_pending | Has_failed.
(** As [status] *)
Record answer := Answer { a_status : status; a_bytes : bytes; a_count : nat }.

(** The calls of `AsyncRead` and `AsyncWrite`, with what they returned *)
Inductive call :=
| Read (r : poll bytes)
| Write (offered : bytes) (r : poll nat)
| Flush (r : poll unit)
| Shutdown (r : poll unit).
(** A call on a socket *)
Record event := Event { ev_sock : side; ev_call : call }.

(** What goes on in a poll: the answers that are left and the calls so far, first first.  [None]: it is not done. *)
Definition M (A : Type) : Type := list answer * list event -> option A * (list answer * list event).
(** Return *)
Definition ret {A} (a : A) : M A := fun st => (Some a, st).
(** Then *)
Definition bind {A B} (m : M A) (k : A -> M B) : M B :=
  fun st => match m st with (Some a, st) => k a st | (None, st) => (None, st) end.
Notation "x <- m ;; k" := (bind m (fun x => k)) (at level 61, m at next level, right associativity).

(** A call whose result depends on the answer *)
Definition ask {A} (s : side) (mk : poll A -> call) (f : answer -> A) : M (poll A) :=
  fun '(answers, trace) =>
    match answers with
    | [] => (None, ([], trace))
    | a :: answers =>
        let r := match a_status a with Is_ready => Ready (f a) | Is_pending => Pending | Has_failed => Failed Socket_error end in
        (Some r, (answers, trace ++ [Event s (mk r)]))
    end.
(** lib.rs:297: the size of a buffer *)
Definition CAPACITY : N := 8 * 1024.
(** `tokio_util::io::poll_read_buf` into an empty buffer: a socket reads no more than there is room for. *)
Definition poll_read (s : side) : M (poll bytes) := ask s Read (fun a => firstn (N.to_nat CAPACITY) (a_bytes a)).
(** `tokio_util::io::poll_write_buf`: a socket takes no more than is offered. *)
Definition poll_write (s : side) (b : bytes) : M (poll nat) := ask s (Write b) (fun a => Nat.min (a_count a) (List.length b)).
(** `AsyncWrite::poll_flush` *)
Definition sock_flush (s : side) : M (poll unit) := ask s Flush (fun _ => tt).
(** `AsyncWrite::poll_shutdown` *)
Definition sock_shutdown (s : side) : M (poll unit) := ask s Shutdown (fun _ => tt).

(** lib.rs:27-36; [h_buf] is [None] after the end of the socket's input *)
Record half := Half { h_buf : option bytes; h_is_shutdown : bool; h_flushing : bool }.
(** lib.rs:105-113, 295-301 *)
Definition new_half : half := Half (Some []) false false.
(** lib.rs:51-56 *)
Inductive buffered := Not_empty | Was_read | Eof.
(** lib.rs:58-63 *)
Inductive drained := Buffer_empty | Partial | All.

(** lib.rs:207-237 *)
Definition poll_buffer (s : side) (h : half) : M (half * poll buffered) :=
  match h_buf h with
  | Some (c :: b) => ret (h, Ready Not_empty)
  | Some [] =>
      r <- poll_read s ;;
      match r with
      | Pending => ret (h, Pending)
      | Failed e => ret (h, Failed e)
      | Ready [] => ret (Half None (h_is_shutdown h) (h_flushing h), Ready Eof)
      | Ready b => ret (Half (Some b) (h_is_shutdown h) (h_flushing h), Ready Was_read)
      end
  | None => ret (h, Ready Eof)
  end.

(** lib.rs:239-253; the destination is the socket across *)
Definition poll_flush (s : side) (h : half) : M (half * poll unit) :=
  r <- sock_flush (across s) ;;
  ret (Half (h_buf h) (h_is_shutdown h) (match r with Pending => true | _ => false end), r).

(** lib.rs:262-276: the loop.  [fuel] is at least the number of bytes, and each turn takes one at least. *)
Fixpoint drain_loop (fuel : nat) (s : side) (b : bytes) (sz : nat) : M (bytes * poll drained) :=
  match b, fuel with
  | [], _ => ret ([], Ready (if Nat.eqb sz 0 then Buffer_empty else All))
  | _, O => fun st => (None, st)
  | _, S fuel =>
      r <- poll_write (across s) b ;;
      match r with
      | Pending => ret (b, Ready Partial)
      | Failed e => ret (b, Failed e)
      | Ready O => ret (b, Failed Write_zero)
      | Ready n => drain_loop fuel s (skipn n b) (sz + n)
      end
  end.
(** lib.rs:255-283.  It never is pending. *)
Definition drain_into (s : side) (h : half) : M (half * poll drained) :=
  match h_buf h with
  | Some b =>
      r <- drain_loop (List.length b) s b 0 ;;
      ret (Half (Some (fst r)) (h_is_shutdown h) (h_flushing h), snd r)
  | None => ret (h, Ready Buffer_empty)
  end.

(** lib.rs:145-203: the loop, of the direction from [s], whose half is [h]; [dst] is the half of the socket across.
    [fuel] is more than the number of answers, and each turn takes one at least. *)
Fixpoint copy_loop (fuel : nat) (s : side) (h dst : half) (needs_flush : bool) : M (half * half * poll unit) :=
  match fuel with
  | O => fun st => (None, st)
  | S fuel =>
      r <- poll_buffer s h ;;
      let '(h, r) := r in
      match r with
      | Failed e => ret (h, dst, Failed e)
      | Pending =>
          if needs_flush then
            f <- poll_flush s h ;;
            let '(h, f) := f in
            match f with
            | Failed e => ret (h, dst, Failed e)
            | _ => ret (h, dst, Pending)
            end
          else ret (h, dst, Pending)
      | Ready Eof =>
          d <- sock_shutdown (across s) ;;
          match d with
          | Failed e => ret (h, dst, Failed e)
          | Pending => ret (h, dst, Pending)
          | Ready _ => ret (h, Half (h_buf dst) true (h_flushing dst), Ready tt)
          end
      | Ready _ =>
          d <- drain_into s h ;;
          let '(h, d) := d in
          match d with
          | Failed e => ret (h, dst, Failed e)
          | Ready All => copy_loop fuel s h dst true
          | Ready Partial =>
              f <- poll_flush s h ;;
              let '(h, f) := f in
              match f with
              | Failed e => ret (h, dst, Failed e)
              | Pending => ret (h, dst, Pending)
              | Ready _ =>
                  d <- drain_into s h ;;
                  let '(h, d) := d in
                  match d with
                  | Failed e => ret (h, dst, Failed e)
                  | Ready Partial => ret (h, dst, Pending)
                  | _ => copy_loop fuel s h dst false
                  end
              end
          | Ready Buffer_empty => ret (h, dst, Ready tt)
          | Pending => ret (h, dst, Pending)
          end
      end
  end.
(** lib.rs:115-204 *)
Definition copy_into (s : side) (h dst : half) : M (half * half * poll unit) :=
  if h_is_shutdown dst then ret (h, dst, Ready tt)
  else
    let go h := fun st => copy_loop (S (List.length (fst st))) s h dst false st in
    if h_flushing h then
      f <- poll_flush s h ;;
      let '(h, f) := f in
      match f with
      | Failed e => ret (h, dst, Failed e)
      | Pending => ret (h, dst, Pending)
      | Ready _ => go h
      end
    else go h.

(** lib.rs:20-25 *)
Record duplex := Duplex { d_in : half; d_out : half }.
(** lib.rs:70-75 *)
Definition new : duplex := Duplex new_half new_half.
(** lib.rs:85-98.  After an error the state is of no use any more. *)
Definition poll_duplex (d : duplex) : M (duplex * poll unit) :=
  r <- copy_into Inner (d_in d) (d_out d) ;;
  let '(hi, ho, r) := r in
  match r with
  | Failed e => ret (Duplex hi ho, Failed e)
  | _ =>
      r <- copy_into Outer ho hi ;;
      let '(ho, hi, r) := r in
      match r with
      | Failed e => ret (Duplex hi ho, Failed e)
      | _ => ret (Duplex hi ho, if h_is_shutdown hi && h_is_shutdown ho then Ready tt else Pending)
      end
  end.
