(** Model of linkerd/http/retry/src/replay.rs and replay/buffer.rs.
    Simplifications: trailers are a list of pairs; the inner body is the list of
    the results that its polls will give, after which it has ended; frames that
    are neither data nor trailers do not exist; `max_bytes + 1` does not overflow. *)
From Coq Require Import List NArith Bool.
From Verif Require Import Bytes.
Import ListNotations.
Open Scope N_scope.

(** `HeaderMap` *)
Definition hmap := list (bytes * bytes).

(** What the polls of an `http_body::Body` give.  An exhausted list is the end. *)
Inductive item := IPending | IData (b : bytes) | ITrailers (t : hmap) | IErr (e : N).
(** An `http_body::Body`, by what its polls will give *)
Definition body := list item.

(** What a poll of a [ReplayBody] gives: `Poll<Option<Result<Frame, Error>>>`, or a
    panic ("missing body state"). *)
Inductive poll :=
| Pend | PData (b : bytes) | PTrailers (t : hmap) | PErr (e : N) | PCapped | PEnd | PPanic.

(** replay.rs:67-76 and buffer.rs:18-21 *)
Record bstate := BState {
  st_replay : list bytes; st_trailers : option hmap; st_rest : body;
  st_completed : bool; st_max : N
}.
(** replay/buffer.rs:107-109: `remaining` *)
Definition total (l : list bytes) : N := len (concat l).
(** buffer.rs:107-109, [Buf::has_remaining] *)
Definition has_remaining (l : list bytes) : bool := negb (total l =? 0).
(** replay.rs:362-365 *)
Definition st_capped (s : bstate) : bool := st_max s =? 0.

(** replay.rs:30-47 *)
Record handle := Handle { h_state : option bstate; h_rb : bool; h_rt : bool }.

(** buffer.rs:34-57 *)
Definition record_bytes (s : bstate) (data : bytes) : bstate :=
  let m := st_max s - len data in
  if m =? 0 then
    BState (if has_remaining (st_replay s) then [] else st_replay s)
           (st_trailers s) (st_rest s) (st_completed s) m
  else BState (st_replay s ++ [data]) (st_trailers s) (st_rest s) (st_completed s) m.

(** Helper: the inner body was polled (replay.rs:218) *)
Definition set_rest (s : bstate) (r : body) : bstate :=
  BState (st_replay s) (st_trailers s) r (st_completed s) (st_max s).
(** Helper: the inner body ended (replay.rs:225-229, 239-244) *)
Definition set_done (s : bstate) (t : option hmap) : bstate :=
  BState (st_replay s) t (st_rest s) true (st_max s).

(** replay.rs:206-250: polling the initial body. *)
Definition poll_rest (s : bstate) : bstate * poll :=
  match st_rest s with
  | [] => (set_done s (st_trailers s), PEnd)
  | IPending :: r => (set_rest s r, Pend)
  | IErr e :: r => (set_rest s r, PErr e)
  | IData d :: r => (record_bytes (set_rest s r) d, PData d)
  | ITrailers t :: r => (set_done (set_rest s r) (Some t), PTrailers t)
  end.

(** replay.rs:162-250 with the state acquired: the state, `replay_body`,
    `replay_trailers` and the result. *)
Definition poll_state (s : bstate) (rb rt : bool) : bstate * bool * bool * poll :=
  if rb && has_remaining (st_replay s) then (s, false, rt, PData (concat (st_replay s)))
  else if rb && st_capped s then (s, rb, rt, PCapped)
  else
    let inner :=
      if st_completed s then (s, rb, false, PEnd)
      else let '(s', p) := poll_rest s in (s', rb, false, p) in
    if rt then
      match st_trailers s with
      | Some t => (s, rb, false, PTrailers t)
      | None => inner
      end
    else inner.

(** All the handles that share a body; the lock's slot (`SharedState::body`).
    A dropped handle is [None].  `orig_size_hint` and `was_empty` are in
    [is_end_stream] and [size_hint]. *)
Record world := World { w_shared : option bstate; w_handles : list (option handle) }.

(** replay.rs:91-115 without the size hint (see [try_new]). *)
Definition init_state (b : body) (max_bytes : N) : bstate := BState [] None b false (max_bytes + 1).
(** replay.rs:91-115 *)
Definition init (b : body) (max_bytes : N) : world :=
  World None [Some (Handle (Some (init_state b max_bytes)) false false)].
(** replay.rs:91-97 *)
Definition try_new (b : body) (hint_lower max_bytes : N) : option world :=
  if max_bytes <? hint_lower then None else Some (init b max_bytes).

(** Helper: change one element of a list *)
Fixpoint set_nth {A} (l : list A) (i : nat) (x : A) : list A :=
  match l, i with
  | [], _ => []
  | _ :: l, O => x :: l
  | y :: l, S i => y :: set_nth l i x
  end.

(** What is done with a body's handles: replay.rs:162-260, 310-330 *)
Inductive op := Poll (i : nat) | Clone (i : nat) | Drop (i : nat).
(** A poll of a handle and its result *)
Definition event := (nat * poll)%type.

(** One operation.  Operations on dropped handles do nothing.  A poll that panics
    (replay.rs:124-129) drops its handle. *)
Definition step (w : world) (o : op) : world * list event :=
  match o with
  | Poll i =>
      match nth_error (w_handles w) i with
      | Some (Some h) =>
          match (match h_state h with Some s => Some (s, w_shared w) | None =>
                   match w_shared w with Some s => Some (s, None) | None => None end end) with
          | Some (s, shared) =>
              let '(s', rb, rt, p) := poll_state s (h_rb h) (h_rt h) in
              (World shared (set_nth (w_handles w) i (Some (Handle (Some s') rb rt))), [(i, p)])
          | None => (World (w_shared w) (set_nth (w_handles w) i None), [(i, PPanic)])
          end
      | _ => (w, [])
      end
  | Clone i => (* replay.rs:310-321 *)
      match nth_error (w_handles w) i with
      | Some (Some _) => (World (w_shared w) (w_handles w ++ [Some (Handle None true true)]), [])
      | _ => (w, [])
      end
  | Drop i => (* replay.rs:323-330 *)
      match nth_error (w_handles w) i with
      | Some (Some h) =>
          (World (match h_state h with Some s => Some s | None => w_shared w end)
                 (set_nth (w_handles w) i None), [])
      | _ => (w, [])
      end
  end.

(** A history of a body and its clones; not code of its own *)
Fixpoint run (w : world) (ops : list op) : world * list event :=
  match ops with
  | [] => (w, [])
  | o :: ops =>
      let '(w1, t1) := step w o in
      let '(w2, t2) := run w1 ops in (w2, t1 ++ t2)
  end.

(** replay.rs:140-145 *)
Definition is_capped (w : world) (i : nat) : option bool :=
  match nth_error (w_handles w) i with
  | Some (Some h) =>
      match h_state h with
      | Some s => Some (st_capped s)
      | None => option_map st_capped (w_shared w)
      end
  | _ => None
  end.

(** replay.rs:262-283; [eos] is the inner body's `is_end_stream`. *)
Definition is_end_stream (eos : body -> bool) (was_empty : bool) (h : handle) : bool :=
  if was_empty then true
  else match h_state h with
       | None => false
       | Some s => negb (h_rb h) && negb (h_rt h) && eos (st_rest s)
       end.

(** replay.rs:286-307; lower and upper bound. *)
Definition size_hint (inner : body -> N * option N) (orig : N * option N) (h : handle) : N * option N :=
  match h_state h with
  | None => orig
  | Some s =>
      let b := total (st_replay s) in
      let '(lo, hi) := inner (st_rest s) in
      (b + lo, option_map (fun u => b + u) hi)
  end.

(** ** buffer.rs:104-177: [Replay] as a [Buf] *)
(** buffer.rs:111-113 *)
Definition chunk (bufs : list bytes) : bytes := match bufs with [] => [] | b :: _ => b end.
(** buffer.rs:134-151; [None] is the panic of `self.bufs[0]`. *)
Fixpoint advance (bufs : list bytes) (amt : N) : option (list bytes) :=
  if amt =? 0 then Some bufs
  else match bufs with
       | [] => None
       | b :: r => if amt <? len b then Some (skipn (N.to_nat amt) b :: r) else advance r (amt - len b)
       end.
(** `BytesMut::put(self.take(len))`: copies chunk by chunk while something remains.
    [fuel] bounds the number of rounds; [None] is no result after that many. *)
Fixpoint put_take (fuel : nat) (bufs : list bytes) (n : N) (acc : bytes) : option (bytes * list bytes) :=
  if (n =? 0) || negb (has_remaining bufs) then Some (acc, bufs)
  else match fuel with
       | O => None
       | S fuel =>
           let c := firstn (N.to_nat n) (chunk bufs) in
           match advance bufs (len c) with
           | Some bufs => put_take fuel bufs (n - len c) (acc ++ c)
           | None => None
           end
       end.
(** buffer.rs:154-176; [CopyPanic] is the `assert!`, [CopyStuck] no result within
    the fuel. *)
Inductive copied := Copied (b : bytes) (rest : list bytes) | CopyPanic | CopyStuck.
(** buffer.rs:154-176 *)
Definition copy_to_bytes (fuel : nat) (bufs : list bytes) (n : N) : copied :=
  let slow :=
    if total bufs <? n then CopyPanic
    else match put_take fuel bufs n [] with Some (b, r) => Copied b r | None => CopyStuck end in
  match bufs with
  | b :: r =>
      if n <=? len b then
        let b' := skipn (N.to_nat n) b in
        Copied (firstn (N.to_nat n) b) (if len b' =? 0 then r else b' :: r)
      else slow
  | [] => slow
  end.
