(** Model of linkerd/http/retry/src/peek_trailers.rs. *)
From Coq Require Import List NArith Bool.
From Verif Require Import Bytes FilterModel.
Import ListNotations.
Open Scope N_scope.

(** A frame of a response body: data, trailers, or neither. *)
Inductive frame := FData (b : bytes) | FTrailers (t : headers) | FUnknown.
(** What the polls of a body give, in order; an exhausted list is the end. *)
Inductive polled := BPending | BFrame (f : frame) | BErr (e : N).
(** A response body, by what its polls will give *)
Definition rbody := list polled.

(** `http::Version`, peek_trailers.rs:95-101 *)
Inductive version := V09 | V10 | V11 | V2 | V3.

(** peek_trailers.rs:26-58.  `Result`s are sums. *)
Inductive peek :=
| Empty
| Unary (data : option (bytes + N)) (trailers : option (headers + N))
| Buffered (first second : option (bytes + N)) (inner : rbody)
| Passthru (inner : rbody).

(** peek_trailers.rs:69-85 *)
Definition peek_trailers (p : peek) : option headers :=
  match p with
  | Unary _ (Some (inl t)) => Some t
  | _ => None
  end.

(** Awaiting `body.frame()`: polls until something is ready. *)
Fixpoint await_frame (b : rbody) : option polled * rbody :=
  match b with
  | [] => (None, [])
  | BPending :: b => await_frame b
  | x :: b => (Some x, b)
  end.

(** peek_trailers.rs:127-208 *)
Definition read_body (b : rbody) : peek :=
  match await_frame b with
  | (None, _) => Empty
  | (Some BPending, r) => Buffered None None r (* not given by [await_frame] *)
  | (Some (BErr e), _) => Unary (Some (inr e)) None
  | (Some (BFrame (FTrailers t)), _) => Unary None (Some (inl t))
  | (Some (BFrame FUnknown), r) => Buffered None None r
  | (Some (BFrame (FData d)), r) =>
      match r with
      | [] => Unary (Some (inl d)) None
      | BErr e :: _ => Unary (Some (inl d)) (Some (inr e))
      | BFrame (FData d2) :: r => Buffered (Some (inl d)) (Some (inl d2)) r
      | BFrame (FTrailers t) :: _ => Unary (Some (inl d)) (Some (inl t))
      | BFrame FUnknown :: r => Buffered (Some (inl d)) None r
      | BPending :: r => Buffered (Some (inl d)) None r
      end
  end.

(** peek_trailers.rs:87-116; [eos] is the inner body's `is_end_stream`. *)
Definition map_response (v : version) (eos : rbody -> bool) (b : rbody) : peek :=
  match v with
  | V09 | V10 | V11 => Passthru b
  | _ => if eos b then Empty else read_body b
  end.

(** What a poll gives: [None] is the end. *)
Definition poll_inner (b : rbody) : option polled * rbody :=
  match b with [] => (None, []) | x :: b => (Some x, b) end.
(** Helper: a data frame or an error *)
Definition of_data (r : bytes + N) : polled := match r with inl d => BFrame (FData d) | inr e => BErr e end.
(** Helper: trailers or an error *)
Definition of_trailers (r : headers + N) : polled :=
  match r with inl t => BFrame (FTrailers t) | inr e => BErr e end.

(** peek_trailers.rs:244-276 *)
Definition poll_frame (p : peek) : option polled * peek :=
  match p with
  | Empty => (None, Empty)
  | Passthru b => let '(x, b) := poll_inner b in (x, Passthru b)
  | Unary (Some d) t => (Some (of_data d), Unary None t)
  | Unary None (Some t) => (Some (of_trailers t), Unary None None)
  | Unary None None => (None, p)
  | Buffered (Some d) s b => (Some (of_data d), Buffered None s b)
  | Buffered None (Some d) b => (Some (of_data d), Buffered None None b)
  | Buffered None None b => let '(x, b) := poll_inner b in (x, Buffered None None b)
  end.

(** peek_trailers.rs:278-294 *)
Definition peek_eos (eos : rbody -> bool) (p : peek) : bool :=
  match p with
  | Empty => true
  | Passthru b => eos b
  | Unary None None => true
  | Unary _ _ => false
  | Buffered None None b => eos b
  | Buffered _ _ _ => false
  end.

(** peek_trailers.rs:296-330; lower bound and optional upper bound. *)
Definition peek_hint (hint : rbody -> N * option N) (p : peek) : N * option N :=
  match p with
  | Empty => (0, None)
  | Passthru b => hint b
  | Unary (Some (inl d)) _ => (len d, Some (len d))
  | Unary _ _ => (0, None)
  | Buffered f s b =>
      let add (x : option (bytes + N)) (h : N * option N) :=
        match x with
        | Some (inl d) => (fst h + len d, option_map (fun u => u + len d) (snd h))
        | _ => h
        end in
      add s (add f (hint b))
  end.

(** [n] polls, [None] being the end. *)
Fixpoint polls (n : nat) (p : peek) : list (option polled) :=
  match n with
  | O => []
  | S n => let '(x, p) := poll_frame p in x :: polls n p
  end.
