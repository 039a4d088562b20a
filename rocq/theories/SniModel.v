(** Model of linkerd/tls/src/server/client_hello.rs and of the detection of
    linkerd/tls/src/server.rs. *)
From Coq Require Import List NArith Bool.
From Verif Require Import Bytes NameModel IoModel.
Import ListNotations.
Open Scope N_scope.

(** ** The `untrusted` crate: a reader is the input that remains. *)
Inductive res (A : Type) := EndOfInput | Done (a : A) (rest : bytes).
Arguments EndOfInput {A}. Arguments Done {A}.

(** `?` on a reader *)
Definition bind {A B} (r : res A) (f : A -> bytes -> res B) : res B :=
  match r with EndOfInput => EndOfInput | Done a rest => f a rest end.

(** [Reader::read_byte] *)
Definition read_byte (i : bytes) : res N :=
  match i with [] => EndOfInput | c :: r => Done c r end.
(** [Reader::read_bytes] and [Reader::skip] *)
Definition read_bytes (n : N) (i : bytes) : res bytes :=
  if n <=? len i then Done (take n i) (drop n i) else EndOfInput.
(** [Input::read_all]: the closure must consume everything. *)
Definition read_all {A} (f : bytes -> res A) (i : bytes) : option A :=
  match f i with
  | Done a [] => Some a
  | _ => None
  end.

(** ** client_hello.rs *)

(** client_hello.rs:183-187 *)
Definition read_u16 (i : bytes) : res N :=
  bind (read_byte i) (fun hi i => bind (read_byte i) (fun lo i => Done (hi * 256 + lo) i)).

(** client_hello.rs:146-165 *)
Definition read_vector {A} (f : bytes -> res (option A)) (i : bytes) : res (option A) :=
  bind (read_u16 i) (fun length i =>
    if 8192 <? length then Done None i
    else bind (read_bytes length i) (fun r i =>
      match read_all f r with
      | Some a => Done a i
      | None => EndOfInput
      end)).

(** client_hello.rs:168-174; the closure skips to the end. *)
Definition skip_vector (i : bytes) : res bool :=
  bind (read_vector (fun _ => Done (Some tt) []) i) (fun r i =>
    Done (match r with Some _ => true | None => false end) i).

(** client_hello.rs:177-180 *)
Definition skip_vector_u8 (i : bytes) : res unit :=
  bind (read_byte i) (fun length i => bind (read_bytes length i) (fun _ i => Done tt i)).

(** client_hello.rs:117-126 *)
Definition server_name_list (i : bytes) : res (option bytes) :=
  bind (read_byte i) (fun t i =>
    if negb (t =? 0) then Done None i
    else read_vector (fun i => Done (Some i) []) i).

(** client_hello.rs:104-134, the loop over the extensions.  Each turn consumes
    at least two bytes, so the length of the input is enough fuel. *)
Fixpoint extensions (fuel : nat) (i : bytes) : res (option bytes) :=
  match fuel with
  | O => Done None i
  | S fuel =>
      match i with
      | [] => Done None []
      | _ =>
          bind (read_u16 i) (fun t i =>
            if negb (t =? 0) then bind (skip_vector i) (fun _ i => extensions fuel i)
            else
              match read_vector (read_vector server_name_list) i with
              | EndOfInput => EndOfInput
              | Done r _ => Done r []           (* input.skip_to_end() *)
              end)
      end
  end.

(** client_hello.rs:88-135 *)
Definition client_hello (i : bytes) : res (option bytes) :=
  bind (read_byte i) (fun major i =>
    if negb (major =? 3) then Done None i
    else bind (read_byte i) (fun minor i =>
      if negb (minor =? 3) then Done None i
      else
        bind (read_bytes 32 i) (fun _ i =>
        bind (skip_vector_u8 i) (fun _ i =>
        bind (skip_vector i) (fun ok i =>
          if negb ok then Done None i
          else
            bind (skip_vector_u8 i) (fun _ i =>
              read_vector (fun i => extensions (length i) i) i)))))).

(** client_hello.rs:76-136, the body of the record *)
Definition handshake (i : bytes) : res (option bytes) :=
  bind (read_byte i) (fun t i =>
    if negb (t =? 1) then Done None i
    else bind (read_byte i) (fun hi i =>
      if negb (hi =? 0) then Done None i
      else read_vector client_hello i)).

(** client_hello.rs:53-142, up to the final skip_to_end *)
Definition extract_sni (i : bytes) : res (option bytes) :=
  bind (read_byte i) (fun t i =>
    if negb (t =? 22) then Done None i
    else bind (read_byte i) (fun major i =>
      if negb (major =? 3) then Done None i
      else bind (read_byte i) (fun minor i =>
        if negb (minor =? 1) && negb (minor =? 3) then Done None i
        else read_vector handshake i))).

(** Result of [parse_sni]. *)
Inductive sni_result := Incomplete | Answer (sni : option bytes).

(** client_hello.rs:21-48.  Valid names are ASCII, so the UTF-8 check never
    rejects a name that would parse. *)
Definition parse_sni (i : bytes) : sni_result :=
  match extract_sni i with
  | EndOfInput => Incomplete
  | Done (Some sni) _ => Answer (name_from_str sni)
  | Done None _ => Answer None
  end.

(** ** server.rs *)

(** What detection gives: the name found and the stream for the next layer, or
    nothing yet (the timeout will end it). *)
Inductive detected := Decided (sni : option bytes) (i : io) | Undecided (buf : bytes) (i : io).

(** server.rs:233-255: reads until an answer or the end of the stream.  Each
    element of [sizes] is the buffer's spare capacity and the size of what the
    socket has.  `buf.capacity() == 0` (server.rs:241) is never true: [read_buf]
    grows the buffer, and it is not empty. *)
Fixpoint buffer_sni (buf : bytes) (i : io) (sizes : list (positive * positive)) : detected :=
  match sizes with
  | [] => Undecided buf i
  | nk :: sizes =>
      let '(b, i) := read_buf i nk in
      match b with
      | [] => Decided None (Prefixed buf i)
      | _ =>
          let buf := buf ++ b in
          match parse_sni buf with
          | Answer sni => Decided sni (Prefixed buf i)
          | Incomplete => buffer_sni buf i sizes
          end
      end
  end.

(** server.rs:208-256.  The peek of server.rs:218-226 is given an empty slice (a
    [BytesMut] of length 0), so it always yields 0 bytes and is skipped. *)
Definition detect_sni (i : io) (sizes : list (positive * positive)) : detected :=
  buffer_sni [] i sizes.

(** ** linkerd/http/detect/src/lib.rs *)
Definition H2_PREFACE : bytes :=
  [80; 82; 73; 32; 42; 32; 72; 84; 84; 80; 47; 50; 46; 48].

(** lib.rs:25-29 *)
Inductive detection := NotHttp | Http1 | H2 | ReadTimeout.

(** What the single read gives. *)
Inductive first_read := Timeout | ReadError | Read (nk : positive * positive).

Section Http.
  (** Whether `httparse` accepts the bytes as (the start of) a request, or has
      more headers than room for. *)
  Variable httparse : bytes -> bool.

  (** lib.rs:178-195 *)
  Definition classify (buf : bytes) : detection :=
    if (len H2_PREFACE <=? len buf) && beq (take (len H2_PREFACE) buf) H2_PREFACE then H2
    else if (14 <=? len buf) && httparse buf then Http1
    else NotHttp.

  (** lib.rs:115-133, 153-196: [None] is an error.  The stream is handed to the
      next layer as lib.rs:130 does. *)
  Definition http_detect (i : io) (r : first_read) : option (detection * io) :=
    match r with
    | Timeout => Some (ReadTimeout, Prefixed [] i)
    | ReadError => None
    | Read nk =>
        let '(b, i) := read_buf i nk in
        match b with
        | [] => None
        | _ => Some (classify b, Prefixed b i)
        end
    end.
End Http.
