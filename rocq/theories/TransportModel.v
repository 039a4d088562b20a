(** Model of linkerd/transport-header: the protobuf codec that `prost` generates
    from gen/transport.l5d.io.rs, and the reading of a header from a stream. *)
From Coq Require Import List NArith ZArith Bool.
From Verif Require Import Bytes NameModel IoModel.
Import ListNotations.
Open Scope N_scope.

(** lib.rs:23-39 *)
Inductive session := Http1 | Http2.
(** lib.rs:23-39 *)
Record header := Header { h_port : N; h_name : option bytes; h_protocol : option session }.

(** lib.rs:42-43 *)
Definition PREFACE : bytes :=
  [116; 114; 97; 110; 115; 112; 111; 114; 116; 46; 108; 53; 100; 46; 105; 111; 47; 118; 49; 13; 10; 13; 10].
(** lib.rs:43 *)
Definition PREFACE_AND_SIZE_LEN : N := len PREFACE + 4.

(** ** Protobuf encoding (prost::encoding) *)

(** `encode_varint`, for values below 2^64: at most ten bytes. *)
Fixpoint enc_varint_go (fuel : nat) (v : N) : bytes :=
  match fuel with
  | O => [v]
  | S fuel => if v <? 128 then [v] else (v mod 128 + 128) :: enc_varint_go fuel (v / 128)
  end.
(** prost's `encode_varint` *)
Definition enc_varint (v : N) : bytes := enc_varint_go 9 v.

(** `decode_varint`: up to ten bytes, the tenth at most 1. *)
Fixpoint dec_varint_go (fuel : nat) (b : bytes) : option (N * bytes) :=
  match b with
  | [] => None
  | c :: r =>
      match fuel with
      | O => if c <? 2 then Some (c, r) else None
      | S fuel =>
          if c <? 128 then Some (c, r)
          else match dec_varint_go fuel r with
               | Some (v, r) => Some (c - 128 + 128 * v, r)
               | None => None
               end
      end
  end.
(** prost's `decode_varint` *)
Definition dec_varint (b : bytes) : option (N * bytes) := dec_varint_go 9 b.

(** Length-delimited payload. *)
Definition dec_delimited (b : bytes) : option (bytes * bytes) :=
  match dec_varint b with
  | Some (n, r) => if n <=? len r then Some (take n r, drop n r) else None
  | None => None
  end.

(** `decode_key`: field number and wire type. *)
Definition dec_key (b : bytes) : option (N * N * bytes) :=
  match dec_varint b with
  | Some (k, r) =>
      if (4294967295 <? k) || (5 <? k mod 8) || (k / 8 <? 1) then None else Some (k / 8, k mod 8, r)
  | None => None
  end.

(** `skip_field`.  Simplified: a group (wire types 3 and 4) is an error; prost
    skips a well-formed one. *)
Definition skip_field (wire : N) (b : bytes) : option bytes :=
  if wire =? 0 then option_map snd (dec_varint b)
  else if wire =? 1 then if 8 <=? len b then Some (drop 8 b) else None
  else if wire =? 2 then option_map snd (dec_delimited b)
  else if wire =? 5 then if 4 <=? len b then Some (drop 4 b) else None
  else None.

(** `Message::merge`: fields until the end of the input.  Each field takes at
    least one byte, so the length of the input is enough fuel. *)
Fixpoint merge {M} (field : M -> N -> N -> bytes -> option (M * bytes)) (fuel : nat) (m : M) (b : bytes)
  : option M :=
  match b with
  | [] => Some m
  | _ =>
      match fuel with
      | O => None
      | S fuel =>
          match dec_key b with
          | Some (tag, wire, r) =>
              match field m tag wire r with
              | Some (m, r) => merge field fuel m r
              | None => None
              end
          | None => None
          end
      end
  end.

(** `as i32` of a decoded varint. *)
Definition as_i32 (v : N) : Z :=
  let w := v mod 4294967296 in
  if w <? 2147483648 then Z.of_N w else (Z.of_N w - 4294967296)%Z.

(** gen/transport.l5d.io.rs:3-20: the session protocol is absent, present without a
    kind, or present with one. *)
Record proto_header := ProtoHeader { p_port : Z; p_name : bytes; p_session : option (option session) }.

(** An empty message: every field is skipped. *)
Definition empty_field (m : unit) (tag wire : N) (b : bytes) : option (unit * bytes) :=
  option_map (fun r => (m, r)) (skip_field wire b).

(** gen/transport.l5d.io.rs:16-33: a one-of with tags 1 and 2. *)
Definition session_field (m : option session) (tag wire : N) (b : bytes)
  : option (option session * bytes) :=
  if (tag =? 1) || (tag =? 2) then
    if wire =? 2 then
      match dec_delimited b with
      | Some (x, r) =>
          match merge empty_field (length x) tt x with
          | Some _ => Some (Some (if tag =? 1 then Http1 else Http2), r)
          | None => None
          end
      | None => None
      end
    else None
  else option_map (fun r => (m, r)) (skip_field wire b).

Section Decode.
  (** [String]'s UTF-8 check. *)
  Variable utf8 : bytes -> bool.

  (** gen/transport.l5d.io.rs:3-15 *)
  Definition header_field (m : proto_header) (tag wire : N) (b : bytes)
    : option (proto_header * bytes) :=
    if tag =? 1 then
      if wire =? 0 then
        match dec_varint b with
        | Some (v, r) => Some (ProtoHeader (as_i32 v) (p_name m) (p_session m), r)
        | None => None
        end
      else None
    else if tag =? 2 then
      if wire =? 2 then
        match dec_delimited b with
        | Some (x, r) => if utf8 x then Some (ProtoHeader (p_port m) x (p_session m), r) else None
        | None => None
        end
      else None
    else if tag =? 3 then
      if wire =? 2 then
        match dec_delimited b with
        | Some (x, r) =>
            let m0 := match p_session m with Some k => k | None => None end in
            match merge session_field (length x) m0 x with
            | Some k => Some (ProtoHeader (p_port m) (p_name m) (Some k), r)
            | None => None
            end
        | None => None
        end
      else None
    else option_map (fun r => (m, r)) (skip_field wire b).

  (** prost's `Message::decode` for gen/transport.l5d.io.rs:3-15 *)
  Definition proto_decode (b : bytes) : option proto_header :=
    merge header_field (length b) (ProtoHeader 0 [] None) b.

  (** lib.rs:163-194; [None] is an error. *)
  Definition decode (b : bytes) : option header :=
    match proto_decode b with
    | None => None
    | Some h =>
        match (match p_name h with
               | [] => Some None
               | s => option_map Some (name_from_str s)
               end) with
        | None => None
        | Some name =>
            if (p_port h <=? 0)%Z || (65535 <? p_port h)%Z then None
            else Some (Header (Z.to_N (p_port h)) name
                        (match p_session h with Some k => k | None => None end))
        end
    end.

  (** ** Reading (lib.rs:116-160) *)

  (** lib.rs:122-126, 150-157: read until [n] bytes are buffered. *)
  Inductive filled := Full (buf : bytes) (i : io) (sizes : list (positive * positive))
                    | Eof (buf : bytes) (i : io)
                    | Starved (buf : bytes) (i : io).
  (** lib.rs:122-126, 147-154: read until enough is buffered *)
  Fixpoint fill (n : N) (buf : bytes) (i : io) (sizes : list (positive * positive)) : filled :=
    if n <=? len buf then Full buf i sizes
    else match sizes with
         | [] => Starved buf i
         | nk :: sizes =>
             let '(b, i) := read_buf i nk in
             match b with
             | [] => Eof buf i
             | _ => fill n (buf ++ b) i sizes
             end
         end.

  (** [BytesMut::get_u32] *)
  Definition get_u32 (b : bytes) : N :=
    match b with
    | a :: b :: c :: d :: _ => a * 16777216 + b * 65536 + c * 256 + d
    | _ => 0
    end.

  (** A header, no header, or an error; with what is left in the caller's buffer and
      the stream.  [Waiting]: the sockets' bytes have not arrived (the timeout ends it). *)
  Inductive outcome := Parsed (h : header) | NoHeader | Invalid.
  (** lib.rs:116-160: what reading a header gives *)
  Inductive read_result := Read (o : outcome) (buf : bytes) (i : io) | Waiting (buf : bytes) (i : io).

  (** lib.rs:116-160.  [capacity] is the buffer's capacity once the preface and
      size have been consumed. *)
  Definition read_prefaced (capacity : N) (i : io) (sizes : list (positive * positive)) : read_result :=
    match fill PREFACE_AND_SIZE_LEN [] i sizes with
    | Starved buf i => Waiting buf i
    | Eof buf i => Read NoHeader buf i
    | Full buf i sizes =>
        if negb (beq (take (len PREFACE) buf) PREFACE) then Read NoHeader buf i
        else
          let buf := drop (len PREFACE) buf in
          let msg_len := get_u32 buf in
          let buf := drop 4 buf in
          if capacity + PREFACE_AND_SIZE_LEN <? msg_len then Read Invalid buf i
          else
            match fill msg_len buf i sizes with
            | Starved buf i => Waiting buf i
            | Eof buf i => Read Invalid buf i
            | Full buf i _ =>
                match decode (take msg_len buf) with
                | Some h => Read (Parsed h) (drop msg_len buf) i
                | None => Read Invalid (drop msg_len buf) i
                end
            end
    end.
End Decode.

(** ** Writing *)

(** gen/transport.l5d.io.rs: the encoder omits default values. *)
Definition enc_session (s : session) : bytes :=
  match s with Http1 => [10; 0] | Http2 => [18; 0] end.
(** lib.rs:87-108 and the generated encoder *)
Definition enc_proto (h : header) : bytes :=
  (if h_port h =? 0 then [] else 8 :: enc_varint (h_port h))
  ++ (match h_name h with
      | Some (c :: n) => 18 :: enc_varint (len (c :: n)) ++ c :: n
      | _ => []
      end)
  ++ (match h_protocol h with
      | Some s => 26 :: enc_varint (len (enc_session s)) ++ enc_session s
      | None => []
      end).
(** [BytesMut::put_u32] *)
Definition put_u32 (v : N) : bytes :=
  [v / 16777216 mod 256; v / 65536 mod 256; v / 256 mod 256; v mod 256].
(** lib.rs:66-84 *)
Definition encode_prefaced (h : header) : bytes :=
  PREFACE ++ put_u32 (len (enc_proto h)) ++ enc_proto h.

(** server.rs:63-91: what the next layer gets.  The buffer has a capacity of 64KiB
    (server.rs:69), of which 27 bytes have been consumed. *)
Inductive served := Next (h : header) (i : io) | Refused | Pending.
(** server.rs:63-91 *)
Definition serve (utf8 : bytes -> bool) (i : io) (sizes : list (positive * positive)) : served :=
  match read_prefaced utf8 (65536 - 27) i sizes with
  | Read (Parsed h) buf i => Next h (Prefixed buf i)
  | Read _ _ _ => Refused
  | Waiting _ _ => Pending
  end.
