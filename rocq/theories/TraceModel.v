(** Model of linkerd/trace-context/src: propagation.rs, propagation/b3.rs,
    propagation/w3c.rs and the header handling of service.rs. *)
From Coq Require Import List NArith Bool.
From Verif Require Import Bytes IoModel FilterModel.
Import ListNotations.
Open Scope N_scope.

(** ** The `hex` and `base64` crates *)
Definition hex_val (c : N) : option N :=
  if (48 <=? c) && (c <=? 57) then Some (c - 48)
  else if (97 <=? c) && (c <=? 102) then Some (c - 87)
  else if (65 <=? c) && (c <=? 70) then Some (c - 55)
  else None.
(** `hex`: lower-case digits *)
Definition hex_char (n : N) : N := if n <? 10 then 48 + n else 87 + n.

(** `hex::decode` *)
Fixpoint hex_decode (s : bytes) : option bytes :=
  match s with
  | [] => Some []
  | a :: b :: r =>
      match hex_val a, hex_val b, hex_decode r with
      | Some x, Some y, Some t => Some (16 * x + y :: t)
      | _, _, _ => None
      end
  | _ => None
  end.
(** `hex::encode` *)
Definition hex_encode (b : bytes) : bytes :=
  flat_map (fun c => [hex_char (c / 16); hex_char (c mod 16)]) b.

(** `base64`: the standard alphabet *)
Definition b64_char (n : N) : N :=
  if n <? 26 then 65 + n
  else if n <? 52 then 71 + n
  else if n <? 62 then n - 4
  else if n =? 62 then 43 else 47.
(** `base64`: its inverse *)
Definition b64_val (c : N) : option N :=
  if (65 <=? c) && (c <=? 90) then Some (c - 65)
  else if (97 <=? c) && (c <=? 122) then Some (c - 71)
  else if (48 <=? c) && (c <=? 57) then Some (c + 4)
  else if c =? 43 then Some 62
  else if c =? 47 then Some 63
  else None.

(** `general_purpose::STANDARD`: canonical padding. *)
Fixpoint b64_encode (b : bytes) : bytes :=
  match b with
  | [] => []
  | [x] => [b64_char (x / 4); b64_char (x mod 4 * 16); 61; 61]
  | [x; y] => [b64_char (x / 4); b64_char (x mod 4 * 16 + y / 16); b64_char (y mod 16 * 4); 61]
  | x :: y :: z :: r =>
      b64_char (x / 4) :: b64_char (x mod 4 * 16 + y / 16) ::
      b64_char (y mod 16 * 4 + z / 64) :: b64_char (z mod 64) :: b64_encode r
  end.
(** `general_purpose::STANDARD.decode` *)
Fixpoint b64_decode (s : bytes) : option bytes :=
  match s with
  | [] => Some []
  | a :: b :: c :: d :: r =>
      match b64_val a, b64_val b with
      | Some a, Some b =>
          match r with
          | [] =>
              if d =? 61 then
                if c =? 61 then if b mod 16 =? 0 then Some [a * 4 + b / 16] else None
                else match b64_val c with
                     | Some c => if c mod 4 =? 0 then Some [a * 4 + b / 16; b mod 16 * 16 + c / 4] else None
                     | None => None
                     end
              else match b64_val c, b64_val d with
                   | Some c, Some d => Some [a * 4 + b / 16; b mod 16 * 16 + c / 4; c mod 4 * 64 + d]
                   | _, _ => None
                   end
          | _ =>
              match b64_val c, b64_val d, b64_decode r with
              | Some c, Some d, Some t =>
                  Some (a * 4 + b / 16 :: b mod 16 * 16 + c / 4 :: c mod 4 * 64 + d :: t)
              | _, _, _ => None
              end
          end
      | _, _ => None
      end
  | _ => None
  end.

(** ** propagation.rs *)

(** propagation.rs:10-23 *)
Inductive propagation := B3Http | B3Grpc | W3CHttp.
(** propagation.rs:17-23 *)
Record context := Context {
  c_propagation : propagation; c_trace_id : bytes; c_parent_id : bytes; c_flags : N
}.
(** lib.rs:121-123 *)
Definition is_sampled (c : context) : bool := N.odd (c_flags c).

(** [HeaderMap::get]: the first value of a name. *)
Definition hm_get (hs : headers) (n : bytes) : option bytes :=
  option_map snd (find (fun h => beq (fst h) n) hs).

(** [HeaderValue::to_str] *)
Definition to_str (v : bytes) : option bytes :=
  if forallb (fun b => ((32 <=? b) && (b <? 127)) || (b =? 9)) v then Some v else None.

(** propagation.rs:61-69 *)
Definition get_header_str (hs : headers) (n : bytes) : option bytes :=
  match hm_get hs n with Some v => to_str v | None => None end.

(** propagation.rs:73-84 *)
Definition decode_id_with_padding (value : bytes) (pad_to : N) : option bytes :=
  option_map (fun data =>
    if len data <? pad_to then repeat 0 (N.to_nat (pad_to - len data)) ++ data else data)
    (hex_decode value).

(** What unpacking gives; [Panic] is an index out of bounds. *)
Inductive unpacked := Ctx (c : context) | NoCtx | Panic.

(** ** w3c.rs *)
Definition TRACEPARENT : bytes := [116; 114; 97; 99; 101; 112; 97; 114; 101; 110; 116].
(** w3c.rs:8 *)
Definition VERSION_00 : bytes := [48; 48].

(** w3c.rs:84-96 *)
Definition parse_header_value (v : bytes) (pad_to : N) : option (bytes * bytes) :=
  match split_once 45 v with
  | Some (id, rest) =>
      if forallb (fun c => c =? 48) id then None
      else match decode_id_with_padding id pad_to with
           | Some i => Some (i, rest)
           | None => None
           end
  | None => None
  end.

(** w3c.rs:44-79; `decoded[0]` on l. 65 *)
Definition parse_context (v : bytes) : unpacked :=
  match split_once 45 v with
  | None => NoCtx
  | Some (version, rest) =>
      if negb (beq version VERSION_00) then NoCtx
      else match parse_header_value rest 16 with
           | None => NoCtx
           | Some (trace_id, rest) =>
               match parse_header_value rest 8 with
               | None => NoCtx
               | Some (parent_id, rest) =>
                   match hex_decode rest with
                   | Some [] => Panic
                   | Some (f :: _) => Ctx (Context W3CHttp trace_id parent_id f)
                   | None => NoCtx
                   end
               end
           end
  end.

(** w3c.rs:10-12 *)
Definition unpack_w3c (hs : headers) : unpacked :=
  match get_header_str hs TRACEPARENT with Some v => parse_context v | None => NoCtx end.

(** w3c.rs:17-41; [span_id] is the random id.  The value is ASCII, so it is
    always a valid header value. *)
Definition increment_w3c (hs : headers) (c : context) (span_id : bytes) : headers :=
  hm_insert hs TRACEPARENT
    (VERSION_00 ++ [45] ++ hex_encode (c_trace_id c) ++ [45] ++ hex_encode span_id
     ++ [45] ++ hex_encode [c_flags c]).

(** ** b3.rs *)
Definition X_B3_TRACEID : bytes := [120; 45; 98; 51; 45; 116; 114; 97; 99; 101; 105; 100].
(** b3.rs:13: x-b3-spanid *)
Definition X_B3_SPANID : bytes := [120; 45; 98; 51; 45; 115; 112; 97; 110; 105; 100].
(** b3.rs:14: x-b3-sampled *)
Definition X_B3_SAMPLED : bytes := [120; 45; 98; 51; 45; 115; 97; 109; 112; 108; 101; 100].
(** b3.rs:16: grpc-trace-bin *)
Definition GRPC_TRACE_BIN : bytes := [103; 114; 112; 99; 45; 116; 114; 97; 99; 101; 45; 98; 105; 110].

(** b3.rs:24-54 *)
Definition increment_grpc (hs : headers) (c : context) (span_id : bytes) : headers :=
  hm_insert hs GRPC_TRACE_BIN
    (b64_encode ([0] ++ [0] ++ c_trace_id c ++ [1] ++ span_id ++ [2] ++ [c_flags c])).
(** b3.rs:56-69 *)
Definition increment_b3 (hs : headers) (span_id : bytes) : headers :=
  hm_insert hs X_B3_SPANID (hex_encode span_id).

(** propagation.rs:88-94 *)
Definition try_split_to (buf : bytes) (n : N) : option (bytes * bytes) :=
  if n <=? len buf then Some (take n buf, drop n buf) else None.

(** b3.rs:124-150 *)
Inductive field_result := FieldOk (c : context) (rest : bytes) | UnknownField | FieldErr.
(** b3.rs:124-150 *)
Definition parse_grpc_field (buf : bytes) (c : context) : field_result :=
  match buf with
  | [] => FieldErr
  | id :: buf =>
      if id =? 1 then
        match try_split_to buf 8 with
        | Some (i, r) => FieldOk (Context (c_propagation c) (c_trace_id c) i (c_flags c)) r
        | None => FieldErr
        end
      else if id =? 0 then
        match try_split_to buf 16 with
        | Some (i, r) => FieldOk (Context (c_propagation c) i (c_parent_id c) (c_flags c)) r
        | None => FieldErr
        end
      else if id =? 2 then
        match try_split_to buf 1 with
        | Some (f :: _, r) => FieldOk (Context (c_propagation c) (c_trace_id c) (c_parent_id c) f) r
        | _ => FieldErr
        end
      else UnknownField
  end.

(** b3.rs:99-122, the loop; a field takes at least two bytes. *)
Fixpoint parse_grpc_fields (fuel : nat) (buf : bytes) (c : context) : option context :=
  match buf with
  | [] => Some c
  | _ =>
      match fuel with
      | O => None
      | S fuel =>
          match parse_grpc_field buf c with
          | FieldOk c r => parse_grpc_fields fuel r c
          | UnknownField => Some c
          | FieldErr => None
          end
      end
  end.

(** b3.rs:71-82, 99-108 *)
Definition unpack_grpc (hs : headers) : option context :=
  match get_header_str hs GRPC_TRACE_BIN with
  | None => None
  | Some v =>
      match b64_decode v with
      | None => None
      | Some [] => None
      | Some (_version :: buf) => parse_grpc_fields (length buf) buf (Context B3Grpc [] [] 0)
      end
  end.

(** b3.rs:152-163 *)
Definition parse_header_id (hs : headers) (n : bytes) (pad_to : N) : option bytes :=
  match get_header_str hs n with
  | Some v => decode_id_with_padding v pad_to
  | None => None
  end.

(** b3.rs:84-97 *)
Definition unpack_b3 (hs : headers) : option context :=
  match parse_header_id hs X_B3_SPANID 8 with
  | None => None
  | Some parent_id =>
      match parse_header_id hs X_B3_TRACEID 16 with
      | None => None
      | Some trace_id =>
          let flags := match get_header_str hs X_B3_SAMPLED with
                       | Some v => if beq v [49] then 1 else 0
                       | None => 0
                       end in
          Some (Context B3Http trace_id parent_id flags)
      end
  end.

(** propagation.rs:41-47 *)
Definition unpack_trace_context (hs : headers) : unpacked :=
  match unpack_w3c hs with
  | NoCtx =>
      match unpack_grpc hs with
      | Some c => Ctx c
      | None => match unpack_b3 hs with Some c => Ctx c | None => NoCtx end
      end
  | r => r
  end.

(** propagation.rs:51-57 *)
Definition increment_span_id (hs : headers) (c : context) (span_id : bytes) : headers :=
  match c_propagation c with
  | B3Grpc => increment_grpc hs c span_id
  | B3Http => increment_b3 hs span_id
  | W3CHttp => increment_w3c hs c span_id
  end.

(** ** service.rs *)
Record span := Span { s_trace_id : bytes; s_span_id : bytes; s_parent_id : bytes }.

(** service.rs:184-221: the headers of the forwarded request and the span that
    is emitted once the response arrives. *)
Inductive traced := Forward (hs : headers) (emit : option span) | Crash.
(** service.rs:189-226 *)
Definition trace_call (enabled : bool) (hs : headers) (span_id : bytes) : traced :=
  if enabled then
    match unpack_trace_context hs with
    | Panic => Crash
    | NoCtx => Forward hs None
    | Ctx c =>
        let hs := increment_span_id hs c span_id in
        if is_sampled c then Forward hs (Some (Span (c_trace_id c) span_id (c_parent_id c)))
        else Forward hs None
    end
  else Forward hs None.
