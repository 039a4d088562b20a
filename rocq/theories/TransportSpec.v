(** Specification for C10. *)
From Coq Require Import String List NArith.
From Verif Require Import Bytes NameModel NameSpec IoModel TransportModel.
Import ListNotations.
Open Scope N_scope.

(** The headers that can be sent: a nonzero port, and a name that was obtained by
    parsing. *)
Definition sendable (h : header) : Prop :=
  1 <= h_port h <= 65535 /\
  match h_name h with Some n => exists s, name_from_str s = Some n | None => True end.

(** ASCII strings are UTF-8. *)
Definition utf8_accepts_ascii (utf8 : bytes -> bool) : Prop :=
  forall b, Forall (fun c => c < 128) b -> utf8 b = true.

(** A stream starts with the preface. *)
Definition the_preface : bytes := bs "transport.l5d.io/v1"%string ++ [13; 10; 13; 10].
Definition starts_preface (s : bytes) : Prop := exists q, s = (the_preface ++ q)%list.

(** A field that the header does not have, as protobuf encodes it: a number, eight bytes, a length and so many
    bytes, or four bytes. *)
Inductive unknown_field : bytes -> Prop :=
| Uf_varint tag v : 4 <= tag < 2 ^ 29 -> v < 2 ^ 64 -> unknown_field (enc_varint (8 * tag) ++ enc_varint v)
| Uf_64 tag x : 4 <= tag < 2 ^ 29 -> len x = 8 -> unknown_field (enc_varint (8 * tag + 1) ++ x)
| Uf_bytes tag x : 4 <= tag < 2 ^ 29 -> len x < 2 ^ 64 -> unknown_field (enc_varint (8 * tag + 2) ++ enc_varint (len x) ++ x)
| Uf_32 tag x : 4 <= tag < 2 ^ 29 -> len x = 4 -> unknown_field (enc_varint (8 * tag + 5) ++ x).
