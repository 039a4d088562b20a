(** Specification for C38 - C40. *)
From Coq Require Import List NArith.
From Verif Require Import Bytes IoModel IoSpec SniModel.
Import ListNotations.
Open Scope N_scope.

(** [p] is a prefix of [s]. *)
Definition prefix_of (p s : bytes) : Prop := exists q, s = p ++ q.

(** Some prefix of the stream decides, with answer [a]. *)
Definition decides (s : bytes) (a : option bytes) : Prop :=
  exists p, prefix_of p s /\ parse_sni p = Answer a.

(** The answer that detection must give for a finite stream: what some prefix
    decides, or nothing when no prefix does. *)
Definition stream_answer (s : bytes) (a : option bytes) : Prop :=
  decides s a \/ ((forall b, ~ decides s b) /\ a = None).

(** ** Well-formed ClientHello records, as RFC 8446 / 6066 lay them out *)
Definition u16 (n : N) : bytes := [n / 256; n mod 256].
Definition vec16 (b : bytes) : bytes := u16 (len b) ++ b.
Definition vec8 (b : bytes) : bytes := len b :: b.

Record hello := {
  h_random : bytes; h_session : bytes; h_ciphers : bytes; h_compression : bytes;
  h_extensions : list (N * bytes)
}.

Definition enc_extension (e : N * bytes) : bytes := u16 (fst e) ++ vec16 (snd e).
Definition enc_extensions (l : list (N * bytes)) : bytes := concat (map enc_extension l).
Definition enc_hello (h : hello) : bytes :=
  [3; 3] ++ h_random h ++ vec8 (h_session h) ++ vec16 (h_ciphers h) ++ vec8 (h_compression h)
  ++ vec16 (enc_extensions (h_extensions h)).
(** A handshake message has a 24-bit length, of which the first byte is 0. *)
Definition enc_handshake (h : hello) : bytes := [1; 0] ++ vec16 (enc_hello h).
Definition enc_record (minor : N) (h : hello) : bytes := [22; 3; minor] ++ vec16 (enc_handshake h).
(** The server_name extension with one host name. *)
Definition sni_extension (name : bytes) : N * bytes := (0, vec16 (0 :: vec16 name)).

(** The record fits what detection accepts. *)
Definition fits (h : hello) : Prop :=
  len (h_random h) = 32 /\ len (enc_handshake h) <= 8192.
Definition no_sni (l : list (N * bytes)) : Prop := Forall (fun e => 0 < fst e) l.
