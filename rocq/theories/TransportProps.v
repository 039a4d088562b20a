(** Property C10: transport headers. *)
From Coq Require Import String List NArith.
From Verif Require Import Bytes NameModel NameSpec IoModel IoSpec TransportModel TransportSpec TransportProofs.
Import ListNotations.
Open Scope N_scope.

(** Whatever the segmentation of the stream, a header that was written is read
    back and the next layer's stream holds exactly the bytes after it. *)
Theorem C10_header_round_trip :
  forall utf8 h payload i sizes, utf8_accepts_ascii utf8 -> sendable h ->
    contents i = (encode_prefaced h ++ payload)%list ->
    (length (contents i) < length sizes)%nat ->
    exists i', serve utf8 i sizes = Next h i' /\ contents i' = payload.
Proof. exact serve_round_trip_complete. Qed.
Print Assumptions C10_header_round_trip.

(** The same with fewer reads: the right result or none yet. *)
Theorem C10_header_round_trip_any_prefix :
  forall utf8 h payload i sizes, utf8_accepts_ascii utf8 -> sendable h ->
    contents i = (encode_prefaced h ++ payload)%list ->
    serve utf8 i sizes = Pending \/
    exists i', serve utf8 i sizes = Next h i' /\ contents i' = payload.
Proof. exact serve_round_trip. Qed.
Print Assumptions C10_header_round_trip_any_prefix.

(** What is written starts with the preface, so that no stream without it was written by a proxy. *)
Theorem C10_written_with_preface : forall h, starts_preface (encode_prefaced h).
Proof. exact encoded_starts. Qed.
Print Assumptions C10_written_with_preface.

(** A stream that does not start with the preface is reported as having no header,
    and none of its bytes is consumed. *)
Theorem C10_no_preface_nothing_consumed :
  forall utf8 capacity i sizes o buf i', ~ starts_preface (contents i) ->
    read_prefaced utf8 capacity i sizes = Read o buf i' ->
    o = NoHeader /\ (buf ++ contents i' = contents i)%list.
Proof. exact no_preface_untouched. Qed.
Print Assumptions C10_no_preface_nothing_consumed.

(** For arbitrary bytes the outcome does not depend on the segmentation. *)
Theorem C10_independent_of_segmentation :
  forall utf8 capacity i j s1 s2 o1 b1 i1 o2 b2 i2, contents i = contents j ->
    read_prefaced utf8 capacity i s1 = Read o1 b1 i1 ->
    read_prefaced utf8 capacity j s2 = Read o2 b2 i2 ->
    o1 = o2 /\ (b1 ++ contents i1 = b2 ++ contents i2)%list.
Proof. exact read_segmentation. Qed.
Print Assumptions C10_independent_of_segmentation.

(** Whatever the bytes, an accepted header has a nonzero 16-bit port and a valid
    name, and the next layer gets a suffix of the stream. *)
Theorem C10_accepted_is_valid :
  forall utf8 i sizes h i', serve utf8 i sizes = Next h i' ->
    1 <= h_port h <= 65535 /\ (forall n, h_name h = Some n -> dns_name n) /\
    exists n, contents i = (the_preface ++ n ++ contents i')%list.
Proof. exact accepted_header_valid. Qed.
Print Assumptions C10_accepted_is_valid.

Definition demo_header : header := Header 4040 (Some (bs "web.example.com")) (Some Http2).
Example C10_demo :
  sendable demo_header /\ utf8_accepts_ascii (fun _ => true) /\
  len (encode_prefaced demo_header) = 51 /\
  serve (fun _ => true) (Raw (encode_prefaced demo_header ++ bs "xyz"))
    [(7%positive, 9%positive); (1%positive, 8%positive); (64%positive, 52%positive)]
  = Next demo_header (Prefixed (bs "xyz") (Raw [])).
Proof.
  split; [split; [cbn; split; discriminate|exists (bs "Web.example.com"); reflexivity]|].
  split; [intros b _; reflexivity|]. split; reflexivity.
Qed.
Example C10_demo_no_preface : ~ starts_preface (bs "GET / HTTP/1.1").
Proof. intros [q H]. discriminate H. Qed.

(** A header may have fields that this version does not know, anywhere between others: they are ignored. *)
Theorem C10_unknown_fields : forall utf8 before u after p, unknown_field u -> proto_decode utf8 before = Some p ->
  decode utf8 (before ++ u ++ after) = decode utf8 (before ++ after).
Proof. exact unknown_ignored. Qed.
Print Assumptions C10_unknown_fields.
Example C10_demo_unknown : unknown_field [37; 1; 2; 3; 4] /\
  decode (fun _ => true) ([8; 80] ++ [37; 1; 2; 3; 4] ++ []) = Some (Header 80 None None).
Proof. split; [exact (Uf_32 4 [1; 2; 3; 4] ltac:(now split) eq_refl) | reflexivity]. Qed.
