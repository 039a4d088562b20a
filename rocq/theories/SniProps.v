(** Properties C38 - C40: protocol detection. *)
From Coq Require Import List NArith String.
From Verif Require Import Bytes NameModel IoModel IoSpec SniModel SniSpec SniProofs.
Import ListNotations.
Open Scope N_scope.
Open Scope string_scope.

(** ** C38 *)
Theorem C38_http_detection_keeps_bytes :
  forall httparse i r d i', http_detect httparse i r = Some (d, i') -> contents i' = contents i.
Proof. exact http_detect_conserves. Qed.
Print Assumptions C38_http_detection_keeps_bytes.

Theorem C38_tls_detection_keeps_bytes :
  forall i sizes a i', detect_sni i sizes = Decided a i' -> contents i' = contents i.
Proof. exact (fun i sizes a i' H => proj1 (detect_sni_spec i sizes a i' H)). Qed.
Print Assumptions C38_tls_detection_keeps_bytes.

(** Both in sequence, as a server stack runs them. *)
Theorem C38_tls_then_http_keeps_bytes :
  forall httparse i sizes a i1 r d i2,
    detect_sni i sizes = Decided a i1 -> http_detect httparse i1 r = Some (d, i2) ->
    contents i2 = contents i.
Proof.
  exact (fun httparse i sizes a i1 r d i2 H1 H2 =>
    eq_trans (http_detect_conserves httparse i1 r d i2 H2) (proj1 (detect_sni_spec i sizes a i1 H1))).
Qed.
Print Assumptions C38_tls_then_http_keeps_bytes.

(** What HTTP detection decides, from the bytes [b] of the first read. *)
Theorem C38_http_detection_decision :
  forall httparse i nk d i', http_detect httparse i (Read nk) = Some (d, i') ->
    exists b rest, b <> [] /\ contents i = (b ++ rest)%list /\
      (d = H2 <-> prefix_of (bs "PRI * HTTP/2.0") b) /\
      (d = Http1 <-> ~ prefix_of (bs "PRI * HTTP/2.0") b /\ 14 <= len b /\ httparse b = true).
Proof. exact http_detect_h2. Qed.
Print Assumptions C38_http_detection_decision.

Example C38_demo :
  exists i1 i2,
    detect_sni (Raw (bs "PRI * HTTP/2.0 etc")) [(3%positive, 5%positive)] = Decided None i1 /\
    http_detect (fun _ => false) i1 (Read (100%positive, 100%positive)) = Some (NotHttp, i2).
Proof. do 2 eexists. split; reflexivity. Qed.
Example C38_demo_h2 :
  exists i2, http_detect (fun _ => false) (Raw (bs "PRI * HTTP/2.0 etc")) (Read (100%positive, 100%positive))
             = Some (H2, i2).
Proof. eexists. reflexivity. Qed.

(** ** C39 *)
Theorem C39_answer_is_stable :
  forall p q a, parse_sni p = Answer a -> parse_sni (p ++ q)%list = Answer a.
Proof. exact parse_sni_monotone. Qed.
Print Assumptions C39_answer_is_stable.

(** Two runs of detection on the same bytes, segmented differently. *)
Theorem C39_answer_independent_of_segmentation :
  forall i j s1 s2 a b i' j', contents i = contents j ->
    detect_sni i s1 = Decided a i' -> detect_sni j s2 = Decided b j' ->
    a = b /\ contents i' = contents j'.
Proof. exact detect_sni_chunking. Qed.
Print Assumptions C39_answer_independent_of_segmentation.

(** It is the answer of the decisive prefix, if there is one. *)
Theorem C39_answer_of_stream :
  forall i sizes a i', detect_sni i sizes = Decided a i' -> stream_answer (contents i) a.
Proof. exact (fun i sizes a i' H => proj2 (detect_sni_spec i sizes a i' H)). Qed.
Print Assumptions C39_answer_of_stream.

(** A minimal ClientHello for "a.b". *)
Definition hello_ab : bytes :=
  ([22; 3; 1; 0; 59; 1; 0; 0; 55; 3; 3] ++ repeat 7 32 ++ [0; 0; 2; 19; 1; 1; 0; 0; 12]
   ++ [0; 0; 0; 8; 0; 6; 0; 0; 3; 97; 46; 98])%list.
Example C39_demo :
  parse_sni hello_ab = Answer (Some (bs "a.b")) /\
  parse_sni (removelast hello_ab) = Incomplete /\
  detect_sni (Raw (hello_ab ++ bs "tail")%list) [(5%positive, 9%positive); (200%positive, 200%positive)]
    = Decided (Some (bs "a.b")) (Prefixed (hello_ab ++ bs "tail")%list (Raw [])).
Proof. repeat split; vm_compute; reflexivity. Qed.

(** ** C46: what a well-formed ClientHello says is what detection finds *)
Theorem C46_wellformed_hello_name_found :
  forall minor h pre name post rest,
    minor = 1 \/ minor = 3 -> fits h ->
    h_extensions h = (pre ++ sni_extension name :: post)%list -> no_sni pre ->
    parse_sni (enc_record minor h ++ rest)%list = Answer (name_from_str name).
Proof. exact wellformed_sni. Qed.
Print Assumptions C46_wellformed_hello_name_found.

Theorem C46_wellformed_hello_without_name :
  forall minor h rest, minor = 1 \/ minor = 3 -> fits h -> no_sni (h_extensions h) ->
    parse_sni (enc_record minor h ++ rest)%list = Answer None.
Proof. exact wellformed_no_sni. Qed.
Print Assumptions C46_wellformed_hello_without_name.

(** No decision is taken on a part of it. *)
Theorem C46_no_decision_before_the_record_is_complete :
  forall minor h p q, minor = 1 \/ minor = 3 -> fits h -> q <> [] ->
    enc_record minor h = (p ++ q)%list -> parse_sni p = Incomplete.
Proof. exact record_prefix_incomplete. Qed.
Print Assumptions C46_no_decision_before_the_record_is_complete.

Definition demo_hello : hello := {|
  h_random := repeat 7 32; h_session := [1; 2]; h_ciphers := [19; 1]; h_compression := [0];
  h_extensions := [(43, [2; 3; 4]); sni_extension (bs "foo.NS.serviceaccount"); (10, [])] |}.
Example C46_demo :
  fits demo_hello /\ no_sni [(43, [2; 3; 4])] /\
  parse_sni (enc_record 1 demo_hello) = Answer (Some (bs "foo.ns.serviceaccount")).
Proof.
  split; [split; [reflexivity|vm_compute; discriminate]|].
  split; [constructor; [reflexivity|constructor]|]. vm_compute; reflexivity.
Qed.

(** ** C40 *)

(** Refuted: for every bound there is a stream of which more is buffered. *)
Theorem C40_bounded_buffering_refuted :
  forall n, exists s sizes b i',
    len s <= n + 8 /\ detect_sni (Raw s) sizes = Undecided b i' /\ n < len b.
Proof. exact buffering_unbounded. Qed.
Print Assumptions C40_bounded_buffering_refuted.

(** What does hold: nothing beyond the first 8197 bytes matters, so stopping
    there would lose no detection. *)
Theorem C40_decided_early_or_never :
  forall p q, 8197 <= len p -> parse_sni p = Incomplete -> parse_sni (p ++ q)%list = Incomplete.
Proof. exact decided_early_or_never. Qed.
Print Assumptions C40_decided_early_or_never.
