(** Properties C34 and C35: trace propagation. *)
From Coq Require Import String List NArith.
From Verif Require Import Bytes FilterModel FilterSpec TraceModel TraceSpec TraceProofs.
Import ListNotations.
Open Scope N_scope.

(** ** C34 *)

(** Refuted: a `traceparent` with an empty flags field crashes the request. *)
Theorem C34_no_crash_refuted :
  exists hs, forall id, trace_call true hs id = Crash.
Proof.
  exists [(TRACEPARENT, bs "00-4bf92f3577b34da6a3ce929d0e0e4736-00f067aa0ba902b7-")].
  intros id. vm_compute. reflexivity.
Qed.
Print Assumptions C34_no_crash_refuted.

(** That is the only header that does. *)
Theorem C34_crash_iff_empty_flags :
  forall enabled hs id,
    trace_call enabled hs id = Crash <->
    enabled = true /\ exists v, first_value TRACEPARENT hs v /\
      exists t p tid pid, v = [48; 48] ++ dash :: t ++ dash :: p ++ [dash] /\
        hexes t tid /\ hexes p pid /\ nonzero tid /\ nonzero pid.
Proof. exact crash_iff. Qed.
Print Assumptions C34_crash_iff_empty_flags.

(** ** C35 *)
Theorem C35_w3c_header_understood :
  forall hs v tid pid fl, first_value TRACEPARENT hs v -> traceparent v tid pid fl ->
    unpack_trace_context hs = Ctx (Context W3CHttp tid pid fl).
Proof. exact w3c_valid. Qed.
Print Assumptions C35_w3c_header_understood.

Theorem C35_grpc_header_understood :
  forall hs tid pid fl ver, hm_get hs TRACEPARENT = None ->
    byte_string (ver :: 0 :: tid ++ 1 :: pid ++ [2; fl]) -> len tid = 16 -> len pid = 8 ->
    first_value GRPC_TRACE_BIN hs (b64_encode (ver :: 0 :: tid ++ 1 :: pid ++ [2; fl])) ->
    unpack_trace_context hs = Ctx (Context B3Grpc tid pid fl).
Proof. exact grpc_valid. Qed.
Print Assumptions C35_grpc_header_understood.

(** The separate B3 headers; short ids are padded with zeros. *)
Theorem C35_b3_headers_understood :
  forall hs s sid sid' t tid tid',
    hm_get hs TRACEPARENT = None -> hm_get hs GRPC_TRACE_BIN = None ->
    first_value X_B3_SPANID hs s -> hexes s sid -> padded 8 sid sid' ->
    first_value X_B3_TRACEID hs t -> hexes t tid -> padded 16 tid tid' ->
    exists fl, unpack_trace_context hs = Ctx (Context B3Http tid' sid' fl) /\
      fl < 2 /\ (fl = 1 <-> first_value X_B3_SAMPLED hs [49]).
Proof. exact b3_valid. Qed.
Print Assumptions C35_b3_headers_understood.

Example C35_b3_demo :
  let hs := [(bs "x-b3-spanid", bs "0a"); (bs "x-b3-traceid", bs "4Bf9")] in
  hm_get hs TRACEPARENT = None /\ hm_get hs GRPC_TRACE_BIN = None /\
  first_value X_B3_SPANID hs (bs "0a") /\ hexes (bs "0a") [10] /\ padded 8 [10] [0; 0; 0; 0; 0; 0; 0; 10].
Proof.
  cbv zeta. split; [reflexivity|]. split; [reflexivity|]. split; [apply hm_get_values; reflexivity|]. split.
  - apply hex_decode_spec. reflexivity.
  - exists 7%nat. split; reflexivity.
Qed.

(** Whatever the format, the forwarded headers carry the same trace id and flags
    with the new span as the parent; a span is emitted exactly when sampled. *)
Theorem C35_forwarded_context_linked :
  forall hs c id hs' emit,
    unpack_trace_context hs = Ctx c -> span_id_ok id -> c_trace_id c <> [] ->
    trace_call true hs id = Forward hs' emit ->
    unpack_trace_context hs' = Ctx (Context (c_propagation c) (c_trace_id c) id (c_flags c)) /\
    emit = (if N.odd (c_flags c) then Some (Span (c_trace_id c) id (c_parent_id c)) else None).
Proof. exact forward_links. Qed.
Print Assumptions C35_forwarded_context_linked.

Theorem C35_other_headers_untouched :
  forall enabled hs id hs' emit n vs, trace_call enabled hs id = Forward hs' emit ->
    n <> TRACEPARENT -> n <> GRPC_TRACE_BIN -> n <> X_B3_SPANID ->
    (values n hs' vs <-> values n hs vs).
Proof. exact forward_other_headers. Qed.
Print Assumptions C35_other_headers_untouched.

(** Only the header of the format that was understood is rewritten. *)
Theorem C35_only_own_header_rewritten :
  forall hs c id hs' emit n vs,
    unpack_trace_context hs = Ctx c -> trace_call true hs id = Forward hs' emit ->
    n <> span_header (c_propagation c) -> (values n hs' vs <-> values n hs vs).
Proof. exact forward_only_own_header. Qed.
Print Assumptions C35_only_own_header_rewritten.

Theorem C35_untouched_without_context :
  forall enabled hs id, unpack_trace_context hs = NoCtx \/ enabled = false ->
    trace_call enabled hs id = Forward hs None.
Proof. exact no_context_untouched. Qed.
Print Assumptions C35_untouched_without_context.

(** Without the hypothesis on the trace id it fails: a binary header that lacks the
    trace id is forwarded in a form that no longer decodes. *)
Theorem C35_missing_trace_id_refuted :
  exists hs c, unpack_trace_context hs = Ctx c /\
    forall hs' emit, trace_call true hs [1; 2; 3; 4; 5; 6; 7; 8] = Forward hs' emit ->
      unpack_trace_context hs' = NoCtx.
Proof.
  exists [(GRPC_TRACE_BIN, b64_encode [0; 2; 1])], (Context B3Grpc [] [] 1).
  split; [vm_compute; reflexivity|]. intros hs' emit H. vm_compute in H. injection H as <- _.
  vm_compute. reflexivity.
Qed.
Print Assumptions C35_missing_trace_id_refuted.

Definition demo_hs : headers :=
  [(bs "accept", bs "*/*"); (TRACEPARENT, bs "00-4bf92f3577b34da6a3ce929d0e0e4736-00f067aa0ba902b7-01")].
Example C35_demo :
  exists c hs', unpack_trace_context demo_hs = Ctx c /\ span_id_ok [1; 2; 3; 4; 5; 6; 7; 8] /\
    c_trace_id c <> [] /\
    trace_call true demo_hs [1; 2; 3; 4; 5; 6; 7; 8] =
      Forward hs' (Some (Span (c_trace_id c) [1; 2; 3; 4; 5; 6; 7; 8] (c_parent_id c))) /\
    hm_get hs' TRACEPARENT = Some (bs "00-4bf92f3577b34da6a3ce929d0e0e4736-0102030405060708-01").
Proof.
  do 2 eexists. split; [vm_compute; reflexivity|]. split.
  - split; [reflexivity|]. split; [repeat constructor|exists 1; split; [now left|discriminate]].
  - split; [discriminate|]. split; vm_compute; reflexivity.
Qed.
