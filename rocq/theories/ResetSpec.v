(** What applications see of the errors of connections to peers (C151). *)
From Coq Require Import String List NArith.
From Verif Require Import Bytes Http1Model RespondModel RespondSpec ResetModel.
Import ListNotations.
Open Scope N_scope.

(** Some error of the chain is of that type *)
Definition has (k : kind) (e : chain) : Prop := exists n, In n e /\ n_kind n = k.
(** An error of a connection: hyper's, with errors of h2, of input and output, of connecting, and others as its sources *)
Definition of_transport (e : chain) : Prop :=
  exists text sources, e = Node Other text None :: sources /\
    Forall (fun n => n_kind n = H2_error \/ n_kind n = Io_error \/ n_kind n = Connect_timeout \/ n_kind n = Other) sources.
(** The first error of h2 in the chain *)
Definition first_h2 (e : chain) (n : node) : Prop :=
  exists before after, e = before ++ n :: after /\ n_kind n = H2_error /\ ~ has H2_error before.
(** The first error of h2 with a reason, and the reason *)
Definition first_reason (e : chain) (r : N) : Prop :=
  exists before n after, e = before ++ n :: after /\ n_kind n = H2_error /\ n_reason n = Some r /\
    forall m, In m before -> n_kind m = H2_error -> n_reason m = None.

(** A response that gives that answer to a request, as C65 says *)
Definition gives (emit : bool) (q : request) (a : answer) (rsp : response) : Prop :=
  (grpc_request q -> grpc_answer emit a rsp) /\
  (~ grpc_request q -> exists mention, mentions q mention /\ http_answer emit mention (q_version q) a rsp).
(** The application is answered so, and its connection told to close. *)
Definition answered_with (emit : bool) (q : request) (a : answer) (s : seen) : Prop :=
  exists rsp, s = Answered rsp true /\ gives emit q a rsp.

(** What is said of a reset of an upgraded request *)
Definition reset_message (describe : N -> bytes) (r : N) : bytes :=
  bs "upgraded connection failed with HTTP/2 reset: "%string ++ describe r.
(** INTERNAL_ERROR of RFC 9113, section 7 *)
Definition internal : N := 2.
Definition reason_or_internal (n : node) : N := match n_reason n with Some r => r | None => internal end.
