(** The names of services that requests carry (C149). *)
From Coq Require Import String List NArith.
From Verif Require Import Bytes NameModel NameSpec FilterModel FilterSpec EndpointModel HintSpec Http1Spec.
From Verif Require PolicyModel.
From Verif Require Import Http1Model InboundModel InboundSpec CanonModel.
Import Http1Model.
Import ListNotations.
Open Scope N_scope.

(** The address of a service: a lower-case DNS name and a port *)
Definition service (a : name_addr) : Prop :=
  dns_name (na_name a) /\ lowers (na_name a) = na_name a /\ na_port a <= 65535.
(** The same, without the dot that may end the name *)
Definition undotted_service (a n : name_addr) : Prop := undotted (na_name a) (na_name n) /\ na_port n = na_port a.

(** All but the headers is the same. *)
Definition only_headers (r r' : request) : Prop := r' = with_headers r (q_headers r').

(** A request as the server of that protocol makes it *)
Definition made_by (v : PolicyModel.variant) (r : request) : Prop :=
  fresh r /\ uri_ok (q_uri r) /\
  match v with PolicyModel.V_http1 => http1 (q_version r) | PolicyModel.V_h2 => q_version r = Http_2 end.

(** What the peer's server makes of what is sent. Over HTTP/1 hyper writes the target in the form that it is configured
    for, and may add a `host`; method, version and the other headers arrive as they are. *)
Inductive arrives : dispatched -> request -> Prop :=
| By_h2 r v : arrives (Over_h2 r v) (over_wire r)
| By_http1 r r' : fresh r' -> uri_ok (q_uri r') -> q_method r' = q_method r -> q_version r' = q_version r ->
    (forall n vs, n <> bs "host"%string -> values n (q_headers r') vs <-> values n (q_headers r) vs) ->
    arrives (Over_http1 r) r'.
