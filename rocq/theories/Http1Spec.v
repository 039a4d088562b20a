(** What C60, C61 and C62 say *)
From Coq Require Import String List NArith Bool.
From Verif Require Import Bytes RetrySpec HintSpec FilterModel Http1Model.
Import ListNotations.
Open Scope N_scope.

Definition http1 (v : version) : Prop := v = Http_10 \/ v = Http_11.
(** URIs as `http::Uri` makes them: absolute (`http://host/path`), only an authority, or only a
    path *)
Definition absolute_uri (u : uri) : Prop := u_scheme u <> None /\ u_auth u <> None.
Definition authority_uri (u : uri) : Prop := u_scheme u = None /\ u_auth u <> None /\ u_path u = [] /\ u_query u = None.
Definition path_uri (u : uri) : Prop := u_scheme u = None /\ u_auth u = None.
Definition uri_ok (u : uri) : Prop := absolute_uri u \/ authority_uri u \/ path_uri u.
(** The same, with another authority *)
Definition reauthorized (u : uri) (a : authority) (u' : uri) : Prop :=
  u_auth u' = Some a /\ u_path u' = u_path u /\ u_query u' = u_query u /\
  (authority_uri u -> u_scheme u' = None) /\ (~ authority_uri u -> u_scheme u' = Some (bs "http"%string)).

(** The headers but those of some names, in their order *)
Definition without (names : list bytes) (hs : headers) : headers :=
  filter (fun h => negb (existsb (beq (fst h)) names)) hs.
(** The first value of a header *)
Definition first_of (name : bytes) (hs : headers) (v : bytes) : Prop :=
  exists pre post, hs = pre ++ (name, v) :: post /\ ~ In name (map fst pre).

(** Headers of the connection: those that always are, and those that the first `connection`
    header lists *)
Definition hop_by_hop (hs : headers) (n : bytes) : Prop :=
  In n [bs "connection"; bs "upgrade"; bs "proxy-connection"; bs "keep-alive"]%string \/
  exists v l o t, first_of (bs "connection"%string) hs v /\ printable v /\ items v l /\ In o l /\ trimmed o t /\ n = lowers t.

(** A request of HTTP/1.1 that asks for another protocol, or for a tunnel *)
Definition asks_upgrade (r : request) : Prop :=
  q_version r = Http_11 /\
  ((exists v, first_of (bs "upgrade"%string) (q_headers r) v /\ v <> bs "h2c"%string) \/
   (~ In (bs "upgrade"%string) (map fst (q_headers r)) /\ q_method r = bs "CONNECT"%string)).
(** A request whose target is not one for its method *)
Definition ill_formed (r : request) : Prop :=
  (q_method r = bs "CONNECT"%string /\ (q_version r <> Http_11 \/ ~ authority_uri (q_uri r))) \/
  (q_method r <> bs "CONNECT"%string /\ authority_uri (q_uri r)).
(** A response that ends the use of HTTP on its connection *)
Definition switches (connect : bool) (rsp : response) : Prop :=
  r_version rsp = Http_11 /\ (r_status rsp = 101 \/ (connect = true /\ 200 <= r_status rsp < 300)).

(** Its headers: those that say how long the body is have no place before a tunnel. *)
Definition tunnel_headers (connect : bool) (rsp : response) (hs : headers) : Prop :=
  (connect = true /\ 200 <= r_status rsp < 300 -> hs = without [bs "content-length"; bs "transfer-encoding"]%string (r_headers rsp)) /\
  (~ (connect = true /\ 200 <= r_status rsp < 300) -> hs = r_headers rsp).

(** What the peer receives when a request is sent over HTTP/2: extensions are local. *)
Definition over_wire (r : request) : request :=
  Request (q_method r) Http_2 (q_uri r) (q_headers r) false false false.
(** A request as the HTTP server makes it *)
Definition fresh (r : request) : Prop := q_absolute r = false /\ q_upgrade r = false /\ q_was_upgrade r = false.
(** The authority that the first `host` header is *)
Definition host_authority (parse : bytes -> option authority) (hs : headers) (a : authority) : Prop :=
  exists v, first_of (bs "host"%string) hs v /\ printable v /\ parse v = Some a.
