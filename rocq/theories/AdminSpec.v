(** What C107 and C108 say *)
From Coq Require Import String List Arith NArith Bool.
From Verif Require Import Bytes FilterModel AuthzModel AdminModel.
From Verif Require RouteModel PolicyModel ConnectSpec FilterSpec.
Import ListNotations.
Open Scope N_scope.

(** A client on this machine: 127.0.0.0/8, as such or mapped to IPv6, or ::1 *)
Definition on_this_machine (c : ip) : Prop :=
  (exists a, (c = V4 a \/ c = V6 (281470681743360 + a)) /\ 2130706432 <= a < 2147483648) \/ c = V6 1.
(** Addresses *)
Definition address (c : ip) : Prop := match c with V4 a => a < 4294967296 | V6 _ => True end.

(** [p] is somewhere in [s]. *)
Definition within (p s : bytes) : Prop := exists a b, s = a ++ p ++ b.

(** What the proxy reads of the body of a request: its first frame that is not empty *)
Definition first_frame (q : request) (chunk : bytes) : Prop :=
  q_frames q = [] /\ chunk = [] \/
  exists es rest, q_frames q = es ++ chunk :: rest /\ (forall e, In e es -> e = []) /\ (chunk = [] -> rest = []).

(** What changes when: *)
(** a request asks for another log level, and may, *)
Definition sets_level (utf8 : bytes -> bool) (parse : bytes -> option bytes) (q : request) (level : bytes) : Prop :=
  q_path q = bs "/proxy-log-level"%string /\ q_method q = bs "PUT"%string /\
  (exists c, q_client q = Some c /\ on_this_machine c) /\ q_broken q = false /\
  exists chunk, first_frame q chunk /\ utf8 chunk = true /\ parse chunk = Some level.
(** or to shut down *)
Definition shuts_down (q : request) : Prop :=
  q_path q = bs "/shutdown"%string /\ q_method q = bs "POST"%string /\
  exists c, q_client q = Some c /\ on_this_machine c.

(** How often something is in a history *)
Definition count (p : event -> bool) (es : list event) : nat := List.length (filter p es).
Definition cloned (e : event) : bool := match e with Latch_cloned => true | _ => false end.
Definition dropped (e : event) : bool := match e with Latch_dropped => true | _ => false end.

(** The log level after a history: the last that was set *)
Inductive level_after (utf8 : bytes -> bool) (parse : bytes -> option bytes) (first : bytes) : list event -> bytes -> Prop :=
| Never_set : forall es, (forall q l, In (Called q) es -> ~ sets_level utf8 parse q l) -> level_after utf8 parse first es first
| Last_set : forall es q l rest, sets_level utf8 parse q l ->
    (forall q' l', In (Called q') rest -> ~ sets_level utf8 parse q' l') ->
    level_after utf8 parse first (es ++ Called q :: rest) l.

(** A JSON response is acceptable to the client, as far as the proxy looks: at the first `accept` *)
Definition takes_json (utf8 : bytes -> bool) (q : request) : Prop :=
  forall a vs, FilterSpec.values (bs "accept"%string) (q_headers q) (a :: vs) ->
    utf8 a = true /\
    (within (bs "application/json"%string) a \/ within (bs "application/*"%string) a \/ within (bs "*/*"%string) a).
(** It asks for compression: an `accept-encoding` has gzip in it. *)
Definition takes_gzip (q : request) : Prop :=
  exists v, In (bs "accept-encoding"%string, v) (q_headers q) /\ ConnectSpec.text v /\ within (bs "gzip"%string) v.
(** The paths that this server knows *)
Definition known_path (streaming : bool) (p : bytes) : Prop :=
  In p [bs "/live"%string; bs "/ready"%string; bs "/metrics"%string; bs "/proxy-log-level"%string; bs "/env.json"%string;
        bs "/shutdown"%string] \/ streaming = true /\ p = bs "/logs.json"%string.
(** The clients of a history have addresses. *)
Definition addressed (es : list event) : Prop := forall q, In (Called q) es -> forall c, q_client q = Some c -> address c.
