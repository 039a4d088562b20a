(** Declarative reading of C06 and C07. *)
From Coq Require Import String List NArith.
From Verif Require Import Bytes RouteModel FilterModel.
Import ListNotations.
Open Scope N_scope.

(** The values of a header, in order. *)
Inductive values (n : bytes) : list (bytes * bytes) -> list bytes -> Prop :=
| values_nil : values n [] []
| values_here v l vs : values n l vs -> values n ((n, v) :: l) (v :: vs)
| values_other m v l vs : m <> n -> values n l vs -> values n ((m, v) :: l) vs.

(** [v] is the last value configured for [n]. *)
Definition last_value (n v : bytes) (l : list (bytes * bytes)) : Prop :=
  exists before after, l = before ++ (n, v) :: after /\ forall v', ~ In (n, v') after.

Definition expected_values (f : modify_header) (hs : list (bytes * bytes)) (n : bytes)
    (vs : list bytes) : Prop :=
  (In n (mh_remove f) /\ vs = []) \/
  (~ In n (mh_remove f) /\ exists v, last_value n v (mh_set f) /\ vs = [v]) \/
  (~ In n (mh_remove f) /\ (forall v, ~ In (n, v) (mh_set f)) /\
   exists old added, values n hs old /\ values n (mh_add f) added /\ vs = old ++ added).

(** Two URIs name the same resource: scheme and host up to ASCII case. *)
Definition same_opt {A} (R : A -> A -> Prop) (a b : option A) : Prop :=
  match a, b with Some x, Some y => R x y | None, None => True | _, _ => False end.
Definition same_uri (a b : uri) : Prop :=
  same_opt (fun x y => lowers x = lowers y) (u_scheme a) (u_scheme b) /\
  same_opt (fun x y => lowers (a_host x) = lowers (a_host y) /\ a_port x = a_port y)
           (u_auth a) (u_auth b) /\
  u_path a = u_path b /\ u_query a = u_query b.

Definition chosen_scheme (r : redirect) (orig : uri) (s : bytes) : Prop :=
  match rd_scheme r, u_scheme orig with
  | Some x, _ => s = x
  | None, Some x => s = x
  | None, None => s = bs "http"%string
  end.

Definition default_port (scheme : bytes) (p : N) : Prop :=
  (lowers scheme = bs "http"%string /\ p = 80) \/ (lowers scheme = bs "https"%string /\ p = 443).

(** The authority a redirect must point to. *)
Definition chosen_authority (r : redirect) (orig : uri) (scheme : bytes) (a : authority) : Prop :=
  match rd_authority r with
  | None => u_auth orig = Some a
  | Some (AExact x) => a = x
  | Some (AHost h) =>
      a_host a = a_host h /\
      (forall o p, u_auth orig = Some o -> a_port o = Some p -> ~ default_port scheme p -> a_port a = Some p) /\
      (forall o p, u_auth orig = Some o -> a_port o = Some p -> default_port scheme p -> a = h) /\
      ((forall o, u_auth orig = Some o -> a_port o = None) -> a = h)
  | Some (APort p) =>
      exists o, u_auth orig = Some o /\ a_host a = a_host o /\
        (default_port scheme p -> a_port a = None) /\
        (~ default_port scheme p -> a_port a = Some p)
  end.

(** The path: unchanged, replaced, or with the matched prefix replaced and the
    query kept.  A '/' is inserted only to separate the new prefix from a rest
    that does not start with one. *)
Definition chosen_text (r : redirect) (orig : uri) (rm : request_match) (t : bytes) : Prop :=
  match rd_path r with
  | None => True
  | Some (ReplaceFullPath p) => t = p
  | Some (ReplacePrefixMatch pfx) =>
      exists n matched rest q, rm_path rm = PMPrefix n /\
        u_path orig = matched ++ rest /\ len matched = n /\
        q = match u_query orig with Some x => 63 :: x | None => [] end /\
        ((rest = [] /\ t = pfx ++ q) \/
         (exists rest', rest = 47 :: rest' /\ t = pfx ++ rest ++ q) \/
         (exists c rest', c <> 47 /\ rest = c :: rest' /\ t = pfx ++ 47 :: rest ++ q))
  end.

(** [t] is the text of the location's path and query. *)
Definition pq_text (p : bytes) (q : option bytes) (t : bytes) : Prop :=
  ~ In 63 p /\ t = p ++ match q with Some x => 63 :: x | None => [] end.
