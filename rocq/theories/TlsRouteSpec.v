(** What the theorems about the routes of TLS connections say, apart from the model's own functions. *)
From Coq Require Import List NArith.
From Verif Require Import Bytes RouteModel RouteSpec TlsRouteModel.
Import ListNotations.
Open Scope N_scope.

(** The text that a wildcard stands before: "*.example.com" is kept as ["com"; "example"], for ".example.com". *)
Definition suffix_text (labels : list bytes) : bytes := concat (map (fun l => 46 :: l) (rev labels)).
(** A name is absolute if it ends with a dot. *)
Definition ends_in_dot (name : bytes) : Prop := exists n, name = n ++ [46].

(** The name, less a dot at the end unless the route's name has one itself *)
Definition compared (absolute : Prop) (sni s : bytes) : Prop :=
  (absolute /\ s = sni) \/ (~ absolute /\ undotted sni s).

(** A server name that a route's name stands for *)
Definition sni_accepts (m : match_sni) (sni : bytes) : Prop :=
  match m with
  | SExact h => compared (ends_in_dot h) sni h
  | SSuffix labels =>
      exists pre, compared (exists l, labels = [] :: l) sni (pre ++ suffix_text labels)
  end.

(** Exact names rank above wildcards, and longer ones above shorter ones. *)
Definition sni_rank (m : match_sni) : list N :=
  match m with
  | SExact h => [2; len h]
  | SSuffix labels => [1; len (suffix_text labels)]
  end.

(** How a route ranks for a name that it applies to: one without names applies to all, with the lowest rank; of
    others the best one of the names that apply counts. *)
Definition tls_applies {P} (rt : tls_route P) (sni : bytes) (r : list N) : Prop :=
  (tr_snis rt = [] /\ r = [0; 0]) \/
  ((exists m, In m (tr_snis rt) /\ sni_accepts m sni /\ r = sni_rank m) /\
   forall m, In m (tr_snis rt) -> sni_accepts m sni -> lex_le (sni_rank m) r).

(** A route that ranks above those before it, and not below those after it *)
Definition tls_first_best {P} (routes : list (tls_route P)) (sni : bytes) (p : P) : Prop :=
  exists before rt after r,
    routes = before ++ rt :: after /\ tr_policy rt = p /\ tls_applies rt sni r /\
    (forall rt' r', In rt' before -> tls_applies rt' sni r' -> lex_lt r' r) /\
    (forall rt' r', In rt' after -> tls_applies rt' sni r' -> lex_le r' r).

(** A name is written in lower case. *)
Definition lower_case (s : bytes) : Prop := lowers s = s.
(** [sni_accepts] as names of the DNS are compared, without regard to case *)
Definition sni_accepts_any_case (m : match_sni) (sni : bytes) : Prop :=
  exists sni', same_ignoring_case sni sni' /\ sni_accepts m sni'.
(** All of a route's names are in lower case. *)
Definition lower_match (m : match_sni) : Prop :=
  match m with SExact h => lower_case h | SSuffix labels => forall l, In l labels -> lower_case l end.
