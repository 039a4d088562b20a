(** Model of linkerd/tls/route/src/lib.rs and sni.rs: which route a TLS connection takes, by the server name that its
    client asks for.  A `ServerName` is a [name_from_str] name (linkerd/tls/src/lib.rs:95-100), as bytes. *)
From Coq Require Import List NArith Bool.
From Verif Require Import Bytes RouteModel.
Import ListNotations.
Open Scope N_scope.

(** sni.rs:12-20 *)
Inductive match_sni := SExact (h : bytes) | SSuffix (reverse_labels : list bytes).
(** sni.rs:23-26 *)
Inductive sni_match := SMExact (n : N) | SMSuffix (n : N).

(** sni.rs:36-48.  It never fails. *)
Definition sni_from_str (s : bytes) : match_sni :=
  match s with
  | 42 :: 46 :: sfx => SSuffix (rev (split 46 sfx))
  | _ => SExact s
  end.

(** sni.rs:70-75: the loop *)
Fixpoint strip_sni (sni : bytes) (labels : list bytes) (length : N) : option N :=
  match labels with
  | [] => Some length
  | sfx :: rest =>
      match strip_suffix sfx sni with
      | None => None
      | Some s =>
          match strip_suffix [46] s with
          | None => None
          | Some s => strip_sni s rest (length + (len sfx + 1))
          end
      end
  end.

(** sni.rs:51-80 *)
Definition summarize_sni (m : match_sni) (sni : bytes) : option sni_match :=
  match m with
  | SExact h =>
      let sni := if ends_with [46] h then sni else strip_dot sni in
      if beq h sni then Some (SMExact (len h)) else None
  | SSuffix suffix =>
      let absolute := match suffix with [] :: _ => true | _ => false end in
      let sni := if absolute then sni else strip_dot sni in
      match strip_sni sni suffix 0 with
      | Some n => Some (SMSuffix n)
      | None => None
      end
  end.

(** sni.rs:91-101 *)
Definition sni_cmp (a b : sni_match) : comparison :=
  match a, b with
  | SMExact l, SMExact r => N.compare l r
  | SMSuffix l, SMSuffix r => N.compare l r
  | SMExact _, SMSuffix _ => Gt
  | SMSuffix _, SMExact _ => Lt
  end.

(** lib.rs:18-26 *)
Record tls_route (P : Type) := TlsRoute { tr_snis : list match_sni; tr_policy : P }.
Arguments TlsRoute {P}. Arguments tr_snis {P}. Arguments tr_policy {P}.

(** lib.rs:46-61: what a route gives, if it applies *)
Definition tls_summary {P} (sni : bytes) (rt : tls_route P) : option (option sni_match * P) :=
  match tr_snis rt with
  | [] => Some (None, tr_policy rt)
  | _ :: _ =>
      match max_by sni_cmp (filter_map (fun m => summarize_sni m sni) (tr_snis rt)) with
      | None => None
      | Some m => Some (Some m, tr_policy rt)
      end
  end.

(** lib.rs:43-70; the order of `RouteMatch` is derived (lib.rs:30-33). *)
Definition tls_find {P} (routes : list (tls_route P)) (sni : bytes) : option (option sni_match * P) :=
  best (opt_cmp sni_cmp) (filter_map (tls_summary sni) routes).

(** linkerd/app/outbound/src/tls/logical/router.rs:197-212: the route of a connection, or `NoRoute` *)
Definition tls_select {P} (routes : list (tls_route P)) (sni : bytes) : option P :=
  match tls_find routes sni with Some (_, p) => Some p | None => None end.
