(** What C139 says *)
From Coq Require Import List NArith Bool Arith.
From Verif Require Import Bytes EndpointModel LabelModel ZoneModel.
Import ListNotations.
Open Scope N_scope.

(** The zones of the endpoints that connections were asked for, in order *)
Fixpoint zones (h : list event) : list zone_locality :=
  match h with
  | [] => []
  | Connects m :: h => match m_zone_local m with Some true => Z_local | Some false => Z_remote | None => Z_unknown end :: zones h
  | _ :: h => zones h
  end.
(** The bytes that one event sends or receives on a connection to a zone *)
Definition zone_eq_dec : forall a b : zone_locality, {a = b} + {a <> b}.
Proof. decide equality. Defined.
Definition moved (zs : list zone_locality) (o : op) (z : zone_locality) (e : event) : N :=
  match o, e with
  | Recv, Reads id (Done n) | Send, Writes id (Done n) =>
      match nth_error zs id with Some z' => if zone_eq_dec z z' then n else 0 | None => 0 end
  | _, _ => 0
  end.
Definition transferred (h : list event) (o : op) (z : zone_locality) : N :=
  fold_right N.add 0 (map (moved (zones h) o z) h).
(** What is shown for a label: nothing, or a number *)
Definition shown (s : state) (o : op) (z : zone_locality) (n : N) : Prop := In ((o, z), n) (counters s).
