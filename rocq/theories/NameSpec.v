(** What a DNS name is, and what a suffix contains (C41, C42, C43). *)
From Coq Require Import List NArith.
From Verif Require Import Bytes NameModel.
Import ListNotations.
Open Scope N_scope.

Definition letter (c : N) : Prop := 97 <= c <= 122 \/ 65 <= c <= 90.
Definition digit (c : N) : Prop := 48 <= c <= 57.
Definition hyphen : N := 45.
Definition underscore : N := 95.
Definition dot : N := 46.

Definition label (l : bytes) : Prop :=
  l <> [] /\ len l <= 63 /\
  (forall c, In c l -> letter c \/ digit c \/ c = hyphen \/ c = underscore) /\
  (forall r, l <> hyphen :: r) /\ (forall r, l <> r ++ [hyphen]).

Definition dotted (labels : list bytes) : bytes := join dot labels.

Definition dns_name (s : bytes) : Prop :=
  len s <= 253 /\
  exists labels last_label,
    Forall label labels /\ label last_label /\ ~ Forall digit last_label /\
    (s = dotted (labels ++ [last_label]) \/ s = dotted (labels ++ [last_label]) ++ [dot]).

(** [n] without one trailing dot is [t]. *)
Definition undotted (n t : bytes) : Prop :=
  (n = t \/ n = t ++ [dot]) /\ forall r, t <> r ++ [dot].

Definition under (sfx name : bytes) : Prop :=
  exists s n, undotted sfx s /\ undotted name n /\ (n = s \/ exists sub, n = sub ++ dot :: s).

Definition contained (s : suffix) (name : bytes) : Prop :=
  match s with SRoot => True | SName sfx => under sfx name end.
