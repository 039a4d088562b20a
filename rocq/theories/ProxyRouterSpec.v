(** What C135 says *)
From Coq Require Import List Arith Bool.
From Verif Require Import ProxyRouterModel.
Import ListNotations.

Section Router.
  Context {M Req : Type}.
  Variable matches : M -> Req -> bool.

  (** The profile that is there after a history that begins with a profile *)
  Inductive latest (p : received M) : list (event M) -> received M -> Prop :=
  | La_first : latest p [] p
  | La_update h q : latest p (h ++ [Updates q]) q
  | La_same h e q : (forall q', e <> Updates q') -> latest p h q -> latest p (h ++ [e]) q.
  (** The profile that is used: the one that was there when the router was last polled and ready, or none *)
  Inductive in_use (p : received M) : list (event M) -> received M -> Prop :=
  | Us_none h : ~ In (Polls Ready) h -> in_use p h []
  | Us_ready h h' q : latest p h q -> ~ In (Polls Ready) h' -> in_use p (h ++ Polls Ready :: h') q.
  (** The description of the first route that matches *)
  Inductive first_route : received M -> Req -> option nat -> Prop :=
  | F_none rs req : (forall m d, In (m, d) rs -> matches m req = false) -> first_route rs req None
  | F_some a m d b req : (forall m' d', In (m', d') a -> matches m' req = false) -> matches m req = true ->
      first_route (a ++ (m, d) :: b) req (Some d).
  (** The description of the route that a proxy was made for *)
  Definition proxy_for (s : router M) (p d : nat) : Prop :=
    exists r, nth_error (made s) p = Some r /\ nth_error (read s) r = Some d.
  Definition no_update (h : list (event M)) : Prop := forall q, ~ In (Updates q) h.
End Router.
