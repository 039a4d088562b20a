(** What C136 says *)
From Coq Require Import List NArith Bool.
From Verif Require Import AuthzModel AcceptModel.
Import ListNotations.
Open Scope N_scope.

(** An address of IPv4 that a socket of IPv6 sees: ::ffff:a.b.c.d *)
Definition v4_in_v6 (a : N) : ip := V6 (0xffff * 2 ^ 32 + a).
(** The client that a peer is *)
Inductive client_of : addr -> addr -> Prop :=
| Cl_v4 a p : client_of (V4 a, p) (V4 a, p)
| Cl_mapped a p : a < 2 ^ 32 -> client_of (v4_in_v6 a, p) (V4 a, p)
| Cl_v6 a p : (forall b, b < 2 ^ 32 -> V6 a <> v4_in_v6 b) -> client_of (V6 a, p) (V6 a, p).
(** The original destination that the system gives, by the family of the client *)
Inductive destined : socket -> ip -> addr -> Prop :=
| De_v4 o pe a x d6 : destined (Socket o pe (Some (Some a)) d6) (V4 x) a
| De_v6 o pe a x d4 : destined (Socket o pe d4 (Some (Some a))) (V6 x) a.
(** A socket is a connection between these *)
Definition connects (s : socket) (client dst : addr) : Prop :=
  s_options s = true /\ exists peer, s_peer s = Some peer /\ client_of peer client /\ destined s (fst client) dst.
(** The connections that listeners gave before the proxy shut down, in order *)
Inductive given : list event -> list (addr * addr) -> Prop :=
| Gi_nil : given [] []
| Gi_down h : given (Shuts_down :: h) []
| Gi_some s c d h l : connects s c d -> given h l -> given (Gives (Some s) :: h) ((c, d) :: l)
| Gi_error a h l : (forall s c d, a = Some s -> ~ connects s c d) -> given h l -> given (Gives a :: h) l
| Gi_ends c r h l : given h l -> given (Ends c r :: h) l.
(** An address is allowed *)
Definition allowed (ips : list ip) (dst : addr) : Prop := ips = [] \/ In (fst dst) ips.

(** What an error counts as: what the first that is known, of it and its sources, says *)
Inductive counts_as : list cause -> option kind -> Prop :=
| Co_policy a b : Forall (eq Other) a -> counts_as (a ++ Policy :: b) None
| Co_kind a k b : Forall (eq Other) a -> counts_as (a ++ Of k :: b) (Some k)
| Co_none a : Forall (eq Other) a -> counts_as a (Some Unexpected).

(** Connection [i] is to [d], and was accepted and has not ended *)
Definition live (h : list event) (i : nat) (d : addr) : Prop :=
  exists before s c l after, h = before ++ Gives (Some s) :: after /\ given before l /\ length l = i /\ connects s c d /\
    ~ In Shuts_down before /\ forall r, ~ In (Ends i r) after.
(** What happens at [n] is a failure of a connection to [d], of this kind: it is to an address that is not allowed, or it was, and its
    service failed with an error of that kind *)
Inductive fails (ips : list ip) (h : list event) (n : nat) : kind -> addr -> Prop :=
| Fa_refused s c d : nth_error h n = Some (Gives (Some s)) -> connects s c d -> ~ In Shuts_down (firstn n h) -> ~ allowed ips d ->
    fails ips h n Unexpected d
| Fa_ended i r d k : nth_error h n = Some (Ends i (Some r)) -> live (firstn n h) i d -> allowed ips d ->
    counts_as (fst r :: snd r) (Some k) -> fails ips h n k d.
