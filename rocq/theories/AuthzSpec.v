(** What C28 says *)
From Coq Require Import List NArith Bool.
From Verif Require Import Bytes AuthzModel.
Import ListNotations.
Open Scope N_scope.

(** The first [p] bits of two addresses of [w] bits are the same. *)
Definition same_prefix (w p a b : N) : Prop :=
  forall k, k < p -> N.testbit a (w - 1 - k) = N.testbit b (w - 1 - k).
Definition in_net (n : ipnet) (i : ip) : Prop :=
  match n, i with
  | Net4 a p, V4 i => same_prefix 32 p a i
  | Net6 a p, V6 i => same_prefix 128 p a i
  | _, _ => False
  end.
(** Addresses and prefix lengths of the right size *)
Definition ip_wf (i : ip) : Prop := match i with V4 a => a < 2 ^ 32 | V6 a => a < 2 ^ 128 end.
Definition net_wf (n : ipnet) : Prop :=
  match n with Net4 a p => a < 2 ^ 32 /\ p <= 32 | Net6 a p => a < 2 ^ 128 /\ p <= 128 end.
Definition authz_wf (a : authorization) : Prop :=
  forall n, In n (au_networks a) -> net_wf (n_net n) /\ forall e, In e (n_except n) -> net_wf e.

(** The network of an authorization covers a client. *)
Definition covers (n : net) (i : ip) : Prop :=
  in_net (n_net n) i /\ forall e, In e (n_except n) -> ~ in_net e i.

(** The client shows what the authorization requires. *)
Definition meets (a : authentication) (t : tls) : Prop :=
  match a with
  | Unauthenticated => True
  | Tls_unauthenticated => exists c, t = Established c
  | Tls_authenticated identities suffixes => exists i, t = Established (Some i) /\
      match i with
      | Dns name => In name identities \/ exists s before, In s suffixes /\ name = before ++ s
      | Uri uri => In uri identities
      end
  end.

Definition authorized (l : list authorization) (client : ip) (t : tls) : Prop :=
  exists a, In a l /\ (exists n, In n (au_networks a) /\ covers n client) /\ meets (au_authentication a) t.

(** ::ffff:a.b.c.d *)
Definition mapped (v4 : N) : N := 0xffff * 2 ^ 32 + v4.

(** What an authorization sent by the control plane says *)
Definition api_covers (n : api_net) (i : ip) : Prop :=
  (exists m, an_net n = Some m /\ in_net m i) /\ forall e, In (Some e) (an_except n) -> ~ in_net e i.
Definition permits (p : permit) (t : tls) : Prop :=
  match p with
  | P_unauthenticated => True
  | P_mesh None => False
  | P_mesh (Some C_unauthenticated) => exists c, t = Established c
  | P_mesh (Some (C_identities names suffixes)) => exists i, t = Established (Some i) /\
      match i with
      | Dns name => In name names \/ exists labels before, In labels suffixes /\ name = before ++ concat (map (cons 46) labels)
      | Uri uri => In uri names
      end
  end.
Definition allows (a : api_authz) (client : ip) (t : tls) : Prop :=
  (exists n, In n (aa_networks a) /\ api_covers n client) /\ exists p, aa_permit a = Some p /\ permits p t.
