(** What certificates say, which are in use, and when they are renewed (C100, C101, C102, C103). *)
From Coq Require Import List NArith ZArith.
From Verif Require Import Bytes NameModel NameSpec EndpointModel MtlsModel.
Import ListNotations.
Open Scope N_scope.

(** The identity that a name of a certificate stands for: a DNS name, without regard to case, that does not end in a
    dot; or a URI *)
Inductive says (L : lib) : general_name -> id -> Prop :=
| Says_dns s n : dns_name s -> (forall t, s <> t ++ [dot]) -> n = lowers s -> says L (San_dns s) (Dns n)
| Says_uri u v : x_url L u = Some v -> says L (San_uri u) (Uri v).

Definition has_names (L : lib) (cert : der) (ns : list general_name) : Prop :=
  x_parses L cert = true /\ x_names L cert = Some (Some ns).
(** One of the names of the certificate is the identity. *)
Definition certifies (L : lib) (cert : der) (i : id) : Prop :=
  exists ns n, has_names L cert ns /\ In n ns /\ says L n i.
(** The first name of the certificate that can be read is the identity. *)
Definition certifies_first (L : lib) (cert : der) (i : id) : Prop :=
  exists before n after, has_names L cert (before ++ n :: after) /\ says L n i /\
    forall m j, In m before -> ~ says L m j.

(** The peer has sent a chain that the trust anchors have signed, and has proved that the leaf's key is its own. *)
Definition proved (trusted : der -> list der -> Z -> bool) (p : peer) (now : Z) (leaf : der) : Prop :=
  exists rest, p_chain p = leaf :: rest /\ trusted leaf rest now = true /\ p_proves p = true.
(** How a proxy with a credential appears to its peers *)
Definition as_peer (c : credential) (alpn : option bytes) : peer := Peer (cr_leaf c :: cr_intermediates c) true alpn.

(** A credential that the proxy may use at a time *)
Definition good (L : lib) (local : id) (c : credential) (now : Z) : Prop :=
  x_trusted_server L (cr_leaf c) (cr_intermediates c) now = true /\ certifies L (cr_leaf c) local /\ x_key L c = true.

(** ** Histories of the store *)
Inductive run (L : lib) (local : id) : list op -> store -> Prop :=
| Run_nil : run L local [] init_store
| Run_snoc h o s s' : run L local h s -> step L local o s = Some s' -> run L local (h ++ [o]) s'.

(** The credentials, with their expiry, that were good when they were given, and the number of the others *)
Inductive given (L : lib) (local : id) : list op -> list (credential * Z) -> N -> Prop :=
| Given_nil : given L local [] [] 0
| Given_good h l n c now expiry :
    given L local h l n -> good L local c now -> given L local (h ++ [Set_certificate c now expiry]) (l ++ [(c, expiry)]) n
| Given_bad h l n c now expiry :
    given L local h l n -> ~ good L local c now -> given L local (h ++ [Set_certificate c now expiry]) l (n + 1)
| Given_other h l n o :
    given L local h l n -> (forall c now expiry, o <> Set_certificate c now expiry) -> given L local (h ++ [o]) l n.

(** The last of the first [k] *)
Definition latest (k : nat) (l : list (credential * Z)) : option credential :=
  match k with O => None | Datatypes.S k => option_map fst (nth_error l k) end.

(** ** Renewal *)

(** Seven tenths of a duration, in whole nanoseconds *)
Definition seven_tenths (d : Z) (l : N) : Prop := (10 * Z.of_N l <= 7 * d < 10 * (Z.of_N l + 1))%Z.

Record try := Try { y_answer : answer; y_now : Z; y_later : Z }.
(** The tries of a proxy that has been started *)
Inductive renewals (L : lib) (min max : N) (local : id) (key : bytes) (d : daemon) : list try -> daemon -> Prop :=
| Renewals_nil : renewals L min max local key d [] d
| Renewals_snoc h y e e' :
    renewals L min max local key d h e ->
    attempt L min max local key (y_answer y) (y_now y) (y_later y) e = Some e' ->
    renewals L min max local key d (h ++ [y]) e'.

(** The answer has a certificate that is good now, until [expiry]. *)
Definition renews (L : lib) (local : id) (key : bytes) (y : try) (expiry : Z) : Prop :=
  exists leaf inter seconds nanos,
    y_answer y = Certified leaf inter (Some (seconds, nanos)) /\
    expiry = (seconds * 1000000000 + nanos)%Z /\
    (- 2 ^ 63 * 1000000000 <= expiry < 2 ^ 63 * 1000000000)%Z /\
    (y_now y < expiry)%Z /\ good L local (Credential leaf inter key) (y_now y).
Inductive last_renewed (L : lib) (local : id) (key : bytes) (expiry0 : Z) : list try -> Z -> Prop :=
| Last_nil : last_renewed L local key expiry0 [] expiry0
| Last_renewed h e y expiry :
    last_renewed L local key expiry0 h e -> renews L local key y expiry ->
    last_renewed L local key expiry0 (h ++ [y]) expiry
| Last_kept h e y :
    last_renewed L local key expiry0 h e -> (forall expiry, ~ renews L local key y expiry) ->
    last_renewed L local key expiry0 (h ++ [y]) e.

(** Tries that are answered within [slack] of the request, with certificates that have [life] left, starting from a
    daemon that is about to make a request; with the expiry of the certificate that each replaces *)
Inductive timely (L : lib) (min max : N) (local : id) (key : bytes) (slack life : Z) :
    daemon -> list (try * Z) -> Prop :=
| Timely_nil d : timely L min max local key slack life d []
| Timely_cons d y expiry d' h :
    (d_next d <= y_now y)%Z -> (y_now y <= y_later y <= d_next d + slack)%Z ->
    renews L local key y expiry -> (y_later y + life <= expiry)%Z ->
    attempt L min max local key (y_answer y) (y_now y) (y_later y) d = Some d' ->
    timely L min max local key slack life d' h ->
    timely L min max local key slack life d ((y, d_expiry d) :: h).

(** ** SPIRE *)

(** The last of the SVIDs with the identity *)
Definition own_svid (i : id) (u : list svid) (s : svid) : Prop :=
  exists a b, u = a ++ s :: b /\ sv_id s = i /\ forall t, In t b -> sv_id t <> i.
(** What is set for an update: the last SVID of the identity, if its certificate can be read and its expiry is not
    before 1970 *)
Definition sets (L : lib) (i : id) (u : list svid) (c : credential) (expiry : Z) : Prop :=
  exists s, own_svid i u s /\ c = Credential (sv_leaf s) (sv_intermediates s) (sv_key s) /\
    x_parses L (sv_leaf s) = true /\ (0 <= x_not_after L (sv_leaf s))%Z /\
    expiry = (x_not_after L (sv_leaf s) * 1000000000)%Z.

Inductive spire_run (L : lib) (i : id) (u0 : list svid) : list spire_op -> spire -> Prop :=
| Spire_nil : spire_run L i u0 [] (Spire u0 0 None [])
| Spire_snoc h o s s' :
    spire_run L i u0 h s -> spire_step L i o s = Some s' -> spire_run L i u0 (h ++ [o]) s'.
