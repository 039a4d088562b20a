(** Specification for C147. *)
From Coq Require Import String List NArith ZArith.
From Verif Require Import Bytes NameModel NameSpec EndpointModel FilterModel Http1Model Http1Spec DnsModel MtlsModel MtlsSpec ControlModel.
From Verif Require EnvModel GatewaySpec.
Import ListNotations.
Open Scope N_scope.

(** An address of this host *)
Definition loopback (ip : list N) : Prop := (exists b c d, ip = [127; b; c; d]) \/ ip = [0; 0; 0; 0; 0; 0; 0; 0; 0; 0; 0; 0; 0; 0; 0; 1].

(** The environment names the server. *)
Definition names (e : EnvModel.strings) (base n : bytes) : Prop :=
  exists s, e (base ++ bs "_NAME"%string) = Some (Some s) /\ dns_name s /\ n = lowers s.

(** The peer has proved that it is the server of that name. *)
Definition is_server (L : lib) (p : peer) (now : Z) (n : bytes) : Prop :=
  exists leaf, proved (x_trusted_server L) p now leaf /\ certifies L leaf (Dns n).

(** The request's URI: the scheme and the authority are replaced. *)
Definition sent_to (u : uri) (a : authority) (u' : uri) : Prop :=
  u_scheme u' = Some (bs "http"%string) /\ u_auth u' = Some a /\ u_path u' = u_path u /\ u_query u' = u_query u.

(** How the control plane's address is written in requests, given how addresses are shown: without a port if that is
    80; addresses of version 6 in brackets *)
Definition written (show_ip : list N -> bytes) (show_sock : sock -> bytes) (a : addr) (t : bytes) : Prop :=
  match a with
  | Name na => GatewaySpec.authority_text na t
  | Socket s =>
      s_port s <> 80 /\ t = show_sock s \/
      s_port s = 80 /\ List.length (s_ip s) = 4%nat /\ t = show_ip (s_ip s) \/
      s_port s = 80 /\ List.length (s_ip s) <> 4%nat /\ t = bs "["%string ++ show_ip (s_ip s) ++ bs "]"%string
  end.
