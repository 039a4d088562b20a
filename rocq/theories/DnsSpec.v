(** What C63 and C64 say *)
From Coq Require Import String List NArith Bool.
From Verif Require Import Bytes EndpointModel DnsModel.
Import ListNotations.
Open Scope N_scope.

(** The text of an IPv4 address *)
Definition v4_text (s : bytes) (ip : list N) : Prop :=
  exists a b c d, ip = [a; b; c; d] /\ a <= 255 /\ b <= 255 /\ c <= 255 /\ d <= 255 /\
    s = to_dec a ++ bs "."%string ++ to_dec b ++ bs "."%string ++ to_dec c ++ bs "."%string ++ to_dec d.
(** A label's dashes as another character *)
Fixpoint dashes (c : N) (label : bytes) : bytes :=
  match label with
  | [] => []
  | x :: label' => (if x =? 45 then c else x) :: dashes c label'
  end.
(** The address that a label is: an IPv4 address with dashes for dots, or an IPv6 address with
    dashes for colons *)
Definition label_ip (v6 : bytes -> option (list N)) (label : bytes) (ip : list N) : Prop :=
  v4_text (dashes 46 label) ip \/
  ((forall ip', ~ v4_text (dashes 46 label) ip') /\ v6 (dashes 58 label) = Some ip).
(** Labels have neither dots nor colons, and IPv6 addresses have a colon. *)
Definition plain (label : bytes) : Prop := ~ In 46 label /\ ~ In 58 label.
Definition v6_ok (v6 : bytes -> option (list N)) : Prop := forall s ip, v6 s = Some ip -> In 58 s.
Definition plain_record (r : rdata) : Prop :=
  match r with Srv (label :: _) _ => plain label | _ => True end.

(** What the records of an answer say, in their order; records of other kinds say nothing *)
Inductive records_say (v6 : bytes -> option (list N)) : list rdata -> list sock -> Prop :=
| say_nil : records_say v6 [] []
| say_srv : forall label rest port ip l addrs, label_ip v6 label ip -> records_say v6 l addrs ->
    records_say v6 (Srv (label :: rest) port :: l) (Sock ip port :: addrs)
| say_other : forall l addrs, records_say v6 l addrs -> records_say v6 (Other_record :: l) addrs.

(** ** Resolutions *)

Definition five_seconds : N := 5 * 1000000000.
Definition no_ask (l : list (N * event)) : Prop := forall t, ~ In (t, Asked) l.
Definition no_got (l : list (N * event)) : Prop := forall t addrs expiry, ~ In (t, Got addrs expiry) l.
(** How often it was asked *)
Fixpoint asks (l : list (N * event)) : N :=
  match l with
  | [] => 0
  | (_, Asked) :: l' => 1 + asks l'
  | _ :: l' => asks l'
  end.
(** What was found *)
Fixpoint found (l : list (N * event)) : list (list sock) :=
  match l with
  | [] => []
  | (_, Got addrs _) :: l' => addrs :: found l'
  | _ :: l' => found l'
  end.
(** What the balancer was given *)
Fixpoint given (l : list (N * event)) : list (list sock) :=
  match l with
  | [] => []
  | (_, Yielded addrs) :: l' => addrs :: given l'
  | _ :: l' => given l'
  end.
