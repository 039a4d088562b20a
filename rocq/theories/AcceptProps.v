(** C136: how inbound connections are accepted. *)
From Coq Require Import List NArith Bool.
From Verif Require Import AuthzModel AcceptModel AcceptSpec AcceptProofs.
Import ListNotations.
Open Scope N_scope.

(** Each connection that a listener gives before the shutdown is accepted once, in order, with its client and its original destination, whatever
    fails between; and there are no others *)
Theorem C136_each : forall {P : Type} ips proxy_port (get_policy : addr -> P) h,
  given h (map (fun x => (c_client x, c_dst x)) (conns (run ips proxy_port get_policy start h))).
Proof. exact (@each). Qed.
Print Assumptions C136_each.
Theorem C136_given : forall h l l', given h l -> given h l' -> l = l'.
Proof. exact given_fun. Qed.
Print Assumptions C136_given.
Definition ex_socket := Socket true (Some (v4_in_v6 167772161, 5000)) (Some (Some (V4 167772162, 80))) None.
Example C136_each_ex :
  connects ex_socket (V4 167772161, 5000) (V4 167772162, 80) /\
  given [Gives None; Gives (Some ex_socket); Shuts_down; Gives (Some ex_socket)] [((V4 167772161, 5000), (V4 167772162, 80))] /\
  conns (run [] 4143 (fun d => snd d) start [Gives None; Gives (Some ex_socket); Shuts_down; Gives (Some ex_socket)]) =
    [Conn (V4 167772161, 5000) (V4 167772162, 80) (On 80) false].
Proof.
  assert (C : connects ex_socket (V4 167772161, 5000) (V4 167772162, 80)) by (apply connects_iff; vm_compute; reflexivity).
  split; [exact C|]. split; [|vm_compute; reflexivity].
  apply Gi_error; [discriminate|]. apply Gi_some; [exact C|]. apply Gi_down.
Qed.

(** A client of IPv4 is the same to a listener of IPv6 *)
Theorem C136_same_client : forall a p q d o x4 x6, a < 2 ^ 32 ->
  connects (Socket o (Some (v4_in_v6 a, p)) x4 x6) q d <-> connects (Socket o (Some (V4 a, p)) x4 x6) q d.
Proof. exact same_client. Qed.
Print Assumptions C136_same_client.

(** A connection to an address that is not allowed is refused, also if it is to the proxy's own port; of the others, those to that port are
    direct, and the rest goes on with the policy of their original destination *)
Theorem C136_way : forall {P : Type} ips proxy_port (get_policy : addr -> P) h i x,
  nth_error (conns (run ips proxy_port get_policy start h)) i = Some x ->
  match c_way x with
  | Refused => ~ allowed ips (c_dst x)
  | Direct => allowed ips (c_dst x) /\ snd (c_dst x) = proxy_port
  | On p => allowed ips (c_dst x) /\ snd (c_dst x) <> proxy_port /\ p = get_policy (c_dst x)
  end.
Proof. exact (@where_to). Qed.
Print Assumptions C136_way.
Definition ex_direct := Socket true (Some (V6 1, 5000)) None (Some (Some (V6 7, 4143))).
Example C136_way_ex :
  map c_way (conns (run [V6 7] 4143 (fun d => snd d) start [Gives (Some ex_socket); Gives (Some ex_direct)])) = [Refused; Direct] /\
  map c_way (conns (run [V4 167772162] 4143 (fun d => snd d) start [Gives (Some ex_socket); Gives (Some ex_direct)])) = [On 80; Refused].
Proof. vm_compute. auto. Qed.

(** A connection goes on until it ends, if its address is allowed *)
Theorem C136_live : forall {P : Type} ips proxy_port (get_policy : addr -> P) h i x,
  nth_error (conns (run ips proxy_port get_policy start h)) i = Some x ->
  (c_over x = false <-> live h i (c_dst x) /\ allowed ips (c_dst x)).
Proof. exact (@goes_on). Qed.
Print Assumptions C136_live.
Example C136_live_ex :
  map c_over (conns (run [] 4143 (fun d => snd d) start [Gives (Some ex_socket); Gives (Some ex_direct); Shuts_down; Ends 1 None])) = [false; true].
Proof. vm_compute. auto. Qed.

(** The counter of errors counts each connection that failed once, by its destination and the kind of its error; those that a policy refused
    are not counted *)
Theorem C136_errors : forall {P : Type} ips proxy_port (get_policy : addr -> P) h k d,
  exists ns, NoDup ns /\ (forall n, In n ns <-> fails ips h n k d) /\
    value (errors (run ips proxy_port get_policy start h)) k d = N.of_nat (length ns) mod 2 ^ 64.
Proof. exact (@counted). Qed.
Print Assumptions C136_errors.
Example C136_errors_ex :
  let h := [Gives (Some ex_socket); Ends 0 (Some (Other, [Of Io; Policy])); Ends 0 (Some (Of Io, []));
            Gives (Some ex_socket); Ends 1 (Some (Other, [Policy; Of Io])); Gives (Some ex_direct)] in
  errors (run [V4 167772162] 4143 (fun d => snd d) start h) = [(Io, (V4 167772162, 80), 1); (Unexpected, (V6 7, 4143), 1)] /\
  counts_as [Other; Policy; Of Io] None.
Proof. split; [vm_compute; reflexivity|]. apply (Co_policy [Other]). repeat constructor. Qed.

(** What was wanted: an address may be allowed as ::ffff:a.b.c.d *)
Theorem C136_mapped_refuted : ~ forall ips a p, a < 2 ^ 32 -> In (v4_in_v6 a) ips ->
  forall s c, connects s c (V4 a, p) ->
  Forall (fun x => c_way x <> Refused) (conns (run ips 4143 (fun d => snd d) start [Gives (Some s)])).
Proof.
  intros H. specialize (H [v4_in_v6 167772162] 167772162 80 eq_refl (or_introl eq_refl) ex_socket (V4 167772161, 5000)).
  assert (C : connects ex_socket (V4 167772161, 5000) (V4 167772162, 80)) by (apply connects_iff; vm_compute; reflexivity).
  specialize (H C). vm_compute in H. inversion H as [|x l Hx Hl]. apply Hx. reflexivity.
Qed.
Print Assumptions C136_mapped_refuted.
