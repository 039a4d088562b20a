(** C137: how connections to servers are made. *)
From Coq Require Import List NArith Bool.
From Verif Require Import AuthzModel AcceptModel AcceptSpec DialModel DialSpec DialProofs.
Import ListNotations.
Open Scope N_scope.

(** A connection that the outbound proxy makes ends within the limit, of TCP, TLS and the transport header together: as they end, or with a timeout exactly
    if they have not ended by then; one on the loopback interface is refused at once *)
Theorem C137_outbound : forall {E : Type} limit (net : addr -> stage E) tls header a t, exists d r,
  ((loopback (fst a) /\ d = 0 /\ r = Some Connection_refused /\ connect_outbound limit net tls header a t = Outcome (t + d) None r) \/
   (~ loopback (fst a) /\ within limit [net a; tls; header] d r /\ connect_outbound limit net tls header a t = Outcome (t + d) (Some a) r)).
Proof. exact (@outbound). Qed.
Print Assumptions C137_outbound.
Example C137_outbound_ex :
  let slow := fun _ : addr => Stage (Some 600) (@None N) in let tls := Stage (Some 300) None in let header := Stage (Some 200) None in
  connect_outbound 1100 slow tls header (V4 167772161, 80) 5 = Outcome 1105 (Some (V4 167772161, 80)) None /\
  connect_outbound 1099 slow tls header (V4 167772161, 80) 5 = Outcome 1104 (Some (V4 167772161, 80)) (Some (Connect_timeout 1099)) /\
  connect_outbound 1100 slow tls header (V4 2130706433, 80) 5 = Outcome 5 None (Some Connection_refused).
Proof. vm_compute. auto. Qed.
Theorem C137_limit : forall {E : Type} limit (net : addr -> stage E) tls header a t,
  t <= o_at (connect_outbound limit net tls header a t) <= t + limit.
Proof. exact (@ends_by). Qed.
Print Assumptions C137_limit.

(** The outbound proxy attempts no connection but to the address it was told, and none to 127.0.0.0/8 or ::1 *)
Theorem C137_loopback_partial : forall {E : Type} limit (net : addr -> stage E) tls header a t b,
  o_dialed (connect_outbound limit net tls header a t) = Some b -> b = a /\ ~ loopback (fst b).
Proof. exact (@never_loopback). Qed.
Print Assumptions C137_loopback_partial.
Example C137_loopback_partial_ex : loopback (V4 2130706433) /\ loopback (V6 1) /\
  o_dialed (connect_outbound 10 (fun _ => Stage (Some 1) (Some 7)) (Stage None None) (Stage None None) (V6 2, 80) 5) = Some (V6 2, 80).
Proof. split; [apply (Lo_v4 1); reflexivity|]. split; [constructor|reflexivity]. Qed.

(** What is wanted: it attempts none that reaches the loopback interface *)
Theorem C137_loopback_refuted : ~ forall (E : Type) limit (net : addr -> stage E) tls header a t b,
  o_dialed (connect_outbound limit net tls header a t) = Some b -> ~ reaches_loopback (fst b).
Proof.
  intros H. apply (H N 10 (fun _ => Stage None None) (Stage None None) (Stage None None) (v4_in_v6 2130706433, 80) 0 (v4_in_v6 2130706433, 80)).
  - vm_compute. reflexivity.
  - right. exists 2130706433. split; [reflexivity|]. split; [apply (Lo_v4 1); reflexivity|reflexivity].
Qed.
Print Assumptions C137_loopback_refuted.

(** A connection that the inbound proxy makes ends within its limit; one to the proxy's own port fails at once, on any address *)
Theorem C137_inbound : forall {E : Type} limit port (net : addr -> stage E) a t, exists d r,
  ((snd a = port /\ d = 0 /\ r = Some (Loop port) /\ connect_inbound limit port net a t = Outcome (t + d) None r) \/
   (snd a <> port /\ within limit [net a] d r /\ connect_inbound limit port net a t = Outcome (t + d) (Some a) r)).
Proof. exact (@inbound). Qed.
Print Assumptions C137_inbound.
Theorem C137_inbound_limit : forall {E : Type} limit port (net : addr -> stage E) a t,
  t <= o_at (connect_inbound limit port net a t) <= t + limit.
Proof. exact (@ends_by_in). Qed.
Print Assumptions C137_inbound_limit.
Theorem C137_loop : forall {E : Type} limit port (net : addr -> stage E) a t b,
  o_dialed (connect_inbound limit port net a t) = Some b -> b = a /\ snd b <> port.
Proof. exact (@never_loops). Qed.
Print Assumptions C137_loop.
Example C137_inbound_ex :
  connect_inbound 10 4143 (fun _ => Stage (Some 3) (Some 7)) (V4 2130706433, 80) 5 = Outcome 8 (Some (V4 2130706433, 80)) (Some (Because 7)) /\
  connect_inbound 10 4143 (fun _ => Stage (Some 3) (Some 7)) (V4 2130706433, 4143) 5 = Outcome 5 None (Some (Loop 4143)).
Proof. vm_compute. auto. Qed.
