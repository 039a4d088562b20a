(** C63 and C64 *)
From Coq Require Import String List NArith Bool.
From Verif Require Import Bytes NameModel EndpointModel DnsModel DnsSpec DnsProofs.
Import ListNotations.
Open Scope N_scope.

(** ** C63 *)

(** A name's addresses are what its SRV records say if they all say one, and else its A and AAAA
    records with the default port; there is an error exactly if there are neither. *)
Theorem C63_answer : forall v6, v6_ok v6 -> forall m srv ips port,
  (forall answers until, srv = inl (answers, until) -> Forall plain_record answers) ->
  let res := resolve_addrs v6 m srv ips port in
  (forall answers until addrs, srv = inl (answers, until) -> records_say v6 answers addrs ->
     snd res = inl (addrs, until) /\
     fst res = Metrics (a_resolved m) (a_not_found m) (srv_resolved m + 1) (srv_not_found m)) /\
  ((forall answers until addrs, srv = inl (answers, until) -> ~ records_say v6 answers addrs) ->
     (forall l until, ips = inl (l, until) ->
        snd res = inl (map (fun ip => Sock ip port) l, until) /\
        fst res = Metrics (a_resolved m + 1) (a_not_found m) (srv_resolved m) (srv_not_found m + 1)) /\
     (forall e, ips = inr e -> exists e', snd res = inr (ResolveError e e') /\
        e' = (match srv with inr e => Srv_failed e | inl _ => Invalid_srv end) /\
        fst res = Metrics (a_resolved m) (a_not_found m + 1) (srv_resolved m) (srv_not_found m + 1))).
Proof. exact resolve_addrs_spec. Qed.
Print Assumptions C63_answer.

(** The record of a pod gives its address. *)
Theorem C63_pod : forall v6, v6_ok v6 -> forall a b c d rest port, a <= 255 -> b <= 255 -> c <= 255 -> d <= 255 ->
  srv_to_socket_addr v6 ((to_dec a ++ bs "-" ++ to_dec b ++ bs "-" ++ to_dec c ++ bs "-" ++ to_dec d) :: rest) port
  = Some (Sock [a; b; c; d] port).
Proof. exact pod. Qed.
Print Assumptions C63_pod.

(** Addresses stay what they are, and `localhost.` is the loopback address. *)
Theorem C63_fixed : forall t,
  (forall sa, t = Socket sa -> dns_resolve t = Fixed [sa]) /\
  (forall na, t = Name na -> lowers (na_name na) = bs "localhost." -> dns_resolve t = Fixed [Sock [127; 0; 0; 1] (na_port na)]) /\
  (forall na, t = Name na -> lowers (na_name na) <> bs "localhost." -> dns_resolve t = Resolved na).
Proof. exact target_fixed. Qed.
Print Assumptions C63_fixed.

(** One record that says no address is enough for the others not to be used. *)
Theorem C63_mixed_refuted : ~ forall v6 m answers until ips port label rest p ip, v6_ok v6 ->
  In (Srv (label :: rest) p) answers -> label_ip v6 label ip ->
  exists addrs u, snd (resolve_addrs v6 m (inl (answers, until)) ips port) = inl (addrs, u) /\ In (Sock ip p) addrs.
Proof.
  intros H.
  destruct (H (fun _ => None) (Metrics 0 0 0 0) [Srv [bs "10-0-0-1"] 80; Srv [bs "web-0"] 80] 0 (inr Other_error) 8080 (bs "10-0-0-1") [] 80 [10; 0; 0; 1]) as (addrs & u & E & _).
  - intros s ip [=].
  - left. reflexivity.
  - left. apply parse_v4_iff. vm_compute. reflexivity.
  - vm_compute in E. discriminate E.
Qed.
Print Assumptions C63_mixed_refuted.
(** An answer without SRV records is no failure: there are no addresses, although there are A
    records. *)
Theorem C63_empty_refuted : ~ forall v6 m srv ip ips until port,
  exists a addrs u, snd (resolve_addrs v6 m srv (inl (ip :: ips, until)) port) = inl (a :: addrs, u).
Proof.
  intros H. destruct (H (fun _ => None) (Metrics 0 0 0 0) (inl ([Other_record], 0)) [10; 0; 0; 1] [] 0 80) as (a & addrs & u & E).
  vm_compute in E. discriminate E.
Qed.
Print Assumptions C63_empty_refuted.

Example C63_case :
  v6_ok (fun _ => None) /\ Forall plain_record [Srv [bs "10-42-0-7"; bs "linkerd-policy"] 8090; Other_record] /\
  records_say (fun _ => None) [Srv [bs "10-42-0-7"; bs "linkerd-policy"] 8090; Other_record] [Sock [10; 42; 0; 7] 8090].
Proof.
  split; [intros s ip [=]|]. split.
  - repeat constructor; vm_compute; intros H; repeat (destruct H as [H|H]; [discriminate H|]); destruct H.
  - constructor; [|apply say_other; constructor]. left. apply parse_v4_iff. vm_compute. reflexivity.
Qed.

(** ** C64 *)

(** However the resolver, the balancer and the clock behave: a lookup that succeeded is not made
    again before what it found expires, nor within five seconds. *)
Theorem C64_refresh : forall mb t0 t l s, run mb t0 t l s ->
  forall pre t1 a exp mid t2 post, l = pre ++ (t1, Got a exp) :: mid ++ (t2, Asked) :: post -> no_ask mid ->
    exp <= t2 /\ t1 + five_seconds <= t2.
Proof. exact (fun mb t0 t l s R => proj1 (refresh mb t0 t l s R)). Qed.
Print Assumptions C64_refresh.

(** How long a failure says that there is nothing, but no less than five seconds; that of the
    addresses counts before that of the services. *)
Theorem C64_negative_ttl : forall e,
  match a_error e, srv_error e with
  | No_records (Some secs), _ => negative_ttl e = Some (N.max (secs * 1000000000) five_seconds)
  | _, Srv_failed (No_records (Some secs)) => negative_ttl e = Some (N.max (secs * 1000000000) five_seconds)
  | _, _ => negative_ttl e = None
  end.
Proof. exact negative_ttl_spec. Qed.
Print Assumptions C64_negative_ttl.

(** After a failure that says so for how long, the n-th try comes no sooner than n times that. *)
Theorem C64_retry : forall mb t0 t l s, run mb t0 t l s ->
  forall pre t1 e ttl mid t2 post, l = pre ++ (t1, Recovers e) :: mid ++ (t2, Asked) :: post -> no_got mid ->
    negative_ttl e = Some ttl -> t1 + (asks mid + 1) * ttl <= t2.
Proof. exact (fun mb t0 t l s R => proj1 (retry mb t0 t l s R)). Qed.
Print Assumptions C64_retry.

(** It is never a hot loop: in all, no more lookups are made than one at first and one for every
    five seconds, or for every least wait of the backoff if that is shorter. *)
Theorem C64_paced : forall mb t0 t l s, run mb t0 t l s ->
  1 <= asks l /\ t0 + (asks l - 1) * N.min five_seconds mb <= t.
Proof. exact (fun mb t0 t l s R => conj (proj1 (paced mb t0 t l s R)) (proj1 (proj2 (paced mb t0 t l s R)))). Qed.
Print Assumptions C64_paced.

(** The balancer is given what was found, in order, nothing left out and nothing else. *)
Theorem C64_order : forall mb t0 t l s, run mb t0 t l s ->
  exists w, found l = given l ++ w /\ (List.length w <= 2)%nat.
Proof. exact order. Qed.
Print Assumptions C64_order.

(** It never gives up: whatever has happened, there can be another lookup. *)
Theorem C64_goes_on : forall mb t0 t l s, run mb t0 t l s ->
  exists t' l' s', run mb t0 t' (l ++ l') s' /\ exists t2, In (t2, Asked) l'.
Proof. exact again. Qed.
Print Assumptions C64_goes_on.

Definition sec : N := 1000000000.
Definition nothing (secs : N) : resolve_error := ResolveError (No_records (Some secs)) Invalid_srv.
(** Failures after the first do not count: what they say is not waited for. *)
Theorem C64_later_refuted : ~ forall mb t0 t l s, run mb t0 t l s ->
  forall pre t1 e ttl mid t2 post, l = pre ++ (t1, Not_got e) :: mid ++ (t2, Asked) :: post -> no_ask mid ->
    negative_ttl e = Some ttl -> t1 + ttl <= t2.
Proof.
  intros H.
  assert (305 * sec <= 10 * sec) as F; [|vm_compute in F; apply F; reflexivity].
  refine (H sec 0 (10 * sec) _ (Connecting (Some (Negative_ttl (15 * sec) (5 * sec)))) _
    [(0, Asked); (0, Not_got (nothing 1)); (0, Recovers (nothing 1)); (5 * sec, Asked)] (5 * sec) (nothing 300) (300 * sec) [] (10 * sec) [] eq_refl _ eq_refl).
  - eapply (go_run sec 0 [(0, Answered (inr (nothing 1)) sec); (5 * sec, Ticks); (5 * sec, Answered (inr (nothing 300)) sec); (10 * sec, Ticks)]); [exact (run_init sec 0)|vm_compute; reflexivity].
  - intros t [].
Qed.
Print Assumptions C64_later_refuted.
(** Lookups can follow on each other in less than five seconds, after one that was slow to fail. *)
Theorem C64_spaced_refuted : ~ forall mb t0 t l s, 5 * sec <= mb -> run mb t0 t l s ->
  forall pre t1 mid t2 post, l = pre ++ (t1, Asked) :: mid ++ (t2, Asked) :: post -> t1 + 5 * sec <= t2.
Proof.
  intros H.
  assert (17 * sec <= 15 * sec) as F; [|vm_compute in F; apply F; reflexivity].
  refine (H (5 * sec) 0 (15 * sec) _ (Connecting (Some (Negative_ttl (20 * sec) (5 * sec)))) (N.le_refl _) _
    [(0, Asked); (0, Not_got (nothing 1)); (0, Recovers (nothing 1)); (5 * sec, Asked); (12 * sec, Not_got (nothing 1))] (12 * sec) [(12 * sec, Not_got (nothing 1))] (15 * sec) [] eq_refl).
  eapply (go_run (5 * sec) 0 [(0, Answered (inr (nothing 1)) (5 * sec)); (5 * sec, Ticks); (12 * sec, Answered (inr (nothing 1)) (5 * sec)); (12 * sec, Ticks); (12 * sec, Answered (inr (nothing 1)) (5 * sec)); (15 * sec, Ticks)]);
    [exact (run_init (5 * sec) 0)|vm_compute; reflexivity].
Qed.
Print Assumptions C64_spaced_refuted.

Definition a_sock : sock := Sock [10; 0; 0; 1] 8086.
Example C64_case :
  run sec 0 (40 * sec)
    [(0, Asked); (sec, Got [a_sock] (2 * sec)); (2 * sec, Yielded [a_sock]); (6 * sec, Asked); (7 * sec, Got [] (30 * sec)); (8 * sec, Yielded []);
     (30 * sec, Asked); (31 * sec, Not_got (nothing 9)); (31 * sec, Recovers (nothing 9)); (40 * sec, Asked)]
    (Connecting (Some (Negative_ttl (49 * sec) (9 * sec)))).
Proof.
  eapply (go_run sec 0 [(sec, Answered (inl ([a_sock], 2 * sec)) 0); (sec, Sends); (2 * sec, Polls 0); (6 * sec, Wakes); (7 * sec, Answered (inl ([], 30 * sec)) 0); (7 * sec, Sends); (8 * sec, Polls 0);
     (30 * sec, Wakes); (31 * sec, Answered (inr (nothing 9)) 0); (31 * sec, Sends); (31 * sec, Polls sec); (40 * sec, Ticks)]); [exact (run_init sec 0)|vm_compute; reflexivity].
Qed.
