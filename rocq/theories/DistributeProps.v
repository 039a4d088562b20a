(** C27 distribution over backends, C52 backend caches *)
From Coq Require Import String List Arith NArith Lia.
From Verif Require Import DistributeModel DistributeSpec DistributeProofs.
Import ListNotations.
Open Scope nat_scope.

(** ** C27 *)
(** Whatever is done with a service: only backends of nonzero weight are polled; it is
    ready exactly when some backend was found ready and nothing was sent to it since;
    requests go to that backend; `call` panics only when there is none. *)
Theorem C27_service : forall K (d : distribution K) es a e b,
  valid d -> d_log (run d es) = a ++ e :: b -> entry_ok (weight_of d) a e.
Proof. exact service_ok. Qed.
Print Assumptions C27_service.
Theorem C27_sent : forall K (d : distribution K) es i,
  valid d -> reserved i (d_log (run d es)) -> d_log (run d (es ++ [Call])) = d_log (run d es) ++ [Sent i].
Proof. exact call_now. Qed.
Print Assumptions C27_sent.
(** The backend of an ordered list is the first that is not pending. *)
Theorem C27_first : forall K (keys : list K) es rs draws,
  ~ (exists i, reserved i (d_log (run (First_available keys) es))) ->
  exists l x, first_poll (length keys) rs l x /\
    d_log (run (First_available keys) (es ++ [Poll rs draws])) = d_log (run (First_available keys) es) ++ l.
Proof. exact poll_first_now. Qed.
Print Assumptions C27_first.
(** The backend of a weighted list is drawn by weight, among those not yet found pending. *)
Theorem C27_random : forall K (keys : list (K * N)) es rs draws, valid (Random_available keys) ->
  ~ (exists i, reserved i (d_log (run (Random_available keys) es))) ->
  exists l x, random_poll (map snd keys) rs draws l x /\
    d_log (run (Random_available keys) (es ++ [Poll rs draws])) = d_log (run (Random_available keys) es) ++ l.
Proof. exact poll_random_now. Qed.
Print Assumptions C27_random.
(** Each draw falls to exactly one backend while some have weight, to each in proportion. *)
Theorem C27_draw : forall ws aside draw, (0 < before ws aside (length ws))%N ->
  exists i, falls_to ws aside draw i /\ forall j, falls_to ws aside draw j -> j = i.
Proof.
  exact (fun ws aside draw H => match draw_exists ws aside draw H with
    ex_intro _ i F => ex_intro _ i (conj F (fun j G => draw_unique ws aside draw j i G F)) end).
Qed.
Print Assumptions C27_draw.
Theorem C27_share : forall ws aside i (r : N), (weight ws aside i <> 0)%N -> (i < length ws)%nat ->
  (r < before ws aside (length ws))%N ->
  (forall n, falls_to ws aside (n * before ws aside (length ws) + r) i
     <-> before ws aside i <= r < before ws aside i + weight ws aside i)%N.
Proof. exact draw_share. Qed.
Print Assumptions C27_share.
(** What is made is valid; making fails exactly for two or more backends whose weights
    are all zero or exceed a `u32`. *)
Theorem C27_made : forall K (keys : list (K * N)) d, random_available keys = inl d -> valid d.
Proof. exact random_valid. Qed.
Print Assumptions C27_made.
Theorem C27_route : forall K (keys : list (K * N)),
  random_route keys = None <->
  2 <= length keys /\ (sum (map snd keys) = 0 \/ u32_max < sum (map snd keys))%N.
Proof. exact random_error. Qed.
Print Assumptions C27_route.
(** C27 said that a backend of weight zero gets no requests: the only backend does; *)
Theorem C27_single_refuted : exists (key : nat * N) d,
  snd key = 0%N /\ random_available [key] = inl d /\
  In (Sent 0) (d_log (run d [Poll (fun _ => Is_ready) (fun _ => 0%N); Call])).
Proof. exists (0, 0%N), (First_available [0]). vm_compute. repeat split. right. right. left. reflexivity. Qed.
Print Assumptions C27_single_refuted.
(** and that any weights make a distribution: these panic. *)
Theorem C27_panics_refuted : exists keys : list (nat * N), keys <> [] /\ random_route keys = None.
Proof. exists [(1, 0%N); (2, 0%N)]. split; [discriminate|reflexivity]. Qed.
Print Assumptions C27_panics_refuted.

Definition demo : distribution nat := Random_available [(10, 1%N); (20, 0%N); (30, 3%N)].
Example C27_demo : random_available [(10, 1%N); (20, 0%N); (30, 3%N)] = inl demo
  /\ valid demo
  /\ d_log (run demo [Poll (fun i => if i =? 2 then Is_pending else Is_ready) (fun n => 5%N); Call; Call]) =
     [Polled 2 Is_pending; Polled 0 Is_ready; Answered Is_ready; Sent 0; Panicked]
  /\ reserved 0 [Polled 2 Is_pending; Polled 0 Is_ready; Answered Is_ready]
  /\ falls_to [1; 0; 3]%N [] 5%N 2.
Proof.
  split; [reflexivity|]. split; [vm_compute; split; [reflexivity|discriminate]|]. split; [vm_compute; reflexivity|].
  split; [exists [Polled 2 Is_pending], [Answered Is_ready]; split; [reflexivity|intros e [<-|[]]; reflexivity]|].
  vm_compute. split; [discriminate|reflexivity].
Qed.
Example C27_demo_first :
  ~ (exists i, reserved i (d_log (run (First_available [7; 8]) []))) /\
  d_log (run (First_available [7; 8]) [Poll (fun i => if i =? 0 then Is_pending else Is_failed) (fun _ => 0%N)]) =
  [Polled 0 Is_pending; Polled 1 Is_failed; Answered Is_failed].
Proof. split; [intros (i & [|] & b & H & _); discriminate|reflexivity]. Qed.
Example C27_demo_route : random_route [(1, 4294967295%N); (2, 1%N)] = None /\ random_route [(1, 4294967294%N); (2, 1%N)] <> None.
Proof. split; [reflexivity|discriminate]. Qed.

(** ** C52 *)
(** After each update there is exactly one service for each listed backend. *)
Theorem C52_exactly : forall K eqb, (forall a b : K, eqb a b = true <-> a = b) ->
  forall us u, (forall v, In v (us ++ [u]) -> NoDup v) ->
  exactly K (c_services (update_all K eqb (us ++ [u]))) u.
Proof. exact update_exactly. Qed.
Print Assumptions C52_exactly.
(** A backend keeps its service for as long as it is listed. *)
Theorem C52_kept : forall K eqb, (forall a b : K, eqb a b = true <-> a = b) ->
  forall us vs k n, (forall v, In v (us ++ vs) -> NoDup v) ->
  holds K (c_services (update_all K eqb us)) k n -> (forall v, In v vs -> In k v) ->
  holds K (c_services (update_all K eqb (us ++ vs))) k n.
Proof. exact update_kept. Qed.
Print Assumptions C52_kept.
(** The service of a backend that was no longer listed is never used again. *)
Theorem C52_gone : forall K eqb, (forall a b : K, eqb a b = true <-> a = b) ->
  forall us u vs k n, (forall v, In v (us ++ u :: vs) -> NoDup v) ->
  holds K (c_services (update_all K eqb us)) k n -> ~ In k u ->
  ~ holds K (c_services (update_all K eqb (us ++ u :: vs))) k n.
Proof. exact update_gone. Qed.
Print Assumptions C52_gone.
(** Every listed backend is found, and only those. *)
Theorem C52_found : forall K eqb, (forall a b : K, eqb a b = true <-> a = b) ->
  forall us u k, (forall v, In v (us ++ [u]) -> NoDup v) ->
  (exists n, lookup K eqb (c_services (update_all K eqb (us ++ [u]))) k = Some n) <-> In k u.
Proof. exact update_lookup. Qed.
Print Assumptions C52_found.
(** A router's requests share a service exactly when their keys are equal, *)
Theorem C52_router : forall K eqb, (forall a b : K, eqb a b = true <-> a = b) ->
  forall ks i j ki kj si sj, nth_error ks i = Some ki -> nth_error ks j = Some kj ->
  nth_error (snd (get_all K eqb ks)) i = Some si -> nth_error (snd (get_all K eqb ks)) j = Some sj ->
  (ki = kj <-> si = sj).
Proof. exact get_all_same. Qed.
Print Assumptions C52_router.
Theorem C52_router_total : forall K eqb, (forall a b : K, eqb a b = true <-> a = b) ->
  forall ks, length (snd (get_all K eqb ks)) = length ks.
Proof. exact get_all_length. Qed.
Print Assumptions C52_router_total.
(** and one service is built for each key. *)
Theorem C52_router_built : forall K eqb, (forall a b : K, eqb a b = true <-> a = b) ->
  forall ks us, NoDup us -> (forall k, In k us <-> In k ks) -> c_built (fst (get_all K eqb ks)) = length us.
Proof. exact get_all_built. Qed.
Print Assumptions C52_router_built.

Example C52_demo : (forall a b, (a =? b) = true <-> a = b)
  /\ c_services (update_all nat Nat.eqb [[1; 2]; [2; 3]; [1; 2]]) = [(1, 3); (2, 1)]
  /\ NoDup [1; 2] /\ NoDup [2; 3]
  /\ get_all nat Nat.eqb [7; 8; 7] = (Cache [(8, 1); (7, 0)] 2, [0; 1; 0]).
Proof.
  split; [exact Nat.eqb_eq|]. repeat split; repeat constructor; cbn; lia.
Qed.
