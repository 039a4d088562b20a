(** C33: the load of an endpoint *)
From Coq Require Import String List NArith ZArith Reals Lra Lia.
From Verif Require Import Bytes FilterModel EwmaModel BiaserModel BiaserSpec BiaserProofs.
Import ListNotations.

(** Every request has at most one observation, and has one once it ends, whichever way it ends. *)
Theorem C33_at_most_once : forall date c t0 l b, run date c t0 l b -> forall id, records_of id l <= 1 /\ (records_of id l = 1 -> id < calls l).
Proof. exact once. Qed.
Print Assumptions C33_at_most_once.

Theorem C33_once : forall date c t0 l b o b' l' id, run date c t0 l b -> step date b o = Some (b', l') -> ends o id -> id < calls l ->
  records_of id (l ++ l') = 1.
Proof. exact once_ended. Qed.
Print Assumptions C33_once.

Theorem C33_not_before : forall date b o b' l' id v t, step date b o = Some (b', l') -> In (Recorded id v t) l' -> ends o id.
Proof. exact only_ended. Qed.
Print Assumptions C33_not_before.

(** The observation of a failure is at least the penalty and the estimate, the estimate after is at least it, and
    what the server asks for counts for no more than the maximum. *)
Theorem C33_failure : forall date c t0 l b id r ended t wall b' l', run date c t0 l b -> step date b (Respond id r ended t wall) = Some (b', l') -> overloaded r \/ broken r ->
  exists x y v, estimate b t x /\ estimate b' t y /\ l' = [Recorded id v t] /\
    (secs (Z.of_N (base_penalty c)) <= v)%R /\ (x <= v)%R /\ (v <= y)%R /\ (v <= Rmax x (secs (Z.of_N (N.max (base_penalty c) (c_max_duration c)))))%R.
Proof. exact failure_bounds. Qed.
Print Assumptions C33_failure.

(** Precisely: *)
Theorem C33_overloaded : forall date c t0 l b id r ended t wall b' l', run date c t0 l b -> step date b (Respond id r ended t wall) = Some (b', l') ->
  (c_max_duration c <= duration_max)%N -> cached r = None -> overloaded r ->
  exists x v, estimate b t x /\ l' = [Recorded id v t] /\
    (forall d, advice date wall (c_max_duration c) r d -> v = Rmax (secs (Z.of_N (N.max d (base_penalty c)))) x) /\
    ((forall d, ~ advice date wall (c_max_duration c) r d) -> v = Rmax (secs (Z.of_N (base_penalty c))) x).
Proof. exact overloaded_value. Qed.
Print Assumptions C33_overloaded.

Theorem C33_broken : forall date c t0 l b id r ended t wall b' l', run date c t0 l b -> step date b (Respond id r ended t wall) = Some (b', l') -> broken r ->
  exists x, estimate b t x /\ l' = [Recorded id (Rmax (secs (Z.of_N (base_penalty c))) x) t].
Proof. exact broken_value. Qed.
Print Assumptions C33_broken.

(** Any other observation is the time since the request was made. *)
Theorem C33_elapsed : forall date c t0 l b o b' l' id sent v t, run date c t0 l b -> step date b o = Some (b', l') -> In (Called id sent) l -> In (Recorded id v t) l' ->
  (forall i r ended t' wall, o = Respond i r ended t' wall -> ~ overloaded r /\ ~ broken r) -> v = secs (Z.max 0 (t - sent)).
Proof. exact elapsed_value. Qed.
Print Assumptions C33_elapsed.

(** The load is the estimate times one more than there are requests in flight ... *)
Theorem C33_load : forall date c t0 l b t b' l' x, run date c t0 l b -> step date b (Load t) = Some (b', l') -> estimate b t x -> (N.of_nat (in_flight l) + 2 <= 2 ^ 32)%N ->
  l' = [Loaded (x * (1 + INR (in_flight l)))%R t].
Proof. exact loads. Qed.
Print Assumptions C33_load.

(** ... there always is an estimate, and those in flight are those without an observation. *)
Theorem C33_estimate : forall date c t0 l b t, run date c t0 l b -> exists x, estimate b t x /\ (0 <= x)%R.
Proof. exact estimates. Qed.
Print Assumptions C33_estimate.

Theorem C33_in_flight : forall date c t0 l b, run date c t0 l b ->
  in_flight l = length (filter (fun id => Nat.eqb (records_of id l) 0) (seq 0 (calls l))).
Proof. exact in_flight_is. Qed.
Print Assumptions C33_in_flight.

(** A request that fails without a response is not penalized: a server that refuses connections at once seems to be
    fast. *)
Theorem C33_error_refuted : exists date c t0 l b, run date c t0 l b /\ (0 < base_penalty c)%N /\
  exists b' v, step date b (Fail 0 t0) = Some (b', [Recorded 0 v t0]) /\ v = 0%R.
Proof.
  exists (fun _ => None), (Config 1000000000 10000000000 5000 300000000000), 0%Z, [Called 0 0%Z],
    (Biaser (Config 1000000000 10000000000 5000 300000000000) (new_with_value 10000000000 0 (secs 1000000000)) [Handle 0 0 false] 1). split.
  - exact (run_step _ _ _ [] _ (Call 0) _ _ (run_new _ _ _) eq_refl).
  - split; [reflexivity|]. eexists _, _. split; [reflexivity|]. unfold secs. cbn. lra.
Qed.
Print Assumptions C33_error_refuted.

(** Two requests at time 0, of which one is answered at once: 503, come back in ten seconds *)
Definition demo_config : config := Config 1000000000 10000000000 5000 300000000000.
Definition busy : response := Rsp 503 [(bs "retry-after", bs "10")] None.
Definition demo_state : biaser :=
  Biaser demo_config (add_peak (new_with_value 10000000000 0 (secs 1000000000)) (Rmax (secs 10000000000) (secs 1000000000)) 0) [Handle 1 0 false] 2.
Example C33_demo : run (fun _ => None) demo_config 0 [Called 0 0; Called 1 0; Recorded 0 (Rmax (secs 10000000000) (secs 1000000000)) 0]%Z demo_state.
Proof.
  pose proof (run_step (fun _ => None) demo_config 0 [] _ (Call 0) _ _ (run_new _ _ _) eq_refl) as R.
  pose proof (run_step _ _ _ _ _ (Call 0) _ _ R eq_refl) as R2. exact (run_step _ _ _ _ _ (Respond 0 busy false 0 0%N) _ _ R2 eq_refl).
Qed.
Example C33_demo_value : Rmax (secs 10000000000) (secs 1000000000) = 10%R /\ overloaded busy.
Proof. split; [|right; left; reflexivity]. unfold secs, Rmax. destruct (Rle_dec _ _); lra. Qed.
Example C33_demo_load : exists b l', step (fun _ => None) demo_state (Load 0) = Some (b, l') /\ l' = [Loaded (10 * (1 + 1))%R 0%Z].
Proof.
  eexists _, _. split; [reflexivity|]. eapply (C33_load _ _ _ _ _ _ _ _ 10%R C33_demo eq_refl).
  - unfold estimate, demo_state. cbn [b_rtt]. destruct C33_demo_value as [-> _]. unfold add_peak, get_at, new_with_value. cbn [e_value e_timestamp e_decay].
    change (0 <=? 0)%Z with true. cbv iota. destruct (Rlt_dec _ _) as [L|L]; [reflexivity|]. destruct L. unfold secs. lra.
  - unfold in_flight, calls, records. cbn. lia.
Qed.
