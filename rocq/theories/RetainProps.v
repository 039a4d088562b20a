(** C140: a service is kept while it serves a request. *)
From Coq Require Import List Arith NArith Bool.
From Verif Require Import CacheModel RetainModel RetainSpec RetainProofs.
Import ListNotations.

(** A request for a target always finds a service; while any other request for that target is being served, up to the end of the body of its
    response, it is the same service *)
Theorem C140_same : forall idle history s k v,
  run idle history s ->
  exists s', step idle s (Arrives k v) = Some s' /\ exists w, given s' k w /\ forall i u, served_by s i k u -> u = w.
Proof. exact always. Qed.
Print Assumptions C140_same.

(** Any two requests for a target that are being served at once have the same service *)
Theorem C140_one : forall idle history s i j k v w,
  run idle history s -> served_by s i k v -> served_by s j k w -> v = w.
Proof. exact one. Qed.
Print Assumptions C140_one.

(** A service only serves requests for the target it was made for *)
Theorem C140_own : forall idle history s i k v,
  run idle history s -> served_by s i k v -> In (Arrives k v) history.
Proof. exact own. Qed.
Print Assumptions C140_own.

(** A request goes on being served by its service until it fails, its caller gives it up, or the body of its response ends *)
Theorem C140_through : forall idle s e s' i k v,
  step idle s e = Some s' -> served_by s i k v -> served_by s' i k v \/ e = Fails i \/ e = Ends i \/ e = Cancels i.
Proof. exact through. Qed.
Print Assumptions C140_through.

(** Once no request for a target is being served, its service goes away: after the idle time, a request gets a new one *)
Theorem C140_freed : forall idle history s k v,
  run idle history s -> (forall i w, ~ served_by s i k w) -> settled s ->
  exists evictions s' s'', Forall (fun e => match e with Polls _ | Passes _ | Locks _ => True | _ => False end) evictions /\
    steps idle s evictions s' /\ step idle s' (Arrives k v) = Some s'' /\ given s'' k v.
Proof. exact freed. Qed.
Print Assumptions C140_freed.

(** A request is answered, and its body is still being read after the idle time has passed twice, when another comes *)
Fixpoint go (idle : N) (s : state) (es : list event) : option state :=
  match es with [] => Some s | e :: es => match step idle s e with Some s => go idle s es | None => None end end.
Lemma go_run idle : forall es s h s', run idle h s -> go idle s es = Some s' -> run idle (h ++ es) s'.
Proof.
  intros es. induction es as [|e es IH]; intros s h s' R G; cbn in G.
  - injection G as <-. now rewrite app_nil_r.
  - destruct (step idle s e) as [s1|] eqn:E; [|discriminate]. change (e :: es) with ([e] ++ es). rewrite app_assoc. apply (IH s1); [|exact G]. exact (run_step _ _ _ _ _ R E).
Qed.
Definition example_history : list event :=
  [Arrives 7 100; Polls 0; Calls 0; Releases 0; Polls 0; Answers 0; Passes 10; Polls 0; Locks 0; Passes 10; Polls 0; Locks 0; Arrives 7 101; Calls 1; Releases 0; Fails 1; Releases 0].
Example C140_example : exists s, run 5 example_history s /\ served_by s 0 7 100 /\ (forall s', step 5 s (Arrives 7 102) = Some s' -> given s' 7 100).
Proof.
  destruct (go 5 (State CacheModel.init []) example_history) as [s|] eqn:E; [|vm_compute in E; discriminate].
  exists s. split; [exact (go_run _ _ _ [] _ (run_init 5) E)|]. vm_compute in E. injection E as <-. split.
  - eexists. split; [reflexivity|]. split; [reflexivity|]. split; [reflexivity|discriminate].
  - intros s' S. vm_compute in S. injection S as <-. eexists. split; [reflexivity|]. split; [reflexivity|]. split; [reflexivity|discriminate].
Qed.
(** When the body has ended, it goes away *)
Example C140_freed_example : exists s, run 5 (example_history ++ [Ends 0; Releases 0]) s /\ (forall i w, ~ served_by s i 7 w) /\ settled s /\ find_entry 7 (entries (cache s)) <> None.
Proof.
  destruct (go 5 (State CacheModel.init []) (example_history ++ [Ends 0; Releases 0])) as [s|] eqn:E; [|vm_compute in E; discriminate].
  exists s. split; [exact (go_run _ _ _ [] _ (run_init 5) E)|]. vm_compute in E. injection E as <-. split; [|split].
  - intros i w (r & N & K & V & P). destruct i as [|[|[|]]]; cbn in N; try discriminate; injection N as <-; apply P; reflexivity.
  - repeat constructor.
  - discriminate.
Qed.
