(** C21 *)
From Coq Require Import List Arith Bool Lia.
From Verif Require Import GateModel GateSpec GateProofs GateBoundProofs GateLiveProofs.
Import ListNotations.

(** For any interleaving [es] of the senders and of any number of clones. *)

(** A request passes only on a clone whose last `poll_ready` was ready and that has
    not passed a request since: a readiness is used at most once. *)
Theorem C21_once : forall es before e after, w_log (run es) = before ++ e :: after -> allowed before e.
Proof. exact (fun es => gl_allowed _ (good_log_run es)). Qed.
Print Assumptions C21_once.

(** Once `limit(n)` has returned, and until the next change, at most [n] requests pass
    on readinesses asked for since; *)
Theorem C21_limited : forall es before n mid after,
  w_log (run es) = before ++ Set_ (To_limit n) :: mid ++ after -> no_set (mid ++ after) ->
  settled (before ++ Set_ (To_limit n) :: mid) ->
  fresh_passes after <= n.
Proof. exact limited_bound. Qed.
Print Assumptions C21_limited.
(** counting the others, at most one more for each clone that was ready, or asking,
    when `limit` returned. *)
Theorem C21_limited_total : forall es before n mid after ids,
  w_log (run es) = before ++ Set_ (To_limit n) :: mid ++ after -> no_set (mid ++ after) ->
  settled (before ++ Set_ (To_limit n) :: mid) ->
  (forall i, stands i (before ++ Set_ (To_limit n) :: mid) = Asking \/
             stands i (before ++ Set_ (To_limit n) :: mid) = May_pass -> In i ids) ->
  count is_pass after <= n + length ids.
Proof. exact limited_total. Qed.
Print Assumptions C21_limited_total.

(** While the gate is shut nobody who asks becomes ready. *)
Theorem C21_shut : forall es before mid after,
  w_log (run es) = before ++ Set_ To_shut :: mid ++ after -> no_set (mid ++ after) ->
  settled (before ++ Set_ To_shut :: mid) ->
  fresh_passes after = 0 /\ fresh_readies after = 0.
Proof. exact shut_bound. Qed.
Print Assumptions C21_shut.
Theorem C21_shut_total : forall es before mid after ids,
  w_log (run es) = before ++ Set_ To_shut :: mid ++ after -> no_set (mid ++ after) ->
  settled (before ++ Set_ To_shut :: mid) ->
  (forall i, stands i (before ++ Set_ To_shut :: mid) = Asking \/
             stands i (before ++ Set_ To_shut :: mid) = May_pass -> In i ids) ->
  count is_pass after <= length ids.
Proof. exact shut_total. Qed.
Print Assumptions C21_shut_total.

(** The gate does not refuse more than that.  While it is open, a clone that asks
    becomes ready when the inner service is, whatever it waited for before; *)
Theorem C21_open_admits : forall es i,
  setting_now (w_log (run es)) = To_open -> settled (w_log (run es)) ->
  alive i es (w_log (run es)) -> stands i (w_log (run es)) <> Asking ->
  exists m, w_log (run (es ++ Poll i :: repeat (Step i Inner_ready) m)) = w_log (run es) ++ [Polled i; Ready i].
Proof. exact open_admits. Qed.
Print Assumptions C21_open_admits.
(** and while it is limited, it does so if fewer requests have passed and fewer other
    clones are ready, asking or waiting than the limit allows. *)
Theorem C21_limited_admits : forall es before n mid i ids,
  w_log (run es) = before ++ Set_ (To_limit n) :: mid -> no_set mid -> settled (w_log (run es)) ->
  alive i es (w_log (run es)) -> stands i (w_log (run es)) <> Asking ->
  (forall j, j <> i -> stands j (w_log (run es)) <> Out -> In j ids) ->
  count is_pass mid + length ids < n ->
  exists m, w_log (run (es ++ Poll i :: repeat (Step i Inner_ready) m)) = w_log (run es) ++ [Polled i; Ready i].
Proof. exact limited_admits. Qed.
Print Assumptions C21_limited_admits.

Definition asks (i : nat) : list event := Poll i :: repeat (Step i Inner_ready) 6.
(** Clone 0 is ready when the gate is limited to one; clones 1 and 2 ask, and 1 gets
    the permit.  Two requests pass; the third clone waits until the gate opens. *)
Definition story : list event :=
  [Clone; Clone] ++ asks 0 ++ [Send (To_limit 1)] ++ asks 1 ++ asks 2 ++ [Call 0; Call 1; Call 1] ++ asks 0.
Example C21_demo : w_log (run story) =
  [Polled 0; Ready 0] ++ Set_ (To_limit 1) :: [Returned] ++
  [Polled 1; Ready 1; Polled 2; Pending 2; Pass 0 None; Pass 1 (Some 0); Panic 1; Polled 0; Pending 0] /\
  fresh_passes [Polled 1; Ready 1; Polled 2; Pending 2; Pass 0 None; Pass 1 (Some 0); Panic 1; Polled 0; Pending 0] = 1 /\
  stands 0 [Polled 0; Ready 0; Set_ (To_limit 1); Returned] = May_pass.
Proof. vm_compute. auto. Qed.
Example C21_shut_demo : w_log (run (story ++ [Send To_shut; Close 0] ++ asks 1 ++ [Send To_open] ++ asks 2)) =
  w_log (run story) ++ Set_ To_shut :: [Returned] ++ [Polled 1; Pending 1] ++ [Set_ To_open; Returned; Polled 2; Ready 2].
Proof. vm_compute. auto. Qed.
(** Between the change and the close of the old semaphore, a waiting clone may still be
    handed an old permit: the bounds count from when the call returned. *)
Example C21_race :
  w_log (run ([Clone; Send (To_limit 1)] ++ asks 0 ++ asks 1 ++ [Send To_shut; Poll 0; Poll 1; Step 1 Inner_ready; Step 1 Inner_ready; Call 1; Close 0])) =
  [Set_ (To_limit 1); Returned; Polled 0; Ready 0; Polled 1; Pending 1; Set_ To_shut; Polled 0; Polled 1; Ready 1; Pass 1 (Some 0); Returned].
Proof. vm_compute. auto. Qed.
Definition two_of_three : list event := [Clone; Clone; Send (To_limit 3)] ++ asks 0 ++ [Call 0] ++ asks 1.
Example C21_admits_demo :
  w_log (run two_of_three) = [] ++ Set_ (To_limit 3) :: [Returned; Polled 0; Ready 0; Pass 0 (Some 0); Polled 1; Ready 1] /\
  alive 2 two_of_three (w_log (run two_of_three)) /\ settled (w_log (run two_of_three)) /\
  count is_pass [Returned; Polled 0; Ready 0; Pass 0 (Some 0); Polled 1; Ready 1] + length [1] < 3 /\
  w_log (run (two_of_three ++ asks 2)) = w_log (run two_of_three) ++ [Polled 2; Ready 2] /\
  w_log (run (two_of_three ++ asks 2 ++ asks 0)) = w_log (run two_of_three) ++ [Polled 2; Ready 2; Polled 0; Pending 0].
Proof.
  split; [reflexivity|]. split; [split; [vm_compute; lia|vm_compute; intuition discriminate]|].
  split; [reflexivity|]. split; [vm_compute; lia|]. split; reflexivity.
Qed.
