(** C135: requests go through the proxy of their route. *)
From Coq Require Import List Arith Bool.
From Verif Require Import ProxyRouterModel ProxyRouterSpec ProxyRouterProofs.
Import ListNotations.

(** After any history there is one profile in use *)
Theorem C135_in_use : forall {M : Type} (p : received M) h,
  exists q, in_use p h q /\ forall q', in_use p h q' -> q' = q.
Proof. intros M p h. destruct (always p h) as [q U]. exists q. split; [exact U|]. intros q' U'. exact (in_use_fun p h q' q U' U). Qed.
Print Assumptions C135_in_use.
Example C135_in_use_ex : @in_use nat [(1, 10)] [Polls Ready; Updates [(2, 20)]; Polls Pending] [(1, 10)].
Proof.
  apply (@Us_ready nat [(1, 10)] [] [Updates [(2, 20)]; Polls Pending]); [constructor|].
  intros [H|[H|[]]]; discriminate.
Qed.

(** A request goes through a proxy that was made for the first route that matches it, of the profile in use; directly if none does; and
    it never panics *)
Theorem C135_route : forall {M Req : Type} (matches : M -> Req -> bool) (p : received M) h q req, in_use p h q ->
  match call matches (run (new_service p) h) req with
  | Direct => first_route matches q req None
  | Through x => exists d, first_route matches q req (Some d) /\ proxy_for (run (new_service p) h) x d
  | Panics => False
  end.
Proof. exact (@routed). Qed.
Print Assumptions C135_route.
Example C135_route_ex :
  call Nat.eqb (run (new_service [(1, 10); (2, 20)]) [Polls Ready]) 2 = Through 1 /\
  call Nat.eqb (run (new_service [(1, 10); (2, 20)]) [Polls Ready]) 3 = Direct /\
  call Nat.eqb (run (new_service [(1, 10); (2, 20)]) [Polls Ready; Updates [(3, 30)]; Polls Failed]) 2 = Through 1 /\
  call Nat.eqb (run (new_service [(1, 10); (2, 20)]) [Polls Ready; Updates [(3, 30)]; Polls Ready]) 3 = Through 2 /\
  call Nat.eqb (run (new_service [(1, 10); (2, 20)]) [Polls Ready; Updates [(3, 30)]; Polls Ready]) 2 = Direct.
Proof. vm_compute. auto. Qed.

(** No two routes are first *)
Theorem C135_first : forall {M Req : Type} (matches : M -> Req -> bool) (q : received M) req a b,
  first_route matches q req a -> first_route matches q req b -> a = b.
Proof. exact (@first_fun). Qed.
Print Assumptions C135_first.
Example C135_first_ex : first_route Nat.eqb [(1, 10); (2, 20); (2, 21)] 2 (Some 20).
Proof. apply (F_some Nat.eqb [(1, 10)] 2 20 [(2, 21)]); [|reflexivity]. intros m d [H|[]]. injection H as <- <-. reflexivity. Qed.

(** Proxies are kept for the routes in use, and for no other *)
Theorem C135_live : forall {M : Type} (p : received M) h r,
  get (proxies (run (new_service p) h)) r <> None <-> exists m, In (m, r) (http_routes (run (new_service p) h)).
Proof. exact (@no_leak). Qed.
Print Assumptions C135_live.
Example C135_live_ex :
  proxies (run (new_service [(1, 10); (2, 20)]) [Polls Ready; Updates [(3, 30)]; Polls Ready]) = [(2, 2)].
Proof. vm_compute. reflexivity. Qed.

(** As long as the profile is not updated, requests go through the same proxies *)
Theorem C135_kept_partial : forall {M Req : Type} (matches : M -> Req -> bool) (p : received M) h h' req, no_update h' ->
  call matches (run (new_service p) (h ++ [Polls Ready])) req = call matches (run (new_service p) (h ++ [Polls Ready] ++ h')) req.
Proof. exact (@kept). Qed.
Print Assumptions C135_kept_partial.
Example C135_kept_partial_ex : @no_update nat [Polls Pending; Polls Ready; Closes].
Proof. intros q [H|[H|[H|[]]]]; discriminate. Qed.

(** After an update no request goes through a proxy that was there before: even if the routes are the same *)
Theorem C135_anew : forall {M Req : Type} (matches : M -> Req -> bool) (p : received M) h q req x y,
  call matches (run (new_service p) h) req = Through x ->
  call matches (run (new_service p) (h ++ [Updates q; Polls Ready])) req = Through y -> x <> y.
Proof. exact (@anew). Qed.
Print Assumptions C135_anew.
Example C135_anew_ex :
  call Nat.eqb (run (new_service [(1, 10)]) [Polls Ready]) 1 = Through 0 /\
  call Nat.eqb (run (new_service [(1, 10)]) ([Polls Ready] ++ [Updates [(1, 10)]; Polls Ready])) 1 = Through 1.
Proof. vm_compute. auto. Qed.

(** What was wanted: a route that is in the profile before an update and after it keeps its proxy *)
Theorem C135_kept_refuted : ~ forall (M Req : Type) (matches : M -> Req -> bool) (p : received M) h req,
  call matches (run (new_service p) (h ++ [Polls Ready])) req =
  call matches (run (new_service p) (h ++ [Polls Ready; Updates p; Polls Ready])) req.
Proof. intros H. specialize (H nat nat Nat.eqb [(1, 10)] [] 1). vm_compute in H. discriminate. Qed.
Print Assumptions C135_kept_refuted.
