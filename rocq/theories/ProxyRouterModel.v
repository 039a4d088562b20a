(** Model of linkerd/service-profiles/src/http/proxy.rs: requests go through the proxy of their route, of the profile that was there
    when the router was last polled.
    A route of a profile is a description, which is a number here.  Routes are equal if their labels, and the rest, are the same
    in memory (service-profiles/src/http.rs:14-20, 225-229), and each route that is read has labels of its own (http.rs:80-93): a
    route is known by when it was read.  Proxies are numbered as they are made.  The routes of a profile are in a hash set, whose order is that of
    the profile here.  A route matches as [matches] says (C15).
    The stream of profiles (service-profiles/src/lib.rs:156-161, tokio's `WatchStream`) tells the value that is there at first, and
    then the latest one whenever it was updated since. *)
From Coq Require Import List Arith Bool.
Import ListNotations.

Section Router.
  Context {M Req : Type}.
  Variable matches : M -> Req -> bool.

  (** A profile's routes, as they are received: with their descriptions *)
  Definition received := list (M * nat).
  (** `Profile::http_routes`: with what the routes are known by *)
  Definition routes := list (M * nat).
  (** proxy.rs:29-37, with the watch: its value, and whether that was told; the routes for which proxies were made, in order; and the
      descriptions of the routes that were read, in order *)
  Record router := Router {
    rx_value : routes; rx_told : bool;
    http_routes : routes; proxies : list (nat * nat); made : list nat; read : list nat }.
  (** What the inner service says when it is polled *)
  Inductive readiness := Pending | Ready | Failed.
  (** What happens: the profile is updated, its sender goes away, or the router is polled *)
  Inductive event := Updates (p : received) | Closes | Polls (inner : readiness).

  (** service-profiles/src/proto.rs:46-84, http.rs:80-93: routes that are read after [n] others *)
  Fixpoint known (n : nat) (p : received) : routes :=
    match p with [] => [] | (m, _) :: p => (m, n) :: known (S n) p end.
  (** proxy.rs:58-69; the profile at first *)
  Definition new_service (p : received) : router := Router (known 0 p) false [] [] [] (map snd p).
  (** `HashMap::get` *)
  Definition get (ps : list (nat * nat)) (r : nat) : option nat := option_map snd (find (fun p => fst p =? r) ps).
  (** proxy.rs:106-113: a proxy is made for each route that has none *)
  Fixpoint fill (rs : list nat) (ps : list (nat * nat)) (made : list nat) : list (nat * nat) * list nat :=
    match rs with
    | [] => (ps, made)
    | r :: rs =>
        match get ps r with
        | Some _ => fill rs ps made
        | None => fill rs ((r, length made) :: ps) (made ++ [r])
        end
    end.
  (** proxy.rs:94-114 *)
  Definition update (s : router) : router :=
    if rx_told s then s
    else
      let rs := map snd (rx_value s) in
      let kept := filter (fun p => existsb (Nat.eqb (fst p)) rs) (proxies s) in
      let '(ps, made) := fill rs kept (made s) in
      Router (rx_value s) true (rx_value s) ps made (read s).
  (** proxy.rs:89-117 *)
  Definition step (s : router) (e : event) : router :=
    match e with
    | Updates p => Router (known (length (read s)) p) false (http_routes s) (proxies s) (made s) (read s ++ map snd p)
    | Closes => s
    | Polls Ready => update s
    | Polls _ => s
    end.
  (** All that happens *)
  Fixpoint run (s : router) (h : list event) : router :=
    match h with [] => s | e :: h => run (step s e) h end.

  (** service-profiles/src/http.rs:65-75: the first route that matches *)
  Fixpoint route_for_request (rs : routes) (req : Req) : option nat :=
    match rs with
    | [] => None
    | (m, r) :: rs => if matches m req then Some r else route_for_request rs req
    end.
  (** Where a request goes: to the inner service, directly or through a proxy; or it panics *)
  Inductive way := Direct | Through (proxy : nat) | Panics.
  (** proxy.rs:119-138 *)
  Definition call (s : router) (req : Req) : way :=
    match route_for_request (http_routes s) req with
    | None => Direct
    | Some r => match get (proxies s) r with Some p => Through p | None => Panics end
    end.
End Router.
Arguments event : clear implicits. Arguments router : clear implicits.
Arguments received : clear implicits. Arguments routes : clear implicits.
