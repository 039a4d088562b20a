(** Model of linkerd/dns/src/lib.rs, linkerd/dns/src/minimum_ttl.rs,
    linkerd/proxy/dns-resolve/src/lib.rs and of the recovery of linkerd/app/core/src/control.rs:
    how the addresses of the control plane are found and kept up to date

    Times are nanoseconds.  What the resolver (hickory) answers is an input. *)
From Coq Require Import String List NArith Bool.
From Verif Require Import Bytes NameModel EndpointModel.
Import ListNotations.
Open Scope N_scope.

(** ** Answers *)

(** Of an SRV record the target's labels and the port; any other record *)
Inductive rdata := Srv (target : list bytes) (port : N) | Other_record.
(** `hickory_resolver::net::NetError`: no records, perhaps with a negative TTL in seconds; or
    anything else *)
Inductive net_error := No_records (negative_ttl : option N) | Other_error.
(** lib.rs:46-52 *)
Inductive srv_record_error := Invalid_srv | Srv_failed (e : net_error).
(** lib.rs:54-60 *)
Record resolve_error := ResolveError { a_error : net_error; srv_error : srv_record_error }.
(** An answer: what was found and until when it is valid; or an error *)
Definition answer (A : Type) : Type := ((A * N) + net_error)%type.

(** `str::replace` of one character by another *)
Definition replace (a b : N) (s : bytes) : bytes := map (fun c => if c =? a then b else c) s.
(** `Ipv4Addr::from_str`, one of its numbers: at most three digits, and no zero before another *)
Definition parse_octet (s : bytes) : option N :=
  if (len s <=? 3) && (match s with 48 :: _ :: _ => false | [] => false | _ => true end)
  then parse_digits u8_max 0 s
  else None.
(** `Ipv4Addr::from_str` *)
Definition parse_v4 (s : bytes) : option (list N) :=
  match split 46 s with
  | [a; b; c; d] =>
      match parse_octet a, parse_octet b, parse_octet c, parse_octet d with
      | Some a, Some b, Some c, Some d => Some [a; b; c; d]
      | _, _, _, _ => None
      end
  | _ => None
  end.

Section Addresses.
(** `Ipv6Addr::from_str` *)
Variable parse_v6 : bytes -> option (list N).
(** `IpAddr::from_str` *)
Definition parse_ip (s : bytes) : option (list N) :=
  match parse_v4 s with Some ip => Some ip | None => parse_v6 s end.

(** lib.rs:182-195.  A label that is not UTF-8 is no address either, so that line 184 needs no
    test of its own. *)
Definition srv_to_socket_addr (target : list bytes) (port : N) : option sock :=
  match target with
  | first_label :: _ =>
      let res := match parse_ip (replace 45 46 first_label) with
                 | Some ip => Some ip
                 | None => parse_ip (replace 45 58 first_label)
                 end in
      match res with Some ip => Some (Sock ip port) | None => None end
  | [] => None
  end.
(** `collect::<Result<_, _>>` *)
Fixpoint collect {A} (l : list (option A)) : option (list A) :=
  match l with
  | [] => Some []
  | Some x :: l' => match collect l' with Some xs => Some (x :: xs) | None => None end
  | None :: _ => None
  end.
(** lib.rs:151-173 *)
Definition resolve_srv (srv : answer (list rdata)) : (list sock * N) + srv_record_error :=
  match srv with
  | inr e => inr (Srv_failed e)
  | inl (answers, valid_until) =>
      let srvs := flat_map (fun r => match r with Srv t p => [srv_to_socket_addr t p] | Other_record => [] end) answers in
      match collect srvs with
      | Some addrs => inl (addrs, valid_until)
      | None => inr Invalid_srv
      end
  end.

(** lib.rs:26-36 *)
Record metrics := Metrics { a_resolved : N; a_not_found : N; srv_resolved : N; srv_not_found : N }.
(** lib.rs:106-138 and 140-149.  [ips] is what the second lookup answers, if it is made. *)
Definition resolve_addrs (m : metrics) (srv : answer (list rdata)) (ips : answer (list (list N))) (default_port : N)
  : metrics * ((list sock * N) + resolve_error) :=
  match resolve_srv srv with
  | inl res => (Metrics (a_resolved m) (a_not_found m) (srv_resolved m + 1) (srv_not_found m), inl res)
  | inr srv_error =>
      match ips with
      | inr a_error =>
          (Metrics (a_resolved m) (a_not_found m + 1) (srv_resolved m) (srv_not_found m + 1), inr (ResolveError a_error srv_error))
      | inl (ips, delay) =>
          (Metrics (a_resolved m + 1) (a_not_found m) (srv_resolved m) (srv_not_found m + 1),
           inl (map (fun ip => Sock ip default_port) ips, delay))
      end
  end.
End Addresses.

(** ** Times *)

(** minimum_ttl.rs:10 *)
Definition MINIMUM_TTL : N := 5 * 1000000000.
(** minimum_ttl.rs:17-29 *)
Definition with_minimum_expiry (now valid_until : N) : N :=
  let minimum := now + MINIMUM_TTL in
  if minimum <=? valid_until then valid_until else minimum.
(** minimum_ttl.rs:35-43 *)
Definition with_minimum_duration (ttl : N) : N :=
  if ttl <? MINIMUM_TTL then MINIMUM_TTL else ttl.
(** lib.rs:231-245 *)
Definition negative_ttl_of (e : net_error) : option N :=
  match e with
  | No_records (Some ttl_secs) => Some (with_minimum_duration (ttl_secs * 1000000000))
  | _ => None
  end.
(** lib.rs:212-226 *)
Definition negative_ttl (e : resolve_error) : option N :=
  match negative_ttl_of (a_error e) with
  | Some ttl => Some ttl
  | None => match srv_error e with Srv_failed e => negative_ttl_of e | Invalid_srv => None end
  end.

(** ** What a target resolves to *)

(** addr/src/lib.rs:16-19 *)
Inductive addr := Name (na : name_addr) | Socket (sa : sock).
(** One update that stays; or a resolution *)
Inductive resolution := Fixed (addrs : list sock) | Resolved (na : name_addr).
(** dns-resolve/src/lib.rs:44-63 *)
Definition dns_resolve (target : addr) : resolution :=
  let a := match target with
           | Name na => if is_localhost (na_name na) then Socket (Sock [127; 0; 0; 1] (na_port na)) else target
           | Socket _ => target
           end in
  match a with
  | Name na => Resolved na
  | Socket sa => Fixed [sa]
  end.

(** ** A resolution, recovered *)

(** What is sent to the balancer *)
Inductive item := Update (addrs : list sock) | Failure (e : resolve_error).
(** The task of dns-resolve/src/lib.rs:78-108, by where it waits *)
Inductive task :=
| Sending (addrs : list sock) (expiry : N)  (* lines 81 and 92 *)
| Sleeping (until : N)                      (* lines 85 and 96 *)
| Asking                                    (* line 88 *)
| Failing (e : resolve_error)               (* line 100 *)
| Ended.                                    (* line 102 *)
(** control.rs:306-314: an interval with the time of its next tick; or the exponential backoff
    with the end of its wait *)
Inductive resolve_backoff := Negative_ttl (next ttl : N) | Exponential (until : N).
(** The states of resolve/src/recover.rs:40-61, with the task and its channel of one place *)
Inductive state :=
| Connecting (b : option resolve_backoff)
| Connected (t : task) (chan : option item)
| Backing_off (b : resolve_backoff).

(** What goes on elsewhere *)
Inductive input :=
| Answered (res : (list sock * N) + resolve_error) (wait : N)  (* both lookups; if backing off: for how long *)
| Sends                                     (* the task is polled with room in the channel *)
| Wakes                                     (* the task's sleep is over *)
| Polls (wait : N)                          (* the balancer polls *)
| Ticks.                                    (* the balancer polls, backing off *)
(** What is seen *)
Inductive event :=
| Asked                                     (* `resolve_addrs` is called *)
| Got (addrs : list sock) (expiry : N)
| Not_got (e : resolve_error)
| Yielded (addrs : list sock)               (* the balancer gets `Update::Reset` *)
| Recovers (e : resolve_error).             (* a new backoff is used *)

(** control.rs:327-352.  The first tick is one TTL away, as the interval is reset. *)
Definition recover (now : N) (e : resolve_error) (wait : N) : resolve_backoff :=
  match negative_ttl e with
  | Some ttl => Negative_ttl (now + ttl) ttl
  | None => Exponential (now + wait)
  end.
(** A backoff that is polled again (recover.rs:244-252): an interval goes on, and the exponential
    backoff waits anew. *)
Definition continue (now : N) (b : resolve_backoff) (wait : N) : resolve_backoff :=
  match b with
  | Negative_ttl next ttl => Negative_ttl next ttl
  | Exponential _ => Exponential (now + wait)
  end.

(** dns-resolve/src/lib.rs:66-111 and resolve/src/recover.rs:147-194 and 209-262.  [None]: it
    cannot happen.  The exponential backoff never waits for less than [min_backoff] (C08).
    Simplification: the balancer stays, so that the channel is never closed. *)
Definition step (min_backoff now : N) (s : state) (i : input) : option (state * list event) :=
  match s, i with
  | Connecting b, Answered (inl (addrs, expiry)) _ => Some (Connected (Sending addrs expiry) None, [Got addrs expiry])
  | Connecting b, Answered (inr e) wait =>
      if wait <? min_backoff then None
      else match b with
           | Some b => Some (Backing_off (continue now b wait), [Not_got e])
           | None => Some (Backing_off (recover now e wait), [Not_got e; Recovers e])
           end
  | Connected (Sending addrs expiry) None, Sends => Some (Connected (Sleeping (with_minimum_expiry now expiry)) (Some (Update addrs)), [])
  | Connected (Failing e) None, Sends => Some (Connected Ended (Some (Failure e)), [])
  | Connected (Sleeping until) c, Wakes => if until <=? now then Some (Connected Asking c, [Asked]) else None
  | Connected Asking c, Answered (inl (addrs, expiry)) _ => Some (Connected (Sending addrs expiry) c, [Got addrs expiry])
  | Connected Asking c, Answered (inr e) _ => Some (Connected (Failing e) c, [Not_got e])
  | Connected t (Some (Update addrs)), Polls _ => Some (Connected t None, [Yielded addrs])
  | Connected _ (Some (Failure e)), Polls wait =>
      if wait <? min_backoff then None else Some (Backing_off (recover now e wait), [Recovers e])
  | Backing_off (Negative_ttl next ttl), Ticks =>
      (* tokio's `Burst`: the next tick is one TTL after this one was due *)
      if next <=? now then Some (Connecting (Some (Negative_ttl (next + ttl) ttl)), [Asked]) else None
  | Backing_off (Exponential until), Ticks =>
      if until <=? now then Some (Connecting (Some (Exponential until)), [Asked]) else None
  | _, _ => None
  end.

(** What was seen, and when *)
Inductive run (min_backoff t0 : N) : N -> list (N * event) -> state -> Prop :=
| run_init : run min_backoff t0 t0 [(t0, Asked)] (Connecting None)
| run_step : forall t l s t' i s' l', run min_backoff t0 t l s -> t <= t' -> step min_backoff t' s i = Some (s', l') ->
    run min_backoff t0 t' (l ++ map (pair t') l') s'.
