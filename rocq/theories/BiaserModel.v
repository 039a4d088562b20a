(** Model of linkerd/load-biaser/src/lib.rs with `PendingUntilFirstData` of
    hyper-balance/src/lib.rs: the load of an endpoint, from the times its responses took

    Simplifications: f64 is the real numbers as in EwmaModel.v; what is done while the lock of
    the average is held, and what a handle does when it is dropped, is one step.  The times of
    the steps are arbitrary, as every task reads the clock for itself before it takes the lock.
    Times are nanoseconds. *)
From Coq Require Import String List NArith ZArith Bool Reals.
From Verif Require Import Bytes FilterModel TraceModel HintModel EwmaModel.
Import ListNotations.
Open Scope N_scope.

(** lib.rs:59-66 *)
Inductive failure := Rate_limited | Service_unavailable | Internal_error.
(** A response; [cached]: the extension `CachedRateLimitHint` (lib.rs:74-86) *)
Record response := Rsp { status : N; hdrs : headers; cached : option N }.
(** lib.rs:218-232; the base penalty in milliseconds *)
Record config := Config { c_default_rtt : N; c_rtt_decay : N; c_penalty_ms : N; c_max_duration : N }.
(** `Duration::MAX` *)
Definition duration_max : N := u64_max * 1000000000 + 999999999.

(** lib.rs:115-120 *)
Definition is_grpc (hs : headers) : bool :=
  match hm_get hs (bs "content-type") with
  | Some v => match to_str v with Some ct => starts_with (bs "application/grpc") ct | None => false end
  | None => false
  end.
(** lib.rs:134-166 *)
Definition failure_hint (r : response) : option failure :=
  if status r =? 429 then Some Rate_limited
  else if status r =? 503 then Some Service_unavailable
  else if (500 <=? status r) && (status r <? 600) then Some Internal_error
  else if (status r =? 200) && is_grpc (hdrs r) then
    match hm_get (hdrs r) (bs "grpc-status") with
    | None => None
    | Some v =>
      match to_str v with
      | None => None
      | Some s =>
        match parse_uint u16_max s with
        | None => None
        | Some code =>
            if code =? 0 then None
            else if code =? 8 then Some Rate_limited
            else if code =? 14 then Some Service_unavailable
            else if (code =? 2) || (code =? 4) || (code =? 13) || (code =? 15) then Some Internal_error
            else None
        end
      end
    end
  else None.

Section Biaser.
  (** `httpdate::parse_http_date` (another crate) *)
  Variable parse_http_date : bytes -> option N.
  (** lib.rs:168-188; [wall]: `SystemTime::now()` *)
  Definition attach (r : response) (wall : N) : response :=
    match parse_retry_after parse_http_date wall (status r) (hdrs r) duration_max with
    | Some d => Rsp (status r) (hdrs r) (Some d)
    | None =>
        if (status r =? 200) && is_grpc (hdrs r) then
          match parse_grpc_retry_pushback (hdrs r) duration_max with
          | Some d => Rsp (status r) (hdrs r) (Some d)
          | None => r
          end
        else r
    end.
  (** lib.rs:190-213 *)
  Definition rate_limit_hint (r : response) (max wall : N) : option N :=
    match cached r with
    | Some d => Some (N.min d max)
    | None =>
        match parse_retry_after parse_http_date wall (status r) (hdrs r) max with
        | Some d => Some d
        | None => if (status r =? 200) && is_grpc (hdrs r) then parse_grpc_retry_pushback (hdrs r) max else None
        end
    end.
  (** lib.rs:264-276 *)
  Definition effective_rtt (c : config) (h : failure) (r : response) (wall : N) : N :=
    let from_hint := match h with
                     | Rate_limited | Service_unavailable => rate_limit_hint r (c_max_duration c) wall
                     | Internal_error => None
                     end in
    let base := from_millis (c_penalty_ms c) in
    match from_hint with Some h => N.max h base | None => base end.

  (** lib.rs:318-322: a request that is under way.  [in_body]: its handle is in the body of its
      response, and no longer in the future. *)
  Record handle := Handle { h_id : nat; h_sent : Z; in_body : bool }.
  (** lib.rs:252-259 and 294-299.  Every handle holds a reference to the shared state. *)
  Record biaser := Biaser { b_config : config; b_rtt : ewma; b_handles : list handle; b_next : nat }.
  (** lib.rs:359-380 *)
  Definition with_completion (c : config) (now : Z) : biaser :=
    Biaser c (new_with_value (Z.of_N (c_rtt_decay c)) now (secs (Z.of_N (c_default_rtt c)))) [] 0.

  (** What can happen to a load biaser: the code cited at [step] below; not code of its own *)
  Inductive op :=
  | Call (t : Z)
  | Respond (id : nat) (r : response) (ended : bool) (t : Z) (wall : N) (* the inner future is ready; [ended]: the body is at its end *)
  | Fail (id : nat) (t : Z)
  | Frame (id : nat) (t : Z)              (* `poll_frame` of the body is ready: with a frame, an error or the end *)
  | Cancel (id : nat) (t : Z)             (* the future or the body is dropped *)
  | Load (t : Z).
  (** What is seen of it *)
  Inductive event :=
  | Called (id : nat) (t : Z)
  | Recorded (id : nat) (v : R) (t : Z)
  | Loaded (v : R) (t : Z).

  (** Helper: the handle of a request in flight *)
  Definition find_handle (b : biaser) (id : nat) : option handle := find (fun h => Nat.eqb (h_id h) id) (b_handles b).
  (** Helper: a handle that is dropped *)
  Definition without (id : nat) (l : list handle) : list handle := filter (fun h => negb (Nat.eqb (h_id h) id)) l.
  (** lib.rs:324-338.  The average has always a value here. *)
  Definition drop_handle (b : biaser) (h : handle) (penalty : option N) (now : Z) : biaser * list event :=
    let value := match penalty with
                 | None => secs (Z.max 0 (now - h_sent h))
                 | Some p => match get_at (b_rtt b) now with
                             | Fin rtt => Rmax (secs (Z.of_N p)) rtt
                             | Inf => secs (Z.of_N p)
                             end
                 end in
    (Biaser (b_config b) (add_peak (b_rtt b) value now) (without (h_id h) (b_handles b)) (b_next b), [Recorded (h_id h) value now]).
  (** lib.rs:413-432; `Arc::strong_count` is one more than there are handles *)
  Definition pending (b : biaser) : N := N.of_nat (S (length (b_handles b))) mod (u32_max + 1) - 1.
  (** lib.rs:413-432: the latency estimate times one more than there are requests in flight *)
  Definition load (b : biaser) (now : Z) : R :=
    match get_at (b_rtt b) now with
    | Inf => 0%R
    | Fin rtt => (rtt * IZR (Z.of_N (N.min (pending b + 1) u32_max)))%R
    end.
  (** lib.rs:382-388, 449-456, 513-552, and hyper-balance/src/lib.rs:45-55, 105-119.  [None]: it cannot happen. *)
  Definition step (b : biaser) (o : op) : option (biaser * list event) :=
    match o with
    | Call t => Some (Biaser (b_config b) (b_rtt b) (Handle (b_next b) t false :: b_handles b) (S (b_next b)), [Called (b_next b) t])
    | Respond id r ended t wall =>
        match find_handle b id with
        | Some h =>
            if in_body h then None
            else match failure_hint r with
                 | Some hint =>
                     let r := attach r wall in
                     Some (drop_handle b h (Some (effective_rtt (b_config b) hint r wall)) t)
                 | None =>
                     if ended then Some (drop_handle b h None t)
                     else Some (Biaser (b_config b) (b_rtt b) (map (fun x => if Nat.eqb (h_id x) id then Handle id (h_sent x) true else x) (b_handles b)) (b_next b), [])
                 end
        | None => None
        end
    | Fail id t =>
        match find_handle b id with
        | Some h => if in_body h then None else Some (drop_handle b h None t)
        | None => None
        end
    | Frame id t =>
        match find_handle b id with
        | Some h => if in_body h then Some (drop_handle b h None t) else None
        | None => Some (b, [])
        end
    | Cancel id t =>
        match find_handle b id with
        | Some h => Some (drop_handle b h None t)
        | None => Some (b, [])
        end
    | Load t => Some (b, [Loaded (load b t) t])
    end.
  (** The runs: any sequence of operations, each logged; not code of its own *)
  Inductive run (c : config) (t0 : Z) : list event -> biaser -> Prop :=
  | run_new : run c t0 [] (with_completion c t0)
  | run_step : forall l b o b' l', run c t0 l b -> step b o = Some (b', l') -> run c t0 (l ++ l') b'.
End Biaser.
