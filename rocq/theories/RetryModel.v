(** Model of linkerd/http/retry/src/lib.rs (the retry loop), of
    linkerd/app/outbound/src/http/logical/policy/route/retry.rs (the policy) and of
    route/extensions.rs (per-request configuration). *)
From Coq Require Import String List NArith ZArith Bool.
From Verif Require Import Bytes FilterModel TraceModel ReplayModel PeekModel.
Import ListNotations.
Open Scope N_scope.

(** ** The retry loop *)

(** A request.  Its body is a handle of the replay world; of the method, URI and
    version only identity matters; [q_ext] are the extensions that the policy sets. *)
Record timeouts := Timeouts {
  to_headers : option N; to_end : option N; to_idle : option N; to_limit : option N
}.
(** `http::Extensions`, the parts the policy changes: retry.rs:75-94 *)
Record ext := Ext { x_attempt : option N; x_timeouts : option timeouts }.
(** `http::Request` *)
Record request := Request {
  q_method : bytes; q_uri : bytes; q_version : N; q_headers : headers; q_ext : ext; q_body : nat
}.

(** An error is the chain of its causes, outermost first. *)
Inductive cause :=
| LoadShed | FailFast
| TimeoutHeaders | TimeoutLifetime | TimeoutStream   (* ResponseTimeoutError *)
| H2Error (reason : option N) | Other (n : N).
(** `linkerd_error::Error` with its sources *)
Definition error := list cause.
(** A response with its body already peeked at. *)
Record response := Response { rs_status : N; rs_headers : headers; rs_body : peek }.
(** What the inner service's future gives *)
Inductive outcome := Ok (r : response) | Err (e : error).

(** What the inner service does in one turn: whether it is ready at once, what it
    does with the request bodies it holds until it answers, and its answer. *)
Inductive readiness := Ready | NotReady | ReadyErr (e : error).
(** One call of the inner service, lib.rs:286, 308-318 *)
Record turn := Turn { t_ready : readiness; t_ops : list op; t_outcome : outcome }.

(** The service can poll and drop the bodies it was given, numbers 0 to [k]; boxed
    bodies cannot be cloned. *)
Definition by_service (k : nat) (o : op) : bool :=
  match o with
  | Poll i | Drop i => Nat.leb i k
  | Clone _ => false
  end.

(** A call of the inner service as it is seen *)
Record attempt := Attempt { at_req : request; at_events : list event; at_outcome : outcome }.
(** lib.rs:76-82: the counters *)
Record metrics := Metrics { m_requests : N; m_successes : N; m_limit_exceeded : N; m_overflow : N }.
(** lib.rs:76-82: at first *)
Definition no_metrics : metrics := Metrics 0 0 0 0.
(** What is seen of a call: its attempts, its result and the counters *)
Record done := Done {
  d_outcome : outcome; d_attempts : list attempt; d_metrics : metrics; d_world : world
}.

Section Loop.
  (** `P::is_retryable`, `P::set_extensions`; `set_headers` is the default, a copy. *)
  Variable retryable : outcome -> bool.
  Variable set_ext : ext -> ext.

  (** lib.rs:352-361 *)
  Definition mk_backup (w : world) (q : request) : world * request :=
    (fst (step w (Clone (q_body q))),
     Request (q_method q) (q_uri q) (q_version q) (q_headers q) (set_ext (q_ext q)) (length (w_handles w))).

  (** lib.rs:339-350, with everything that happens meanwhile to the bodies. *)
  Definition send_req (w : world) (q : request) (t : turn) : world * attempt :=
    let '(w, ev) := run w (filter (by_service (q_body q)) (t_ops t)) in
    (w, Attempt q ev (t_outcome t)).

  (** lib.rs:291, 325: `matches!(.., None | Some(true))` *)
  Definition not_replayable (w : world) (backup : request) : bool :=
    match is_capped w (q_body backup) with Some false => false | _ => true end.

  (** Helper: one attempt more *)
  Definition add_attempt (a : attempt) (d : done) : done :=
    Done (d_outcome d) (a :: d_attempts d) (d_metrics d) (d_world d).
  (** Helper: a counter changes *)
  Definition count (f : metrics -> metrics) (d : done) : done :=
    Done (d_outcome d) (d_attempts d) (f (d_metrics d)) (d_world d).
  (** lib.rs:317 *)
  Definition inc_requests (m : metrics) := Metrics (m_requests m + 1) (m_successes m) (m_limit_exceeded m) (m_overflow m).

  (** lib.rs:299-335: [n] turns of the `for` loop remain, [k] is the number of the
      next turn, [last] the result so far.  The backoff only waits. *)
  Fixpoint retries (n : nat) (env : nat -> turn) (k : nat) (w : world) (backup : request)
      (last : outcome) : done :=
    match n with
    | O => Done last [] (Metrics 0 0 1 0) w
    | S n =>
        match t_ready (env k) with
        | ReadyErr e => Done (Err e) [] no_metrics w
        | NotReady => Done last [] (Metrics 0 0 0 1) w
        | Ready =>
            let '(w, backup') := mk_backup w backup in
            let '(w, a) := send_req w backup (env k) in
            count inc_requests (add_attempt a
              (if negb (retryable (at_outcome a)) then
                 Done (at_outcome a) []
                   (match at_outcome a with Ok _ => Metrics 0 1 0 0 | Err _ => no_metrics end) w
               else if not_replayable w backup' then Done (at_outcome a) [] no_metrics w
               else retries n env (S k) w backup' (at_outcome a)))
        end
    end.

  (** lib.rs:276-335 *)
  Definition send_req_with_retries (max_retries : nat) (env : nat -> turn) (w : world) (q : request) : done :=
    let '(w, backup) := mk_backup w q in
    let '(w, a) := send_req w q (env 0%nat) in
    add_attempt a
      (if negb (retryable (at_outcome a)) then Done (at_outcome a) [] no_metrics w
       else if not_replayable w backup then Done (at_outcome a) [] no_metrics w
       else retries max_retries env 1 w backup (at_outcome a)).
End Loop.

(** lib.rs:231-273: [None] means that the request is forwarded as it is, once and
    without buffering, because it has no policy or its body is known to be too large. *)
Definition call (policy : option ((outcome -> bool) * (ext -> ext) * nat * N)) (env : nat -> turn)
    (q : request) (b : body) (hint_lower : N) : option done :=
  match policy with
  | None => None
  | Some (retryable, set_ext, max_retries, max_bytes) =>
      match try_new b hint_lower max_bytes with
      | None => None
      | Some w => Some (send_req_with_retries retryable set_ext max_retries env w q)
      end
  end.

(** ** The policy *)

(** client-policy/src/http.rs:108-110 *)
Definition in_ranges (ranges : list (N * N)) (c : N) : bool :=
  existsb (fun r => (fst r <=? c) && (c <=? snd r)) ranges.
(** client-policy/src/grpc.rs:75-77 *)
Definition in_codes (codes : list N) (c : N) : bool := existsb (N.eqb c) codes.

(** route/retry.rs:18-26 *)
Record policy := Policy {
  p_timeout : option N; p_http : option (list (N * N)); p_grpc : option (list N);
  p_max_retries : N; p_max_bytes : N; p_backoff : option (N * N)
}.

(** `str::parse::<i32>` *)
Definition parse_i32 (s : bytes) : option Z :=
  match s with
  | 45 :: [] => None
  | 45 :: d => option_map (fun n => (- Z.of_N n)%Z) (parse_digits 2147483648 0 d)
  | _ => option_map Z.of_N (parse_uint 2147483647 s)
  end.
(** `impl From<i32> for tonic::Code` *)
Definition code_of_i32 (z : Z) : N :=
  if (0 <=? z)%Z && (z <=? 16)%Z then Z.to_N z else 2.
(** The header grpc-status, retry.rs:115, 123 *)
Definition GRPC_STATUS : bytes := bs "grpc-status".
(** retry.rs:116, 124: `to_str`, `parse::<i32>`, `Code::from` *)
Definition parse_code (v : bytes) : option N :=
  match to_str v with
  | Some s => option_map code_of_i32 (parse_i32 s)
  | None => None
  end.

(** route/retry.rs:114-125 *)
Definition grpc_status (r : response) : option N :=
  match hm_get (rs_headers r) GRPC_STATUS with
  | Some h => parse_code h
  | None =>
      match peek_trailers (rs_body r) with
      | Some t => match hm_get t GRPC_STATUS with Some h => parse_code h | None => None end
      | None => None
      end
  end.

(** linkerd/error/src/lib.rs:13-38: [is_caused_by] and [cause_ref]. *)
Definition caused_by (f : cause -> bool) (e : error) : bool := existsb f e.
(** retry.rs:130: `LoadShedError` *)
Definition is_load_shed (c : cause) := match c with LoadShed => true | _ => false end.
(** retry.rs:133: `FailFastError` *)
Definition is_failfast (c : cause) := match c with FailFast => true | _ => false end.
(** retry.rs:138: `ResponseTimeoutError`, of any kind *)
Definition is_timeout (c : cause) :=
  match c with TimeoutHeaders | TimeoutLifetime | TimeoutStream => true | _ => false end.
(** retry.rs:145: `H2Error` *)
Definition is_h2 (c : cause) := match c with H2Error _ => true | _ => false end.
(** `h2::Reason::REFUSED_STREAM`, retry.rs:146 *)
Definition REFUSED_STREAM : N := 7.

(** route/retry.rs:127-155 *)
Definition retryable_error (e : error) : bool :=
  if caused_by is_load_shed e then false
  else if caused_by is_failfast e then true
  else if match find is_timeout e with Some TimeoutHeaders => true | _ => false end then true
  else match find is_h2 e with Some (H2Error (Some r)) => r =? REFUSED_STREAM | _ => false end.

(** route/retry.rs:45-73 *)
Definition is_retryable (p : policy) (o : outcome) : bool :=
  match o with
  | Err e => retryable_error e
  | Ok r =>
      if match p_grpc p with
         | Some codes => match grpc_status r with Some c => in_codes codes c | None => false end
         | None => false
         end then true
      else match p_http p with Some rs => in_ranges rs (rs_status r) | None => false end
  end.

(** route/retry.rs:75-110; the client handle and the classifier are copied. *)
Definition set_extensions (p : policy) (x : ext) : ext :=
  let attempt := match x_attempt x with Some n => N.min (n + 1) u16_max | None => 2 end in
  Ext (Some attempt)
      (option_map (fun t =>
         if attempt <=? p_max_retries p then t
         else Timeouts None (to_end t) (to_idle t) (to_limit t)) (x_timeouts x)).

(** ** route/extensions.rs *)

(** `str::trim` on what [to_str] accepts: blanks and tabs. *)
Definition is_blank (c : N) : bool := (c =? 32) || (c =? 9).
(** `str::trim_start` *)
Fixpoint drop_blanks (s : bytes) : bytes :=
  match s with
  | c :: r => if is_blank c then drop_blanks r else s
  | [] => []
  end.
(** `str::trim` *)
Definition trim (s : bytes) : bytes := rev (drop_blanks (rev (drop_blanks s))).

(** `rfind(is_ascii_digit)` and `split_at(offset + 1)`: the shortest suffix without
    digits is split off. *)
Fixpoint take_nondigits (s : bytes) : bytes * bytes :=
  match s with
  | c :: r => if is_digit c then ([], s) else let '(a, b) := take_nondigits r in (c :: a, b)
  | [] => ([], [])
  end.
(** extensions.rs:238-265: `rfind`, `split_at` *)
Definition split_last_digit (s : bytes) : option (bytes * bytes) :=
  let '(u, m) := take_nondigits (rev s) in
  match m with [] => None | _ => Some (rev m, rev u) end.

(** extensions.rs:238-265, in milliseconds *)
Definition unit_ms (u : bytes) (magnitude : N) : option N :=
  if beq u [] && (magnitude =? 0) then Some 0
  else if beq u (bs "ms") then Some 1
  else if beq u (bs "s") then Some 1000
  else if beq u (bs "m") then Some 60000
  else if beq u (bs "h") then Some 3600000
  else if beq u (bs "d") then Some 86400000
  else None.
(** extensions.rs:238-265 *)
Definition parse_duration (v : bytes) : option N :=
  match to_str v with
  | None => None
  | Some s =>
      match split_last_digit (trim s) with
      | None => None
      | Some (m, u) =>
          match parse_uint u64_max m with
          | None => None
          | Some n =>
              match unit_ms u n with
              | None => None
              | Some mul => if n * mul <=? u64_max then Some (n * mul) else None
              end
          end
      end
  end.

(** `Iterator::filter_map` *)
Fixpoint filter_map {A B} (f : A -> option B) (l : list A) : list B :=
  match l with
  | [] => []
  | x :: l => match f x with Some y => y :: filter_map f l | None => filter_map f l end
  end.

(** extensions.rs:174-209 *)
Definition to_code (s : bytes) : option N :=
  match parse_uint u16_max s with
  | Some c => if (100 <=? c) && (c <? 600) then Some c else None
  | None => None
  end.
(** extensions.rs:174-209, one condition *)
Definition http_condition (cond : bytes) : option (N * N) :=
  if eq_ignore_case cond (bs "5xx") then Some (500, 599)
  else if eq_ignore_case cond (bs "gateway-error") then Some (502, 504)
  else match to_code cond with
       | Some c => Some (c, c)
       | None =>
           match split_once 45 cond with
           | Some (s, e) =>
               match to_code s, to_code e with
               | Some s, Some e => if s <=? e then Some (s, e) else None
               | _, _ => None
               end
           | None => None
           end
       end.
(** extensions.rs:174-209 *)
Definition parse_http_conditions (s : bytes) : list (N * N) := filter_map http_condition (split 44 s).

(** extensions.rs:211-234 *)
Definition grpc_condition (cond : bytes) : option N :=
  if eq_ignore_case cond (bs "cancelled") then Some 1
  else if eq_ignore_case cond (bs "deadline-exceeded") then Some 4
  else if eq_ignore_case cond (bs "internal") then Some 13
  else if eq_ignore_case cond (bs "resource-exhausted") then Some 8
  else if eq_ignore_case cond (bs "unavailable") then Some 14
  else None.
(** extensions.rs:211-234 *)
Definition parse_grpc_conditions (s : bytes) : list N := filter_map grpc_condition (split 44 s).

(** `Option::and_then` *)
Definition bind {A B} (x : option A) (f : A -> option B) : option B :=
  match x with Some a => f a | None => None end.
(** `Option::or` *)
Definition or {A} (x y : option A) : option A := match x with Some _ => x | None => y end.

(** extensions.rs:7-12; the timeouts are (request, response, idle). *)
Record params := Params {
  pa_retry : option policy; pa_request : option N; pa_response : option N; pa_idle : option N;
  pa_allow : bool
}.

(** extensions.rs:101 *)
Definition H_HTTP := bs "l5d-retry-http".
(** extensions.rs:104 *)
Definition H_GRPC := bs "l5d-retry-grpc".
(** extensions.rs:107 *)
Definition H_LIMIT := bs "l5d-retry-limit".
(** extensions.rs:109 *)
Definition H_RTIMEOUT := bs "l5d-retry-timeout".
(** extensions.rs:159 *)
Definition H_TIMEOUT := bs "l5d-timeout".
(** extensions.rs:162 *)
Definition H_REQUEST := bs "l5d-request-timeout".
(** extensions.rs:166 *)
Definition H_RESPONSE := bs "l5d-response-timeout".

(** `HeaderMap::remove` gives the first value. *)
Definition take_header (hs : headers) (n : bytes) : option bytes * headers := (hm_get hs n, hm_remove hs n).

(** extensions.rs:95-143 *)
Definition configure_retry (pa : params) (hs : headers) : option policy * headers :=
  if negb (pa_allow pa) then (pa_retry pa, hs)
  else
    let '(v, hs) := take_header hs H_HTTP in
    let http := bind v (fun v => option_map parse_http_conditions (to_str v)) in
    let '(v, hs) := take_header hs H_GRPC in
    let grpc := bind v (fun v => option_map parse_grpc_conditions (to_str v)) in
    let '(v, hs) := take_header hs H_LIMIT in
    let limit := bind v (fun v => bind (to_str v) (parse_uint u64_max)) in
    let '(v, hs) := take_header hs H_RTIMEOUT in
    let timeout := bind v parse_duration in
    match pa_retry pa with
    | Some r =>
        (Some (Policy (or timeout (p_timeout r)) (or http (p_http r)) (or grpc (p_grpc r))
                 (match limit with Some l => l | None => p_max_retries r end)
                 (p_max_bytes r) (p_backoff r)), hs)
    | None =>
        match http, grpc, limit, timeout with
        | None, None, None, None => (None, hs)
        | _, _, _, _ =>
            (Some (Policy timeout http grpc (match limit with Some l => l | None => 1 end)
                     65536 (Some (25, 250))), hs)
        end
    end.

(** extensions.rs:145-171 *)
Definition configure_timeouts (pa : params) (hs : headers) : timeouts * headers :=
  if negb (pa_allow pa) then (Timeouts None (pa_response pa) (pa_idle pa) (pa_request pa), hs)
  else
    let '(v, hs) := take_header hs H_TIMEOUT in
    let limit := or (bind v parse_duration) (pa_request pa) in
    let '(v, hs) := take_header hs H_REQUEST in
    let limit := or (bind v parse_duration) limit in
    let '(v, hs) := take_header hs H_RESPONSE in
    (Timeouts None (or (bind v parse_duration) (pa_response pa)) (pa_idle pa) limit, hs).

(** extensions.rs:67-91: the retry policy extension, the other extensions and the
    headers with which the request goes on. *)
Definition set_request_extensions (pa : params) (hs : headers) : option policy * ext * headers :=
  let '(retry, hs) := configure_retry pa hs in
  let '(t, hs) := configure_timeouts pa hs in
  (retry,
   Ext (Some 1) (Some (Timeouts (bind retry p_timeout) (to_end t) (to_idle t) (to_limit t))),
   hs).
