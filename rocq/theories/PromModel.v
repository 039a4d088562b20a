(** Model of the Prometheus metrics of HTTP streams: linkerd/http/prom/src (`status`, `record_response`, `count_reqs`,
    `body_data`, `stream_label`), linkerd/http/body-eos/src/lib.rs, and how outbound routes
    (linkerd/app/outbound/src/http/logical/policy/route/metrics.rs and metrics/labels.rs) and inbound routes
    (linkerd/app/inbound/src/http/router/metrics/status.rs) use them.

    Simplifications: an error is the chain of its causes, outermost first, as far as labels look at it; a family is a list
    of its series; a histogram is the list of what was observed; all that happens in one poll happens at one time. *)
From Coq Require Import String List NArith Bool.
From Verif Require Import Bytes NameModel FilterModel TraceModel.
Import ListNotations.
Open Scope N_scope.

(** ** Labels *)

(** h2::Error, as labels.rs:322-338 asks it: a stream was reset, with a reason; GOAWAY; an I/O error; anything else *)
Inductive h2_error := H2_reset (reason : option N) | H2_go_away | H2_io | H2_other.
(** The causes that labels.rs:281-343 looks for *)
Inductive cause :=
| C_fail_fast | C_load_shed
| C_redirect (status : N) | C_http_failure (status : N) | C_grpc_failure (code : N)
| C_headers_timeout | C_stream_timeout | C_deadline | C_idle
| C_h2 (e : h2_error)
| C_other.
(** linkerd_error::Error with its sources *)
Definition error := list cause.
(** labels.rs:40-55 *)
Inductive error_label :=
| FailFast | LoadShed | RequestTimeout | ResponseHeadersTimeout | ResponseStreamTimeout | IdleTimeout
| Cancel | Refused | EnhanceYourCalm | Reset | GoAway | Io | Unknown.

(** `errors::is_caused_by` and `errors::cause_ref` (linkerd/error/src/lib.rs): the first cause of a kind *)
Fixpoint cause_ref {A} (f : cause -> option A) (e : error) : option A :=
  match e with
  | [] => None
  | c :: e => match f c with Some a => Some a | None => cause_ref f e end
  end.
(** labels.rs:324-331, with the numbers of CANCEL, REFUSED_STREAM and ENHANCE_YOUR_CALM (RFC 9113, section 7) *)
Definition reset_label (reason : option N) : error_label :=
  match reason with
  | Some r => if r =? 8 then Cancel else if r =? 7 then Refused else if r =? 11 then EnhanceYourCalm else Reset
  | None => Reset
  end.
(** labels.rs:281-343: an error, or the status that a filter of the route answers with *)
Definition new_or_status (e : error) : error_label + N :=
  match cause_ref (fun c => match c with C_fail_fast => Some tt | _ => None end) e with
  | Some _ => inl FailFast
  | None =>
  match cause_ref (fun c => match c with C_load_shed => Some tt | _ => None end) e with
  | Some _ => inl LoadShed
  | None =>
  match cause_ref (fun c => match c with C_redirect s => Some s | _ => None end) e with
  | Some s => inr s
  | None =>
  match cause_ref (fun c => match c with C_http_failure s => Some s | _ => None end) e with
  | Some s => inr s
  | None =>
  match cause_ref (fun c => match c with C_grpc_failure s => Some s | _ => None end) e with
  | Some s => inr s
  | None =>
  match cause_ref (fun c => match c with C_headers_timeout => Some tt | _ => None end) e with
  | Some _ => inl ResponseHeadersTimeout
  | None =>
  match cause_ref (fun c => match c with C_stream_timeout => Some tt | _ => None end) e with
  | Some _ => inl ResponseStreamTimeout
  | None =>
  match cause_ref (fun c => match c with C_deadline => Some tt | _ => None end) e with
  | Some _ => inl RequestTimeout
  | None =>
  match cause_ref (fun c => match c with C_idle => Some tt | _ => None end) e with
  | Some _ => inl IdleTimeout
  | None =>
  match cause_ref (fun c => match c with C_h2 h => Some h | _ => None end) e with
  | Some (H2_reset r) => inl (reset_label r)
  | Some H2_go_away => inl GoAway
  | Some H2_io => inl Io
  | Some H2_other | None => inl Unknown
  end end end end end end end end end end.

(** labels.rs:28-38: the labels of a response, a status and an error; inbound (metrics/status.rs:32-38) only the status *)
Record rsp_labels := Labels { l_status : option N; l_error : option error_label }.
(** labels.rs:155-167 and 217-229: the left side first *)
Definition apply (l : rsp_labels) (r : option rsp_labels) : rsp_labels :=
  match r with
  | None => l
  | Some r => Labels (match l_status l with Some s => Some s | None => l_status r end)
                     (match l_error l with Some x => Some x | None => l_error r end)
  end.
(** labels.rs:181-191, with `StatusCode::from_u16` of the crate http *)
Definition http_of_error (e : error) : rsp_labels :=
  match new_or_status e with
  | inl x => Labels None (Some x)
  | inr s => if (100 <=? s) && (s <? 1000) then Labels (Some s) None else Labels None (Some Unknown)
  end.
(** `tonic::Code::from_i32` *)
Definition code_of (n : N) : N := if n <=? 16 then n else 2.
(** labels.rs:266-276 *)
Definition grpc_of_error (e : error) : rsp_labels :=
  match new_or_status e with
  | inl x => Labels None (Some x)
  | inr s => Labels (Some (code_of s)) None
  end.

(** `tonic::Code::from_bytes` *)
Definition code_from_bytes (v : bytes) : N :=
  match v with
  | [a] => if (48 <=? a) && (a <=? 57) then a - 48 else 2
  | [a; b] => if (a =? 49) && (48 <=? b) && (b <=? 54) then 10 + (b - 48) else 2
  | _ => 2
  end.
(** stream_label/status.rs:73-80 *)
Definition get_grpc_status (hs : headers) : option N :=
  option_map code_from_bytes (hm_get hs (bs "grpc-status"%string)).

(** The labelers: metrics.rs:43-60 (outbound) and metrics/status.rs:54-63 (inbound) *)
Inductive labeler := Out_http | Out_grpc | In_http | In_grpc.
(** stream_label/status.rs:16-36 and stream_label/error.rs:6-10: the status or code that was seen, and the labels of an error *)
Record seen := Seen { n_status : option N; n_error : option rsp_labels }.
(** How a stream ended, as `end_response` learns of it: EosRef (body-eos/src/lib.rs:26-32); [Cancelled] is the error of
    record_response.rs:32-34 *)
Inductive ending := Plain | Trailers_were (t : headers) | Broken (e : error) | Cancelled.

(** metrics.rs:316-324 and 381-389, and stream_label/status.rs:45-47 and 89-91: nothing is seen at first *)
Definition unseen : seen := Seen None None.
(** stream_label/status.rs:56-59 and 100-102, stream_label/error.rs:22 *)
Definition init_response (k : labeler) (n : seen) (status : N) (hs : headers) : seen :=
  match k with
  | Out_http | In_http => Seen (Some status) (n_error n)
  | Out_grpc | In_grpc => Seen (get_grpc_status hs) (n_error n)
  end.
(** record_response.rs:266-271 and status.rs:260-269: RequestCancelled is none of the causes that labels know. *)
Definition error_of (e : ending) : option error :=
  match e with Plain | Trailers_were _ => None | Broken e => Some e | Cancelled => Some [C_other] end.
(** stream_label/status.rs:61-64 and 104, stream_label/error.rs:24-28 *)
Definition end_response (k : labeler) (n : seen) (e : ending) : seen :=
  let status := match k, e with
                | (Out_grpc | In_grpc), Trailers_were t => get_grpc_status t
                | _, _ => n_status n
                end in
  let error := match k, error_of e with
               | Out_http, Some e => Some (http_of_error e)
               | Out_grpc, Some e => Some (grpc_of_error e)
               | _, _ => n_error n
               end in
  Seen status error.
(** metrics.rs:360-372 and 425-437; metrics/status.rs:200-213 *)
Definition status_labels (n : seen) : rsp_labels :=
  apply (apply (Labels None None) (option_map (fun s => Labels (Some s) None) (n_status n))) (n_error n).

(** labels.rs:60-70 with route.rs:197-204: the host of the request, if the route exports it and it is a name *)
Definition hostname (export : bool) (host : option bytes) : option bytes :=
  if export
  then match host with
       | Some h => name_from_str h
       | None => None
       end
  else None.

(** labels.rs:236-257 *)
Definition code_text (c : N) : bytes :=
  match c with
  | 0 => bs "OK"%string | 1 => bs "CANCELLED"%string | 3 => bs "INVALID_ARGUMENT"%string
  | 4 => bs "DEADLINE_EXCEEDED"%string | 5 => bs "NOT_FOUND"%string | 6 => bs "ALREADY_EXISTS"%string
  | 7 => bs "PERMISSION_DENIED"%string | 8 => bs "RESOURCE_EXHAUSTED"%string | 9 => bs "FAILED_PRECONDITION"%string
  | 10 => bs "ABORTED"%string | 11 => bs "OUT_OF_RANGE"%string | 12 => bs "UNIMPLEMENTED"%string
  | 13 => bs "INTERNAL"%string | 14 => bs "UNAVAILABLE"%string | 15 => bs "DATA_LOSS"%string
  | 16 => bs "UNAUTHENTICATED"%string | _ => bs "UNKNOWN"%string
  end.
(** labels.rs:345-364 *)
Definition error_text (x : error_label) : bytes :=
  match x with
  | FailFast => bs "FAIL_FAST"%string | LoadShed => bs "LOAD_SHED"%string | RequestTimeout => bs "REQUEST_TIMEOUT"%string
  | ResponseHeadersTimeout => bs "RESPONSE_HEADERS_TIMEOUT"%string
  | ResponseStreamTimeout => bs "RESPONSE_STREAM_TIMEOUT"%string | IdleTimeout => bs "IDLE_TIMEOUT"%string
  | Cancel => bs "CANCEL"%string | Refused => bs "REFUSED"%string | EnhanceYourCalm => bs "ENHANCE_YOUR_CALM"%string
  | Reset => bs "RESET"%string | GoAway => bs "GO_AWAY"%string | Io => bs "IO"%string | Unknown => bs "UNKNOWN"%string
  end.
Section Text.
(** `u16`'s decimal text; the crate prometheus-client writes [None] as an empty value. *)
Variable decimal : N -> bytes.
(** labels.rs:170-179 and 232-264, metrics/status.rs:137-146: the text of the labels of a response *)
Definition encode (k : labeler) (l : rsp_labels) : bytes * bytes :=
  (match k with
   | Out_http | In_http | In_grpc => match l_status l with Some s => decimal s | None => [] end
   | Out_grpc => code_text (match l_status l with Some s => s | None => 2 end)
   end,
   match l_error l with Some x => error_text x | None => [] end).
End Text.

(** ** Streams *)

(** The layers that record the end of a stream: [L_status] counts (status.rs), the others observe durations
    (record_response/request.rs and response.rs) *)
Inductive layer := L_status | L_request_duration | L_response_duration.
(** The layers of a route, from the inside: metrics.rs:120-127 *)
Definition route_stack : list layer := [L_request_duration; L_status].
(** Of a route's backend: route/backend/metrics.rs:58-68 *)
Definition backend_stack : list layer := [L_response_duration; L_status].
(** Of the inbound proxy: app/inbound/src/http/router/metrics.rs:64-68 *)
Definition inbound_stack : list layer := [L_status; L_request_duration; L_response_duration].

(** What a poll of a body gives *)
Inductive frame := Data (size : N) | Trailers (t : headers) | Failed (e : error) | End.

(** The labels of a route or a backend: a number for all but the name of the host (labels.rs:7-15) *)
Definition parent := (N * option bytes)%type.
(** What the response of a stream is: not there yet; a body, with each layer that has its state still
    (record_response.rs:69-79, body-eos/src/lib.rs:14-24); or gone *)
Inductive response := Waiting | Open (layers : list bool) | Gone.
(** A stream: its labels; when it was called; when its request was flushed (response.rs:26-32); whether that body is
    there still; what its labelers have seen.  All the layers' labelers see the same. *)
Record stream := Stream {
  s_parent : parent; s_kind : labeler; s_called : N; s_flushed : option N; s_sending : bool;
  s_seen : seen; s_response : response }.
(** The families, with what was observed in the order of time.  Which ones are there depends on the stack: requests are
    counted and frames of responses observed for backends and inbound, frames of requests for routes and inbound. *)
Record metrics := Metrics {
  m_requests : list ((parent * labeler) * N);
  m_statuses : list ((parent * labeler * rsp_labels) * N);
  m_request_seconds : list ((parent * labeler) * N);
  m_response_seconds : list ((parent * labeler) * N);
  m_request_frames : list ((parent * labeler) * N);
  m_response_frames : list ((parent * labeler) * N) }.
(** All of it, and the time *)
Record state := State { t_now : N; t_streams : list stream; t_metrics : metrics }.

(** `Family::get_or_create` and `Counter::inc` of the crate prometheus-client; counters are u64 and wrap *)
Fixpoint inc {K} (eqb : K -> K -> bool) (k : K) (l : list (K * N)) : list (K * N) :=
  match l with
  | [] => [(k, 1)]
  | (j, n) :: l => if eqb j k then (j, (n + 1) mod 2 ^ 64) :: l else (j, n) :: inc eqb k l
  end.
(** `Option<_>: PartialEq` *)
Definition option_eqb {A} (eqb : A -> A -> bool) (a b : option A) : bool :=
  match a, b with Some a, Some b => eqb a b | None, None => true | _, _ => false end.
(** `derive(PartialEq)`: labels.rs:40-55 *)
Definition error_label_eqb (a b : error_label) : bool := beq (error_text a) (error_text b).
(** `derive(PartialEq)`: labels.rs:28-38 *)
Definition labels_eqb (a b : rsp_labels) : bool :=
  option_eqb N.eqb (l_status a) (l_status b) && option_eqb error_label_eqb (l_error a) (l_error b).
(** Which family: outbound or inbound, HTTP or gRPC (metrics.rs:40-41, metrics/status.rs:26-30 and 83-90) *)
Definition labeler_eqb (a b : labeler) : bool :=
  match a, b with Out_http, Out_http | Out_grpc, Out_grpc | In_http, In_http | In_grpc, In_grpc => true | _, _ => false end.
(** `derive(PartialEq)`: labels.rs:7-15 *)
Definition parent_eqb (a b : parent * labeler) : bool :=
  (fst (fst a) =? fst (fst b)) && option_eqb beq (snd (fst a)) (snd (fst b)) && labeler_eqb (snd a) (snd b).
(** `derive(PartialEq)`: labels.rs:17-18 *)
Definition key_eqb (a b : parent * labeler * rsp_labels) : bool := parent_eqb (fst a) (fst b) && labels_eqb (snd a) (snd b).

(** One layer when its body is polled: record_response.rs:228-251 and body-eos/src/lib.rs:59-78 and 89-110.  [ended]: the
    inner body's `is_end_stream` afterwards.  Whether the layer's state stays, and how the stream has ended *)
Definition layer_poll (is_open : bool) (f : frame) (ended : bool) : bool * option ending :=
  if is_open
  then match f with
       | Trailers t => (false, Some (Trailers_were t))
       | Failed e => (false, Some (Broken e))
       | End => (false, Some Plain)
       | Data _ => if ended then (false, Some Plain) else (true, None)
       end
  else (false, None).
(** One layer when its body is made: record_response.rs:196-209 and body-eos/src/lib.rs:42-56 *)
Definition layer_new (is_open ended : bool) : bool * option ending := if ended then (false, Some Plain) else (true, None).
(** `is_end_stream` of both: record_response.rs:253-257 and body-eos/src/lib.rs:112-116 *)
Definition layer_ended (is_open : bool) : bool := negb is_open.
(** One layer when its body is dropped: record_response.rs:266-271 and body-eos/src/lib.rs:125-131 *)
Definition layer_drop (is_open : bool) : bool * option ending := (false, if is_open then Some Cancelled else None).

(** The layers from the inside, each with the `is_end_stream` of the one beneath: what each becomes, and records *)
Fixpoint each (f : bool -> bool -> bool * option ending) (open : list bool) (ended : bool) : list (bool * option ending) :=
  match open with
  | [] => []
  | o :: open => let r := f o ended in r :: each f open (layer_ended (fst r))
  end.

(** What a layer does at the end of a stream: status.rs:260-274 and record_response.rs:274-300; the start of a response's
    duration is when the request was flushed, if it was (record_response.rs:87-105) *)
Definition record (now : N) (s : stream) (n : seen) (l : layer) (m : metrics) : metrics :=
  let key := (s_parent s, s_kind s) in
  match l with
  | L_status =>
      Metrics (m_requests m) (inc key_eqb (key, status_labels n) (m_statuses m)) (m_request_seconds m) (m_response_seconds m)
        (m_request_frames m) (m_response_frames m)
  | L_request_duration =>
      Metrics (m_requests m) (m_statuses m) (m_request_seconds m ++ [(key, now - s_called s)]) (m_response_seconds m)
        (m_request_frames m) (m_response_frames m)
  | L_response_duration =>
      Metrics (m_requests m) (m_statuses m) (m_request_seconds m)
        (m_response_seconds m ++ [(key, match s_flushed s with Some t => now - t | None => 0 end)])
        (m_request_frames m) (m_response_frames m)
  end.
(** What the layers of a stack record in one step *)
Fixpoint record_all (now : N) (s : stream) (ls : list layer) (rs : list (bool * option ending)) (m : metrics) : metrics :=
  match ls, rs with
  | l :: ls, (_, Some e) :: rs => record_all now s ls rs (record now s (end_response (s_kind s) (s_seen s) e) l m)
  | _ :: ls, (_, None) :: rs => record_all now s ls rs m
  | _, _ => m
  end.
(** The stream with another response *)
Definition with_response (s : stream) (n : seen) (r : response) : stream :=
  Stream (s_parent s) (s_kind s) (s_called s) (s_flushed s) (s_sending s) n r.
(** response.rs:119-131 and 139-145: only the first time is sent *)
Definition flush (now : N) (sending : bool) (s : stream) : stream :=
  Stream (s_parent s) (s_kind s) (s_called s) (match s_flushed s with Some t => Some t | None => Some now end)
    sending (s_seen s) (s_response s).
(** body_data/body.rs:37-59 *)
Definition observe (key : parent * labeler) (f : frame) (l : list ((parent * labeler) * N)) : list ((parent * labeler) * N) :=
  match f with Data n => l ++ [(key, n)] | _ => l end.
(** The streams with another one in its place *)
Fixpoint put (i : nat) (s : stream) (l : list stream) : list stream :=
  match l, i with
  | [], _ => []
  | _ :: l, O => s :: l
  | r :: l, S i => r :: put i s l
  end.

(** What may happen to the streams, which are numbered as they are called: a request, with its host; its body gives a
    frame, with its `is_end_stream` afterwards, or is dropped; the response comes, with its `is_end_stream`; the future of
    the response fails or is dropped; the response's body gives a frame or is dropped; and time passes. *)
Inductive event :=
| Called (ref : N) (k : labeler) (host : option bytes)
| Sent (id : nat) (f : frame) (ended : bool)
| Sent_dropped (id : nat)
| Responded (id : nat) (status : N) (hs : headers) (ended : bool)
| Refused_with (id : nat) (e : error)
| Abandoned (id : nat)
| Polled (id : nat) (f : frame) (ended : bool)
| Dropped (id : nat)
| Passed (t : N).

Section Streams.
(** The layers, and whether names of hosts are exported (only by routes: route.rs:187 and 200; backend.rs:157-164;
    app/inbound/src/http/router/metrics/labels.rs) *)
Variable stack : list layer.
Variable export : bool.

(** One step; [None]: it cannot happen *)
Definition step (st : state) (e : event) : option state :=
  let '(State now streams m) := st in
  match e with
  (* count_reqs.rs:91-95, status.rs:181-201, request.rs:82-95 and response.rs:84-107 *)
  | Called ref k host =>
      let p := (ref, hostname export host) in
      Some (State now (streams ++ [Stream p k now None true unseen Waiting])
              (Metrics (inc parent_eqb (p, k) (m_requests m)) (m_statuses m) (m_request_seconds m) (m_response_seconds m)
                 (m_request_frames m) (m_response_frames m)))
  (* response.rs:119-131 and body_data/body.rs:37-59 *)
  | Sent id f ended =>
      match nth_error streams id with
      | Some s =>
          if s_sending s
          then Some (State now (put id (if ended then flush now true s else s) streams)
                       (Metrics (m_requests m) (m_statuses m) (m_request_seconds m) (m_response_seconds m)
                          (observe (s_parent s, s_kind s) f (m_request_frames m)) (m_response_frames m)))
          else None
      | None => None
      end
  (* response.rs:138-146 *)
  | Sent_dropped id =>
      match nth_error streams id with
      | Some s => if s_sending s then Some (State now (put id (flush now false s) streams) m) else None
      | None => None
      end
  (* record_response.rs:196-209 and status.rs:233-241 *)
  | Responded id status hs ended =>
      match nth_error streams id with
      | Some s =>
          match s_response s with
          | Waiting =>
              let rs := each layer_new (map (fun _ => true) stack) ended in
              let s := with_response s (init_response (s_kind s) (s_seen s) status hs) (Open (map fst rs)) in
              Some (State now (put id s streams) (record_all now s stack rs m))
          | _ => None
          end
      | None => None
      end
  (* record_response.rs:210-213 and status.rs:242-246 *)
  | Refused_with id x =>
      match nth_error streams id with
      | Some s =>
          match s_response s with
          | Waiting => Some (State now (put id (with_response s (s_seen s) Gone) streams)
                               (record_all now s stack (map (fun _ => (false, Some (Broken x))) stack) m))
          | _ => None
          end
      | None => None
      end
  (* Neither future does anything when it is dropped: record_response.rs:59-67 and status.rs:50-69. *)
  | Abandoned id =>
      match nth_error streams id with
      | Some s => match s_response s with
                  | Waiting => Some (State now (put id (with_response s (s_seen s) Gone) streams) m)
                  | _ => None
                  end
      | None => None
      end
  (* record_response.rs:228-251, body-eos/src/lib.rs:89-110 and body_data/body.rs:37-59 *)
  | Polled id f ended =>
      match nth_error streams id with
      | Some s =>
          match s_response s with
          | Open open =>
              let rs := each (fun o e => layer_poll o f e) open ended in
              let m := Metrics (m_requests m) (m_statuses m) (m_request_seconds m) (m_response_seconds m)
                         (m_request_frames m) (observe (s_parent s, s_kind s) f (m_response_frames m)) in
              Some (State now (put id (with_response s (s_seen s) (Open (map fst rs))) streams) (record_all now s stack rs m))
          | _ => None
          end
      | None => None
      end
  (* record_response.rs:260-272 and body-eos/src/lib.rs:119-132 *)
  | Dropped id =>
      match nth_error streams id with
      | Some s =>
          match s_response s with
          | Open open => Some (State now (put id (with_response s (s_seen s) Gone) streams)
                                 (record_all now s stack (map layer_drop open) m))
          | _ => None
          end
      | None => None
      end
  | Passed t => Some (State (now + t) streams m)
  end.
(** A history *)
Fixpoint run (st : state) (es : list event) : option state :=
  match es with
  | [] => Some st
  | e :: es => match step st e with Some st => run st es | None => None end
  end.
(** At first: status.rs:279-288 and the like *)
Definition init : state := State 0 [] (Metrics [] [] [] [] [] []).
(** `is_end_stream` of the outermost body *)
Definition reports_end (s : stream) : option bool :=
  match s_response s with Open open => Some (match rev open with o :: _ => layer_ended o | [] => false end) | _ => None end.
End Streams.
