(** Specification of the metrics of HTTP streams (C118, C119), in terms of what happens to the streams *)
From Coq Require Import String List NArith Bool.
From Verif Require Import Bytes FilterModel PromModel.
Import ListNotations.
Open Scope N_scope.

(** ** Labels (C118) *)

(** How much each cause of an error says, the least number first, and what it says *)
Definition says (c : cause) : option (nat * (error_label + N)) :=
  match c with
  | C_fail_fast => Some (1%nat, inl FailFast)
  | C_load_shed => Some (2%nat, inl LoadShed)
  | C_redirect s => Some (3%nat, inr s)
  | C_http_failure s => Some (4%nat, inr s)
  | C_grpc_failure s => Some (5%nat, inr s)
  | C_headers_timeout => Some (6%nat, inl ResponseHeadersTimeout)
  | C_stream_timeout => Some (7%nat, inl ResponseStreamTimeout)
  | C_deadline => Some (8%nat, inl RequestTimeout)
  | C_idle => Some (9%nat, inl IdleTimeout)
  | C_h2 (H2_reset (Some 7)) => Some (10%nat, inl Refused)
  | C_h2 (H2_reset (Some 8)) => Some (10%nat, inl Cancel)
  | C_h2 (H2_reset (Some 11)) => Some (10%nat, inl EnhanceYourCalm)
  | C_h2 (H2_reset _) => Some (10%nat, inl Reset)
  | C_h2 H2_go_away => Some (10%nat, inl GoAway)
  | C_h2 H2_io => Some (10%nat, inl Io)
  | C_h2 H2_other => Some (10%nat, inl Unknown)
  | C_other => None
  end.
(** [v] is what the cause says that says most; among equals, the outermost *)
Definition verdict (e : error) (v : error_label + N) : Prop :=
  (v = inl Unknown /\ forall c, In c e -> says c = None) \/
  exists outer c inner rank, e = outer ++ c :: inner /\ says c = Some (rank, v) /\
    (forall d r w, In d outer -> says d = Some (r, w) -> (rank < r)%nat) /\
    (forall d r w, In d inner -> says d = Some (r, w) -> (rank <= r)%nat).

(** The text of a gRPC code in a header *)
Definition code_header (c : N) (v : bytes) : Prop :=
  (c < 10 /\ v = [48 + c]) \/ (10 <= c <= 16 /\ v = [49; 48 + (c - 10)]).
(** The code of some headers or trailers: none without the header (of which the first counts), UNKNOWN if it is not one *)
Definition grpc_code (hs : headers) (c : option N) : Prop :=
  match find (fun h => beq (fst h) (bs "grpc-status"%string)) hs with
  | None => c = None
  | Some (_, v) => exists n, c = Some n /\ (code_header n v \/ (n = 2 /\ forall m, ~ code_header m v))
  end.

(** How a stream with such a response, if any, that ended so, is to be labelled.  An error is what ended it, and a
    response that was dropped has an error that nothing is known of. *)
Definition has_error (x : ending) (e : error) : Prop :=
  match x with Broken e' => e = e' | Cancelled => e = [C_other] | _ => False end.
(** HTTP: the response's status; without one, that of the filter that answered.  The error's label, unless it is a
    filter's answer. *)
Definition http_labels (status : option N) (x : ending) (l : rsp_labels) : Prop :=
  ((forall e, ~ has_error x e) /\ l = Labels status None) \/
  exists e v, has_error x e /\ verdict e v /\
    match v with
    | inl label => l = Labels status (Some label)
    | inr code =>
        if (100 <=? code) && (code <=? 999)
        then l = Labels (match status with Some s => Some s | None => Some code end) None
        else l = Labels status (Some Unknown)
    end.
(** gRPC: the code of the trailers if there are any, else of the headers; without one, that of the filter that answered *)
Definition grpc_labels (hs : option headers) (x : ending) (l : rsp_labels) : Prop :=
  exists code,
    match x, hs with
    | Trailers_were t, _ => grpc_code t code
    | _, Some hs => grpc_code hs code
    | _, None => code = None
    end /\
    (((forall e, ~ has_error x e) /\ l = Labels code None) \/
     exists e v, has_error x e /\ verdict e v /\
       match v with
       | inl label => l = Labels code (Some label)
       | inr n => l = Labels (match code with Some s => Some s | None => Some (if n <=? 16 then n else 2) end) None
       end).
(** For each of the four kinds; inbound, errors are not labelled *)
Definition labelled (k : labeler) (rsp : option (N * headers)) (x : ending) (l : rsp_labels) : Prop :=
  match k with
  | Out_http => http_labels (option_map fst rsp) x l
  | Out_grpc => grpc_labels (option_map snd rsp) x l
  | In_http => l = Labels (option_map fst rsp) None
  | In_grpc => l_error l = None /\
               match x, rsp with
               | Trailers_were t, _ => grpc_code t (l_status l)
               | _, Some (_, hs) => grpc_code hs (l_status l)
               | _, None => l_status l = None
               end
  end.

(** ** Histories (C119) *)

(** The time that an event takes, and the time of a history *)
Definition passed (e : event) : N := match e with Passed t => t | _ => 0 end.
Fixpoint elapsed (es : list event) : N := match es with [] => 0 | e :: es => passed e + elapsed es end.
(** The first event of a kind: its time, and what it tells *)
Fixpoint first {A} (f : event -> option A) (now : N) (es : list event) : option (N * A) :=
  match es with
  | [] => None
  | e :: es => match f e with Some a => Some (now, a) | None => first f (now + passed e) es end
  end.
(** What comes before it *)
Fixpoint before {A} (f : event -> option A) (es : list event) : list event :=
  match es with
  | [] => []
  | e :: es => match f e with Some _ => [] | None => e :: before f es end
  end.

(** The requests, with their time *)
Fixpoint calls (now : N) (es : list event) : list (N * N * labeler * option bytes) :=
  match es with
  | [] => []
  | Called ref k host :: es => (now, ref, k, host) :: calls now es
  | e :: es => calls (now + passed e) es
  end.
(** Which events end the stream [id]: the body's last frame, an error, or that the response is dropped *)
Definition ends (id : nat) (e : event) : option ending :=
  match e with
  | Responded i _ _ true => if Nat.eqb i id then Some Plain else None
  | Refused_with i x => if Nat.eqb i id then Some (Broken x) else None
  | Polled i (Data _) true => if Nat.eqb i id then Some Plain else None
  | Polled i (Data _) false => None
  | Polled i (Trailers t) _ => if Nat.eqb i id then Some (Trailers_were t) else None
  | Polled i (Failed x) _ => if Nat.eqb i id then Some (Broken x) else None
  | Polled i End _ => if Nat.eqb i id then Some Plain else None
  | Dropped i => if Nat.eqb i id then Some Cancelled else None
  | _ => None
  end.
(** Which events are its response *)
Definition answers (id : nat) (e : event) : option (N * headers) :=
  match e with Responded i status hs _ => if Nat.eqb i id then Some (status, hs) else None | _ => None end.
(** Which events flush its request: the body's end, or that it is dropped *)
Definition flushes (id : nat) (e : event) : option unit :=
  match e with
  | Sent i _ true => if Nat.eqb i id then Some tt else None
  | Sent_dropped i => if Nat.eqb i id then Some tt else None
  | _ => None
  end.


(** The stream [id], with these labels, has ended at time [t] as [x], and was called at time [start] *)
Definition over (export : bool) (es : list event) (id : nat) (p : parent) (k : labeler) (start t : N) (x : ending) : Prop :=
  exists host, nth_error (calls 0 es) id = Some (start, fst p, k, host) /\ snd p = hostname export host /\
    first (ends id) 0 es = Some (t, x).
(** It is counted with these labels *)
Definition counted (export : bool) (es : list event) (id : nat) (key : parent * labeler * rsp_labels) : Prop :=
  let '(p, k, l) := key in
  exists start t x, over export es id p k start t x /\
    labelled k (option_map snd (first (answers id) 0 es)) x l.
(** The duration of its request *)
Definition took (export : bool) (es : list event) (id : nat) (o : (parent * labeler) * N) : Prop :=
  let '((p, k), d) := o in exists start t x, over export es id p k start t x /\ start <= t /\ d = t - start.
(** The duration of its response: from when its request was flushed; none if it was not by then *)
Definition answered_in (export : bool) (es : list event) (id : nat) (o : (parent * labeler) * N) : Prop :=
  let '((p, k), d) := o in exists start t x, over export es id p k start t x /\
    match first (flushes id) 0 (before (ends id) es) with
    | Some (flushed, _) => flushed <= t /\ d = t - flushed
    | None => d = 0
    end.
(** The value of a counter *)
Definition value {K} (eqb : K -> K -> bool) (k : K) (l : list (K * N)) : N :=
  match find (fun x => eqb (fst x) k) l with Some (_, n) => n | None => 0 end.
(** [n] is how many there are, as a u64 counts *)
Definition how_many {A} (P : A -> Prop) (n : N) : Prop :=
  exists l, NoDup l /\ (forall a, In a l <-> P a) /\ n = N.of_nat (List.length l) mod 2 ^ 64.
(** [l] has one observation for each *)
Definition one_each {A B} (P : A -> Prop) (R : A -> B -> Prop) (l : list B) : Prop :=
  exists ids, NoDup ids /\ (forall a, In a ids <-> P a) /\ Forall2 R ids l.
(** The sizes of the frames, in order *)
Definition sizes (sent : bool) (es : list event) : list (nat * N) :=
  flat_map (fun e => match e with
                     | Sent id (Data n) _ => if sent then [(id, n)] else []
                     | Polled id (Data n) _ => if sent then [] else [(id, n)]
                     | _ => [] end) es.
(** The labels of a stream *)
Definition labels_of (export : bool) (es : list event) (id : nat) (key : parent * labeler) : Prop :=
  exists start host, nth_error (calls 0 es) id = Some (start, fst (fst key), snd key, host) /\ snd (fst key) = hostname export host.
