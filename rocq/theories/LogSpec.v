(** What C131 and C132 say, from the history of the requests alone. *)
From Coq Require Import String List NArith Bool.
From Verif Require Import Bytes FilterModel TraceModel TraceSpec Http1Model LogModel.
Import ListNotations.
Open Scope N_scope.

(** What began, in order *)
Record begun := Begun { b_conn : conn; b_now : bytes; b_asked : asked; b_start : N }.
Definition begins (h : list event) : list begun :=
  flat_map (fun e => match e with Begins c now q t => [Begun c now q t] | _ => [] end) h.
(** The polls of a request *)
Definition polls_of (i : nat) (h : list event) : list polled :=
  flat_map (fun e => match e with Polled j p => if Nat.eqb j i then [p] else [] | _ => [] end) h.
(** The requests whose futures were dropped, in that order *)
Definition drops (h : list event) : list nat :=
  flat_map (fun e => match e with Dropped i => [i] | _ => [] end) h.
(** The response, if there was one *)
Definition responses (ps : list polled) : list answered :=
  flat_map (fun p => match p_outcome p with Responded r => [r] | _ => [] end) ps.

(** An entry of the access log, as somebody reads it *)
Record entry := Entry {
  e_addr : bytes; e_id : option bytes; e_time : bytes; e_method : bytes; e_uri : bytes; e_version : bytes; e_status : option N }.
(** The entry that a request should have *)
Definition entry_of (b : begun) (ps : list polled) : entry :=
  Entry (c_addr (b_conn b)) (c_id (b_conn b)) (b_now b) (a_method (b_asked b)) (a_uri (b_asked b))
    (version_text (a_version (b_asked b))) (option_map s_status (hd_error (responses ps))).
(** The entries that the log should have, in order *)
Definition entries (h : list event) : list (option entry) :=
  map (fun i => option_map (fun b => entry_of b (polls_of i h)) (nth_error (begins h) i)) (drops h).

(** How a line is read: its words, without the brackets and the quotes *)
Definition read_id (s : bytes) : option bytes := if beq s (bs "-"%string) then None else Some s.
Definition unwrap (before after : bytes) (s : bytes) : option bytes :=
  match strip_prefix before s with Some s => strip_suffix after s | None => None end.
Definition read_words (l : list bytes) : option entry :=
  let read a i dash t m u v st :=
    match unwrap (bs "["%string) (bs "]"%string) t, unwrap [34] [] m, unwrap [] [34] v with
    | Some t, Some m, Some v => if beq dash (bs "-"%string) then Some (Entry a (read_id i) t m u v st) else None
    | _, _, _ => None
    end in
  match l with
  | [a; i; dash; t; m; u; v] => read a i dash t m u v None
  | [a; i; dash; t; m; u; v; st] => match parse_uint u64_max st with Some n => read a i dash t m u v (Some n) | None => None end
  | _ => None
  end.
(** How a log is read: lines that end with a newline *)
Definition read_log (s : bytes) : list (option entry) :=
  map (fun l => read_words (split 32 l)) (removelast (split 10 s)).

(** Texts without spaces and newlines, as those of addresses, names, times, methods and URIs are; and numbers that are a status *)
Definition word (s : bytes) : Prop := ~ In 32 s /\ ~ In 10 s.
Definition sound (e : event) : Prop :=
  match e with
  | Begins c now q _ =>
      word (c_addr c) /\ word now /\ word (a_method q) /\ word (a_uri q) /\
      (forall n, c_id c = Some n -> word n /\ n <> bs "-"%string)
  | Polled _ p => match p_outcome p with Responded r => s_status r < 1000 | _ => True end
  | Dropped _ => True
  end.

(** The value of a header as it is logged: nothing if it is absent or not ASCII *)
Inductive logged (hs : headers) (name : bytes) : bytes -> Prop :=
| l_text : forall v, first_value name hs v -> to_str v = Some v -> logged hs name v
| l_other : forall v, first_value name hs v -> to_str v = None -> logged hs name []
| l_absent : (forall v, ~ first_value name hs v) -> logged hs name [].
(** The header that a trace id is taken from *)
Definition absent (hs : headers) (name : bytes) : Prop := forall v, ~ first_value name hs v.
Inductive traced (hs : headers) : bytes -> Prop :=
| t_b3 : ~ absent hs (bs "x-b3-traceid"%string) -> traced hs (bs "x-b3-traceid"%string)
| t_request : absent hs (bs "x-b3-traceid"%string) -> ~ absent hs (bs "x-request-id"%string) -> traced hs (bs "x-request-id"%string)
| t_amzn : absent hs (bs "x-b3-traceid"%string) -> absent hs (bs "x-request-id"%string) -> traced hs (bs "x-amzn-trace-id"%string).
(** How long the polls took, and when the last was over *)
Definition busy (ps : list polled) : N := fold_right (fun p n => (p_to p - p_from p) + n) 0 ps.
Definition ended (ps : list polled) : N := last (map p_to ps) 0.
(** What the object of a request says *)
Inductive says (b : begun) (ps : list polled) : bytes -> value -> Prop :=
| s_addr : says b ps (bs "client.addr"%string) (Str (c_addr (b_conn b)))
| s_id : forall n, c_id (b_conn b) = Some n -> says b ps (bs "client.id"%string) (Str n)
| s_no_id : c_id (b_conn b) = None -> says b ps (bs "client.id"%string) (Str (bs "-"%string))
| s_time : says b ps (bs "timestamp"%string) (Str (b_now b))
| s_method : says b ps (bs "method"%string) (Str (a_method (b_asked b)))
| s_uri : says b ps (bs "uri"%string) (Str (a_uri (b_asked b)))
| s_version : says b ps (bs "version"%string) (Str (version_text (a_version (b_asked b))))
| s_trace : forall name v, traced (a_headers (b_asked b)) name -> logged (a_headers (b_asked b)) name v -> says b ps (bs "trace_id"%string) (Str v)
| s_request : forall v, logged (a_headers (b_asked b)) (bs "content-length"%string) v -> says b ps (bs "request_bytes"%string) (Str v)
| s_agent : forall v, logged (a_headers (b_asked b)) (bs "user-agent"%string) v -> says b ps (bs "user_agent"%string) (Str v)
| s_host : forall v, logged (a_headers (b_asked b)) (bs "host"%string) v -> says b ps (bs "host"%string) (Str v)
| s_code : forall r, In r (responses ps) -> says b ps (bs "status"%string) (Num (s_status r))
| s_response : forall r v, In r (responses ps) -> first_value (bs "content-length"%string) (s_headers r) v -> to_str v = Some v ->
    says b ps (bs "response_bytes"%string) (Str v)
| s_total : forall r, In r (responses ps) -> says b ps (bs "total_ns"%string) (Str (to_dec (ended ps - b_start b)))
| s_processing : forall r, In r (responses ps) -> says b ps (bs "processing_ns"%string) (Str (to_dec (busy ps))).
(** Time does not go back from poll to poll. *)
Fixpoint in_order (from : N) (ps : list polled) : Prop :=
  match ps with [] => True | p :: ps => from <= p_from p /\ p_from p <= p_to p /\ in_order (p_to p) ps end.
