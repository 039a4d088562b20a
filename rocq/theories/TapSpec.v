(** What C111-C113 say *)
From Coq Require Import List Arith NArith ZArith Bool.
From Verif Require Import Bytes AuthzModel AuthzSpec FilterModel TraceModel MtlsModel MtlsSpec TapModel.
Import ListNotations.
Open Scope N_scope.

(** ** Which requests a message selects *)

(** A port within the bounds; a bound that is 0 is not given, and the other one is then the port *)
Definition within (lo hi p : N) : Prop :=
  (lo <> 0 -> hi <> 0 -> lo <= p <= hi) /\ (lo = 0 -> p = hi) /\ (hi = 0 -> p = lo).
Definition means_tcp (t : w_tcp) (a : ip * N) : Prop :=
  match t with
  | W_ports lo hi => within lo hi (snd a)
  | W_netmask (Some (V4 n)) len => in_net (Net4 n len) (fst a)
  | W_netmask (Some (V6 n)) len => in_net (Net6 n len) (fst a)
  | W_netmask None _ => False
  end.
Definition means_string (m : string_match) (s : bytes) : Prop :=
  match m with Exact e => s = e | Prefix p => exists r, s = p ++ r end.
(** The scheme of a request; without one, it is http *)
Definition scheme_of (v : view) : scheme := match v_scheme v with Some s => s | None => Http end.
Definition means_scheme (s : w_scheme) (t : scheme) : Prop :=
  match s with
  | W_scheme_registered n => (n = 0%Z /\ t = Http) \/ (n = 1%Z /\ t = Https)
  | W_scheme_unregistered s =>
      (s = HTTP /\ t = Http) \/ (s = HTTPS /\ t = Https) \/
      (s <> HTTP /\ s <> HTTPS /\ exists o, t = Other o /\ lowers s = lowers o)
  end.
(** The authority of a request: that of its URI, else its first Host header if that is a text *)
Definition has_authority (v : view) (a : bytes) : Prop :=
  v_uri_authority v = Some a \/
  (v_uri_authority v = None /\ to_str a = Some a /\
   exists before after, v_headers v = before ++ (HOST, a) :: after /\ forall h, In h before -> fst h <> HOST).
Definition labelled (l : option (list (bytes * bytes))) (k v : bytes) : Prop :=
  exists ls, l = Some ls /\ In (k, v) ls.

Section Library.
Variable method_of : w_method -> option bytes.
Definition means_http (h : w_http) (v : view) : Prop :=
  match h with
  | W_scheme (Some s) => means_scheme s (scheme_of v)
  | W_method (Some m) => method_of m = Some (v_method v)
  | W_authority (Some m) => exists a, has_authority v a /\ means_string m a
  | W_path (Some m) => means_string m (v_path v)
  | _ => False
  end.
(** What a message says; parts of a sequence that say nothing do not count *)
Fixpoint means (w : wire) (v : view) : Prop :=
  match w with
  | W_all l => (fix all l := match l with [] => True | None :: l => all l | Some w :: l => means w v /\ all l end) l
  | W_any l => (fix any l := match l with [] => False | None :: l => any l | Some w :: l => means w v \/ any l end) l
  | W_not (Some w) => ~ means w v
  | W_not None => False
  | W_source t => exists t' a, t = Some t' /\ v_src v = Some a /\ means_tcp t' a
  | W_destination t => exists t' a, t = Some t' /\ v_dst v = Some a /\ means_tcp t' a
  | W_dst_label k x => labelled (v_dst_labels v) k x
  | W_route_label k x => labelled (v_route_labels v) k x
  | W_http h => exists h', h = Some h' /\ means_http h' v
  end.
End Library.

(** ** Which messages are right *)
Definition valid_tcp (t : w_tcp) : Prop :=
  match t with
  | W_ports lo hi => (lo <> 0 \/ hi <> 0) /\ lo < 2 ^ 16 /\ hi < 2 ^ 16 /\ (hi <> 0 -> lo <= hi)
  | W_netmask a len =>
      1 <= len /\ exists i, a = Some i /\ match i with V4 _ => len <= 32 | V6 _ => len <= 128 end
  end.
Section Library2.
Variable scheme_ok : bytes -> bool.
Variable method_of : w_method -> option bytes.
Definition valid_http (h : w_http) : Prop :=
  match h with
  | W_scheme (Some (W_scheme_registered n)) => n = 0%Z \/ n = 1%Z
  | W_scheme (Some (W_scheme_unregistered s)) => s = HTTP \/ s = HTTPS \/ scheme_ok s = true
  | W_method (Some m) => method_of m <> None
  | W_authority m => m <> None
  | W_path m => m <> None
  | _ => False
  end.
Fixpoint valid (w : wire) : Prop :=
  match w with
  | W_all l | W_any l =>
      (fix every l := match l with [] => True | None :: l => every l | Some w :: l => valid w /\ every l end) l
  | W_not (Some w) => valid w
  | W_not None => False
  | W_source t | W_destination t => exists t', t = Some t' /\ valid_tcp t'
  | W_dst_label k v | W_route_label k v => k <> [] /\ v <> []
  | W_http h => exists h', h = Some h' /\ valid_http h'
  end.
End Library2.

(** Addresses of 32 and of 128 bits *)
Definition tcp_wf (t : option w_tcp) : Prop :=
  match t with Some (W_netmask (Some i) _) => ip_wf i | _ => True end.
Fixpoint wire_wf (w : wire) : Prop :=
  match w with
  | W_all l | W_any l =>
      (fix every l := match l with [] => True | None :: l => every l | Some w :: l => wire_wf w /\ every l end) l
  | W_not (Some w) => wire_wf w
  | W_source t | W_destination t => tcp_wf t
  | _ => True
  end.
(** Addresses of the right size, labels with different names *)
Definition labels_wf (l : option (list (bytes * bytes))) : Prop :=
  match l with Some l => NoDup (map fst l) | None => True end.
Definition view_wf (v : view) : Prop :=
  (forall a, v_src v = Some a -> ip_wf (fst a)) /\ (forall a, v_dst v = Some a -> ip_wf (fst a)) /\
  labels_wf (v_dst_labels v) /\ labels_wf (v_route_labels v).

(** ** What a tap reports *)
Open Scope nat_scope.

Definition event_id (e : event) : nat :=
  match e with RequestInit i _ _ _ _ _ | ResponseInit i _ _ | ResponseEnd i _ _ => i end.
(** What is said of a request *)
Definition about (id : nat) (l : list event) : list event := filter (fun e => event_id e =? id) l.
(** The headers or trailers that an event shows *)
Definition shown (e : event) : option headers :=
  match e with RequestInit _ _ _ _ _ h | ResponseInit _ _ h | ResponseEnd _ _ h => h end.
Definition is_init (e : event) : Prop := match e with RequestInit _ _ _ _ _ _ => True | _ => False end.
Definition is_response (e : event) : Prop := match e with ResponseInit _ _ _ => True | _ => False end.
Definition is_end (e : event) : Prop := match e with ResponseEnd _ _ _ => True | _ => False end.
(** A request, then perhaps its response, then perhaps its end; each once *)
Definition in_order (l : list event) : Prop :=
  l = [] \/
  exists i r e, l = i :: r ++ e /\ is_init i /\
    (r = [] \/ exists x, r = [x] /\ is_response x) /\ (e = [] \/ exists x, e = [x] /\ is_end x).

(** The requests that a history has and that the tap selects *)
Fixpoint selected (m : match_) (l : list op) : list view :=
  match l with
  | [] => []
  | Request v :: l => if matches m v then v :: selected m l else selected m l
  | _ :: l => selected m l
  end.

(** What is to be reported of a request, given what happens once it has been reported: first of its body *)
Fixpoint ends (x : bool) (id : nat) (st : option N) (l : list op) : list event :=
  match l with
  | [] => []
  | Frame i (Data false) :: l => ends x id st l
  | Frame i f :: l =>
      if i =? id then
        [match f with
         | Body_error reason => ResponseEnd id (option_map Reset reason) None
         | Trailers hs =>
             ResponseEnd id (option_map Grpc_status (grpc_status hs)) (if x then Some hs else None)
         | _ => ResponseEnd id (option_map Grpc_status st) None
         end]
      else ends x id st l
  | Drop_body i :: l => if i =? id then [ResponseEnd id (option_map Grpc_status st) None] else ends x id st l
  | _ :: l => ends x id st l
  end.
(** then of its response *)
Fixpoint answers (x : bool) (id : nat) (l : list op) : list event :=
  match l with
  | [] => []
  | Respond i r :: l =>
      if i =? id then
        ResponseInit id (r_status r)
          (if x then Some ((if r_h2 r then [(P_STATUS, to_dec (r_status r))] else []) ++ r_headers r) else None)
        :: (if r_ended r then [ResponseEnd id (option_map Grpc_status (grpc_status (r_headers r))) None]
            else ends x id (grpc_status (r_headers r)) l)
      else answers x id l
  | Fail i reason :: l => if i =? id then [ResponseEnd id (option_map Reset reason) None] else answers x id l
  | Cancel i :: l => if i =? id then [] else answers x id l
  | _ :: l => answers x id l
  end.
(** and of the request itself *)
Definition asks (x : bool) (id : nat) (v : view) : event :=
  RequestInit id (v_method v) (v_scheme v) (or_empty (authority_of v)) (v_path v)
    (if x then
       Some ((if v_h2 v then
                [(P_METHOD, v_method v); (P_SCHEME, or_empty (option_map scheme_str (v_scheme v)));
                 (P_AUTHORITY, or_empty (authority_of v)); (P_PATH, or_empty (v_path_and_query v))]
              else []) ++ v_headers v)
     else None).

(** There is always room for two more events in the channel. *)
Definition roomy (t : tap) (l : list op) : Prop :=
  forall p q, l = p ++ q -> length (t_buffer (run t p)) + 2 <= CAPACITY.
