(** What C29, C30 and C32 say *)
From Coq Require Import List NArith Bool.
From Verif Require Import Bytes RouteModel FilterModel AuthzModel AuthzSpec PolicyModel.
Import ListNotations.

(** The authorizations of connections *)
Definition tcp_authorizations (p : protocol) : list authorization :=
  match p with Detect _ _ l | Tls l | Opaque l => l | _ => [] end.
Definition allows (p : protocol) (client : ip) (t : tls) : Prop := authorized (tcp_authorizations p) client t.
Definition wf (p : protocol) : Prop := forall a, In a (tcp_authorizations p) -> authz_wf a.

(** The policy in force after a log, from [p] *)
Definition in_force (p : protocol) (l : list seen_) : protocol :=
  fold_left (fun p e => match e with Published q => q | _ => p end) l p.
(** The connection was started and is not over. *)
Definition in_progress (l : list seen_) : Prop := In Started l /\ ~ In Finished l /\ ~ In Terminated l.

(** What the filters do, one after the other *)
Inductive http_filtered (pq_valid : bytes -> bool) (draw : nat -> bool) (u : uri) (rm : request_match)
  : nat -> list http_filter -> headers -> headers + response -> Prop :=
| hf_done : forall n hs, http_filtered pq_valid draw u rm n [] hs (inl hs)
| hf_fail : forall n s m fs hs, draw n = true ->
    http_filtered pq_valid draw u rm n (F_inject s m :: fs) hs (inr (R_http_failure s m))
| hf_no_fail : forall n s m fs hs r, draw n = false -> http_filtered pq_valid draw u rm (S n) fs hs r ->
    http_filtered pq_valid draw u rm n (F_inject s m :: fs) hs r
| hf_redirect : forall n rd x fs hs, redirect_apply pq_valid rd u rm = ROk (Some x) ->
    http_filtered pq_valid draw u rm n (F_redirect rd :: fs) hs (inr (R_redirect x))
| hf_bad_redirect : forall n rd e fs hs, redirect_apply pq_valid rd u rm = RErr e ->
    http_filtered pq_valid draw u rm n (F_redirect rd :: fs) hs (inr (R_bad_redirect e))
| hf_panic : forall n rd fs hs, redirect_apply pq_valid rd u rm = RPanic ->
    http_filtered pq_valid draw u rm n (F_redirect rd :: fs) hs (inr R_panic)
| hf_no_redirect : forall n rd fs hs r, redirect_apply pq_valid rd u rm = ROk None ->
    http_filtered pq_valid draw u rm n fs hs r -> http_filtered pq_valid draw u rm n (F_redirect rd :: fs) hs r
| hf_headers : forall n m fs hs r, http_filtered pq_valid draw u rm n fs (modify_apply m hs) r ->
    http_filtered pq_valid draw u rm n (F_headers m :: fs) hs r
| hf_internal : forall n m fs hs, http_filtered pq_valid draw u rm n (F_internal m :: fs) hs (inr R_invalid_policy).
Inductive grpc_filtered (draw : nat -> bool) : nat -> list grpc_filter -> headers -> headers + response -> Prop :=
| gf_done : forall n hs, grpc_filtered draw n [] hs (inl hs)
| gf_fail : forall n c m fs hs, draw n = true -> grpc_filtered draw n (G_inject c m :: fs) hs (inr (R_grpc_failure c m))
| gf_no_fail : forall n c m fs hs r, draw n = false -> grpc_filtered draw (S n) fs hs r ->
    grpc_filtered draw n (G_inject c m :: fs) hs r
| gf_headers : forall n m fs hs r, grpc_filtered draw n fs (modify_apply m hs) r ->
    grpc_filtered draw n (G_headers m :: fs) hs r
| gf_internal : forall n m fs hs, grpc_filtered draw n (G_internal m :: fs) hs (inr R_invalid_policy).

(** The route that applies, its authorizations, and what its filters do to the request *)
Inductive chosen (pq_valid : bytes -> bool) (draw : nat -> bool) (req : request) (u : uri)
  : protocol -> list authorization -> headers + response -> Prop :=
| ch_http : forall p routes h m rp r,
    (p = Http1 routes \/ p = Http2 routes \/ exists timeout l, p = Detect routes timeout l) ->
    http_find routes req = Some ((h, m), rp) ->
    http_filtered pq_valid draw u m 0 (rp_filters rp) (rq_headers req) r ->
    chosen pq_valid draw req u p (rp_authorizations rp) r
| ch_grpc : forall routes h m rp r,
    grpc_find routes req = Some ((h, m), rp) -> grpc_filtered draw 0 (rp_filters rp) (rq_headers req) r ->
    chosen pq_valid draw req u (Grpc routes) (rp_authorizations rp) r.

(** All the authorizations of a policy's routes are well formed. *)
Definition routes_wf (p : protocol) : Prop :=
  match p with
  | Detect routes _ _ | Http1 routes | Http2 routes =>
      forall rt ru a, In rt routes -> In ru (rt_rules rt) -> In a (rp_authorizations (ru_policy ru)) -> authz_wf a
  | Grpc routes =>
      forall rt ru a, In rt routes -> In ru (rt_rules rt) -> In a (rp_authorizations (ru_policy ru)) -> authz_wf a
  | _ => True
  end.

Definition is_opaque (p : protocol) : Prop := exists l, p = Opaque l.
Definition is_tls (p : protocol) : Prop := exists l, p = Tls l.

(** What the log of a connection may contain *)
Definition entry_ok (client : ip) (t : tls) (p0 : protocol) (before : list seen_) (e : seen_) : Prop :=
  match e with
  | Started => allows (in_force p0 before) client t
  | Refused | Terminated => ~ allows (in_force p0 before) client t
  | _ => True
  end.
Definition all_wf (p0 : protocol) (es : list event) : Prop := wf p0 /\ forall p, In (Publish p) es -> wf p.

(** What a request gets, and whether it counts against the rate limit *)
Inductive verdict (pq_valid : bytes -> bool) (draw : nat -> bool) (p : protocol) (client : ip) (t : tls)
    (req : request) (u : uri) (limit : bool) : response * bool -> Prop :=
| v_not_found : (forall l r, ~ chosen pq_valid draw req u p l r) ->
    verdict pq_valid draw p client t req u limit (R_not_found, false)
| v_unauthorized : forall l r, chosen pq_valid draw req u p l r -> ~ authorized l client t ->
    verdict pq_valid draw p client t req u limit (R_unauthorized, false)
| v_filtered : forall l e, chosen pq_valid draw req u p l (inr e) -> authorized l client t ->
    verdict pq_valid draw p client t req u limit (e, false)
| v_limited : forall l hs, chosen pq_valid draw req u p l (inl hs) -> authorized l client t -> limit = false ->
    verdict pq_valid draw p client t req u limit (R_limited, true)
| v_forward : forall l hs, chosen pq_valid draw req u p l (inl hs) -> authorized l client t -> limit = true ->
    verdict pq_valid draw p client t req u limit (R_forward hs, true).

(** Where a connection goes when the policy does not change *)
Inductive goes : protocol -> tls -> detection -> destination -> Prop :=
| g_opaque : forall l t d, goes (Opaque l) t d (To_forward No_tls)
| g_tls : forall l t d, goes (Tls l) t d (To_forward t)
| g_http2 : forall r t d, goes (Http2 r) t d (To_http V_h2 t)
| g_grpc : forall r t d, goes (Grpc r) t d (To_http V_h2 t)
| g_http1 : forall r d, goes (Http1 r) No_tls d (To_http V_http1 No_tls)
| g_http1_found : forall r t v, t <> No_tls -> goes (Http1 r) t (Is_http v) (To_http v t)
| g_http1_timeout : forall r t, t <> No_tls -> goes (Http1 r) t Read_timeout (To_http V_http1 t)
| g_http1_not : forall r t, t <> No_tls -> goes (Http1 r) t Not_http (To_forward t)
| g_detect_found : forall r n l t v, goes (Detect r n l) t (Is_http v) (To_http v t)
| g_detect_timeout : forall r n l t, goes (Detect r n l) t Read_timeout (To_forward t)
| g_detect_not : forall r n l t, goes (Detect r n l) t Not_http (To_forward t).
