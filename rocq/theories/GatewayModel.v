(** Model of the multicluster gateway: linkerd/app/gateway/src/discover.rs, server.rs, http.rs,
    http/gateway.rs and opaq.rs.

    Simplifications: a watch is the value that is read of it; the outbound stack is ready. *)
From Coq Require Import String List NArith Bool.
From Verif Require Import Bytes NameModel TransportModel FilterModel TraceModel EndpointModel DnsModel ProfileModel.
From Verif Require RouteModel AuthzModel PolicyModel Http1Model ConnectModel DiscoverModel.
Import ListNotations.
Open Scope N_scope.

(** ** discover.rs *)

(** Why nothing is discovered: `GatewayDomainInvalid`, or an error of the control plane *)
Inductive undiscovered := Domain_invalid | Lookup_failed (e : DiscoverModel.error).

(** What the control plane is asked for *)
Inductive question := Ask_profile (a : name_addr) | Ask_policy (a : name_addr).

(** discover.rs:40-52: both lookups are made at once, of allowed names only. *)
Definition asked (allow : list suffix) (a : name_addr) : list question :=
  if name_match allow (na_name a) then [Ask_profile a; Ask_policy a] else [].

(** discover.rs:37-107; both lookups are awaited before either is looked at. *)
Definition gateway_resolved {P W} (allow : list suffix) (a : name_addr)
    (profile : option P + DiscoverModel.error) (policy : W + DiscoverModel.error)
  : (P * DiscoverModel.source W) + undiscovered :=
  if negb (name_match allow (na_name a)) then inr Domain_invalid
  else match profile with
       | inr e => inr (Lookup_failed e)
       | inl None => inr Domain_invalid
       | inl (Some p) =>
           match policy with
           | inl w => inl (p, DiscoverModel.From_control w)
           | inr e =>
               if DiscoverModel.has_grpc_status e DiscoverModel.NOT_FOUND
                  || DiscoverModel.has_grpc_status e DiscoverModel.UNIMPLEMENTED
               then inl (p, DiscoverModel.From_profile)
               else inr (Lookup_failed e)
           end
       end.

(** The number that stands for the filter `InternalError`, proxy/client-policy/src/http.rs *)
Definition INTERNAL_ERROR : N := 1.
(** proxy/client-policy/src/lib.rs:262-316 *)
Definition invalid (timeout : N) : DiscoverModel.client_policy :=
  let m := DiscoverModel.Default_meta (bs "invalid"%string) in
  let pol := DiscoverModel.RoutePolicy m [INTERNAL_ERROR] 0 DiscoverModel.Empty in
  let routes := [RouteModel.Route [] [RouteModel.Rule [DiscoverModel.any_request] pol]] in
  DiscoverModel.ClientPolicy m (DiscoverModel.P_detect timeout (routes, None) (routes, None) (Some pol)) [].
(** discover.rs:81-102 *)
Definition gateway_synthesis (c : DiscoverModel.config) (p : profile) : DiscoverModel.client_policy :=
  match p_end p with
  | Some (a, md) =>
      DiscoverModel.synthesize_forward_policy (DiscoverModel.Default_meta (bs "gateway"%string))
        (DiscoverModel.c_timeout c) (DiscoverModel.c_queue c) a md
  | None => invalid (DiscoverModel.c_timeout c)
  end.
(** discover.rs:57-104: the policy that is there with a profile, when both are read *)
Definition policy_of (c : DiscoverModel.config) (p : profile)
    (s : DiscoverModel.source DiscoverModel.client_policy) : DiscoverModel.client_policy :=
  match s with
  | DiscoverModel.From_control w => w
  | _ => gateway_synthesis c p
  end.

(** ** server.rs *)

(** server.rs:59-74: which stack serves the connection; HTTP is not detected. *)
Definition protocol_switch (proto : option session) : option DiscoverModel.variant :=
  match proto with
  | Some TransportModel.Http1 => Some DiscoverModel.Http1
  | Some TransportModel.Http2 => Some DiscoverModel.H2
  | None => None
  end.

(** ** http/gateway.rs *)

(** `http::header::FORWARDED` *)
Definition FORWARDED : bytes := bs "forwarded"%string.
(** `http::header::HOST` *)
Definition HOST : bytes := bs "host"%string.

(** identity/src/lib.rs:64-69 *)
Definition id_to_str (i : id) : bytes := match i with Dns n => n | Uri u => u end.
(** identity/src/lib.rs:78-84; tls/src/server.rs:280-284 *)
Definition id_display (i : id) : bytes :=
  match i with Dns n => without_trailing_dot n | Uri u => u end.

(** gateway.rs:135-140: the loop *)
Fixpoint fwd_by_in (kvs : list bytes) : option bytes :=
  match kvs with
  | [] => None
  | kv :: kvs =>
      match split 61 kv with
      | k :: vs => if beq k (bs "by"%string) then hd_error vs else fwd_by_in kvs
      | [] => fwd_by_in kvs
      end
  end.
(** gateway.rs:134-142 *)
Definition fwd_by (fwd : bytes) : option bytes := fwd_by_in (split 59 fwd).

(** `HeaderValue::from_str` *)
Definition header_value_ok (v : bytes) : bool :=
  forallb (fun b => ((32 <=? b) && negb (b =? 127)) || (b =? 9)) v.

(** gateway.rs:91-103 *)
Definition seen_before (local_id : id) (hs : headers) : bool :=
  existsb (fun v => match to_str v with
                    | Some forwarded =>
                        match fwd_by forwarded with
                        | Some by_ => beq by_ (id_to_str local_id)
                        | None => false
                        end
                    | None => false
                    end) (RouteModel.get_all FORWARDED hs).
(** gateway.rs:107-110 *)
Definition forwarded_value (local_id client_id : id) (host : bytes) : bytes :=
  bs "by="%string ++ id_display local_id ++ bs ";for="%string ++ id_display client_id ++
  bs ";host="%string ++ host ++ bs ";proto=https"%string.

(** `GatewayLoop`; the panics of gateway.rs:114 and 125; the request goes on, with headers *)
Inductive passed := Loop | Panicked | Passed (hs : headers).

(** gateway.rs:88-131 *)
Definition gateway_call (local_id client_id : id) (host : bytes) (v : Http1Model.version) (hs : headers) : passed :=
  if seen_before local_id hs then Loop
  else
    let fwd := forwarded_value local_id client_id host in
    if negb (header_value_ok fwd) then Panicked
    else
      let hs := hm_append hs FORWARDED fwd in
      match v with
      | Http1Model.Http_11 | Http1Model.Http_10 =>
          if negb (header_value_ok host) then Panicked else Passed (hm_insert hs HOST host)
      | _ => Passed hs
      end.
(** gateway.rs:54-62 and 78-131: [poll_ready], then [call] *)
Definition http_gateway (local_id client_id : id) (a : name_addr) (v : Http1Model.version) (hs : headers) : passed :=
  if ConnectModel.id_eqb client_id local_id then Loop
  else gateway_call local_id client_id (as_http_authority a) v hs.

(** ** http.rs *)

(** app/outbound/src/http/logical.rs:26-36, as far as the gateway makes them *)
Inductive gateway_routes :=
| G_profile (addr : name_addr) (routes : list (req_match * ProfileModel.route)) (targets : list target)
| G_endpoint (addr : sock) (m : metadata).
(** http.rs:149-168 *)
Definition mk_routes (p : profile) : option gateway_routes :=
  match p_addr p with
  | Some a => Some (G_profile a (p_routes p) (p_targets p))
  | None => match p_end p with
            | Some (a, md) => Some (G_endpoint a md)
            | None => None
            end
  end.

(** http/variant/src/lib.rs:23-32 *)
Definition variant_of (v : Http1Model.version) : option DiscoverModel.variant :=
  match v with
  | Http1Model.Http_10 | Http1Model.Http_11 => Some DiscoverModel.Http1
  | Http1Model.Http_2 => Some DiscoverModel.H2
  | _ => None
  end.

(** What becomes of a request: it is no request to a gateway (with an HTTP protocol); nothing is
    discovered; the policy refuses it or answers it itself; `GatewayDomainInvalid`;
    `UnsupportedVariant`; `GatewayLoop`; a panic; or it goes to the outbound stack, with its
    routes, its version of HTTP and headers. *)
Inductive answer :=
| Not_gateway
| Undiscovered (e : undiscovered)
| Answered (r : PolicyModel.response)
| No_route
| Bad_version
| Loop_detected
| Crashed
| Sent (r : gateway_routes) (v : DiscoverModel.variant) (hs : headers).

(** http.rs:88-111: the inbound policy's verdict is [r]; the profile is read for each request
    (http.rs:126-147), then the version (http.rs:172-181), then the request is checked. *)
Definition http_request (local_id client_id : id) (a : name_addr) (r : PolicyModel.response) (p : profile)
    (v : Http1Model.version) : answer :=
  match r with
  | PolicyModel.R_forward hs =>
      match mk_routes p with
      | None => No_route
      | Some routes =>
          match variant_of v with
          | None => Bad_version
          | Some v' =>
              match http_gateway local_id client_id a v hs with
              | Loop => Loop_detected
              | Panicked => Crashed
              | Passed hs => Sent routes v' hs
              end
          end
      end
  | r => Answered r
  end.

(** app/inbound/src/direct.rs:422-429: identities, for authorization *)
Definition authz_id (i : id) : AuthzModel.id :=
  match i with Dns n => AuthzModel.Dns n | Uri u => AuthzModel.Uri u end.

(** opaq.rs:35-47: denied, or forwarded as opaque traffic *)
Inductive opaque_answer :=
| O_not_gateway
| O_undiscovered (e : undiscovered)
| O_denied
| O_follows (f : DiscoverModel.following DiscoverModel.opaq_routes).

(** ** lib.rs *)

Section Gateway.
(** app/gateway/src/lib.rs:25-35: which names are served, and who this is *)
Variable allow : list suffix.
Variable local_id : id.
(** The outbound proxy's configuration, and the inbound proxy's policies *)
Variable config : DiscoverModel.config.
Variable policies : sock -> PolicyModel.protocol.
(** The control plane *)
Variable get_profile : name_addr -> option profile + DiscoverModel.error.
Variable get_policy : name_addr -> DiscoverModel.client_policy + DiscoverModel.error.
(** Library functions, the draws of injected failures and the rate limit's answer: see PolicyModel *)
Variable ip_of : sock -> AuthzModel.ip.
Variable pq_valid : bytes -> bool.
Variable draw : nat -> bool.
Variable limit : bool.

(** app/inbound/src/direct.rs:216-228, then server.rs:59-83, then http.rs: a request on a connection
    with the header [h]; [req], [u] and [v] are what the policy looks at of it. *)
Definition request_through (tls : option ConnectModel.server_tls) (remote local : sock) (h : header)
    (req : RouteModel.request) (u : uri) (v : Http1Model.version) : answer :=
  match ConnectModel.direct tls remote local h with
  | ConnectModel.Gateway name port client proto checked =>
      match protocol_switch proto with
      | None => Not_gateway
      | Some _ =>
          let a := NameAddr name port in
          match gateway_resolved allow a (get_profile a) (get_policy a) with
          | inr e => Undiscovered e
          | inl (p, _) =>
              http_request local_id client a
                (fst (PolicyModel.call pq_valid draw (policies checked) (ip_of remote)
                        (AuthzModel.Established (Some (authz_id client))) req u limit)) p v
          end
      end
  | _ => Not_gateway
  end.

(** app/inbound/src/direct.rs:216-228, then server.rs:59-83, then opaq.rs:35-47 and 50-72: the
    connection is authorized before anything else is done with what was discovered. *)
Definition connection_through (tls : option ConnectModel.server_tls) (remote local : sock) (h : header) : opaque_answer :=
  match ConnectModel.direct tls remote local h with
  | ConnectModel.Gateway name port client proto checked =>
      match protocol_switch proto with
      | Some _ => O_not_gateway
      | None =>
          let a := NameAddr name port in
          match gateway_resolved allow a (get_profile a) (get_policy a) with
          | inr e => O_undiscovered e
          | inl (p, s) =>
              match PolicyModel.check_authorized (policies checked) (ip_of remote)
                      (AuthzModel.Established (Some (authz_id client))) with
              | None => O_denied
              | Some _ => O_follows (DiscoverModel.routes_from_discovery (Name a) (Some p) (policy_of config p s))
              end
          end
      end
  | _ => O_not_gateway
  end.
End Gateway.
