(** Model of service profiles: linkerd/service-profiles/src/proto.rs and http.rs, and of what the
    outbound proxy makes of them, linkerd/app/outbound/src/http/logical/profile.rs. *)
From Coq Require Import String List NArith ZArith QArith Bool.
From Verif Require Import Bytes NameModel EndpointModel ClassifyModel.
From Verif Require DistributeModel.
Import ListNotations.
Open Scope N_scope.

(** `Iterator::filter_map` *)
Definition filter_map {A B} (f : A -> option B) : list A -> list B :=
  fix go (l : list A) : list B :=
    match l with
    | [] => []
    | x :: l => match f x with Some y => y :: go l | None => go l end
    end.

(** ** Messages (linkerd2-proxy-api, not in /repo) *)

(** `http_method::Type` *)
Inductive pb_method := Registered (n : Z) | Unregistered (m : bytes).
(** `RequestMatch`, whose only field may be missing *)
Inductive pb_req :=
| Q_unset
| Q_all (ms : list pb_req) | Q_any (ms : list pb_req) | Q_not (m : pb_req)
| Q_path (regex : bytes) | Q_method (t : option pb_method).
(** `ResponseMatch`, whose only field may be missing; the bounds of a range of statuses are u32. *)
Inductive pb_rsp :=
| S_unset
| S_all (ms : list pb_rsp) | S_any (ms : list pb_rsp) | S_not (m : pb_rsp)
| S_status (min max : N).
(** `ResponseClass` *)
Record pb_class := PbClass { pc_condition : option pb_rsp; pc_failure : bool }.
(** `Route` *)
Record pb_route := PbRoute {
  pr_condition : option pb_req; pr_classes : list pb_class; pr_labels : list (bytes * bytes);
  pr_retryable : bool; pr_timeout : option pb_duration }.
(** An f32: NaN, an infinity or a number *)
Inductive f32 := Nan | Inf (negative : bool) | Fin (q : Q).
(** `RetryBudget` *)
Record pb_budget := PbBudget { pb_ratio : f32; pb_min_retries : N; pb_ttl : option pb_duration }.
(** `WeightedDst` *)
Record pb_dst := PbDst { pd_authority : bytes; pd_weight : N }.
(** `DestinationProfile` *)
Record pb_profile := PbProfile {
  pp_name : bytes; pp_opaque : bool; pp_routes : list pb_route; pp_budget : option pb_budget;
  pp_overrides : list pb_dst; pp_endpoint : option weighted_addr }.

(** ** Profiles *)

(** http.rs:22-31 *)
Inductive req_match :=
| M_all (ms : list req_match) | M_any (ms : list req_match) | M_not (m : req_match)
| M_path (re : bytes) | M_method (m : bytes) | M_default.
(** `TpsBudget::new` *)
Record budget := Budget { b_ttl : N; b_min_retries : N; b_ratio : f32 }.
(** http.rs:14-20 *)
Record route := Route {
  r_labels : list (bytes * bytes); r_classes : list rclass; r_retries : option budget; r_timeout : option N }.
(** http.rs:14, `Default` *)
Definition default_route : route := Route [] [] None None.
(** lib.rs:55-59 *)
Record target := Target { t_addr : name_addr; t_weight : N }.
(** lib.rs:39-46 *)
Record profile := Profile {
  p_addr : option name_addr; p_routes : list (req_match * route); p_targets : list target;
  p_opaque : bool; p_end : option (sock * metadata) }.

(** What a condition looks at: the method and the path of a request *)
Record request := Request { q_method : bytes; q_path : bytes }.

(** proto.rs:109, `str::trim`, for white space in ASCII *)
Definition is_space (c : N) : bool := ((9 <=? c) && (c <=? 13)) || (c =? 32).
(** `str::trim_start` *)
Fixpoint drop_spaces (s : bytes) : bytes :=
  match s with
  | c :: r => if is_space c then drop_spaces r else s
  | [] => []
  end.
(** `str::trim` *)
Definition trim (s : bytes) : bytes := rev (drop_spaces (rev (drop_spaces s))).

(** `std::time::Duration::try_from` of a message, which fails when it is negative; nanoseconds.  Seconds that
    overflow on normalization are not modelled. *)
Definition to_duration (d : pb_duration) : option N :=
  let t := (fst d * 1000000000 + snd d)%Z in
  if (t <? 0)%Z then None else Some (Z.to_N t).

(** proto.rs:109-118: the expression that is compiled *)
Definition anchored (regex : bytes) : bytes :=
  let regex := trim regex in
  match starts_with [94] regex, ends_with [36] regex with
  | true, true => regex
  | hd_anchor, tl_anchor =>
      (if hd_anchor then [] else [94]) ++ regex ++ (if tl_anchor then [] else [36])
  end.

Section Conversions.
(** `http::Method::try_from` of a message; `Regex::new` accepting; `Regex::is_match` *)
Variable method_of : pb_method -> option bytes.
Variable re_ok : bytes -> bool.
Variable re_match : bytes -> bytes -> bool.
(** What EndpointModel leaves open *)
Variable parse_url : bytes -> option bytes.
Variable parse_authority : bytes -> option bytes.

(** proto.rs:94-128 *)
Fixpoint convert_req_match (orig : pb_req) : option req_match :=
  match orig with
  | Q_unset => None
  | Q_all ms => Some (M_all (filter_map convert_req_match ms))
  | Q_any ms => Some (M_any (filter_map convert_req_match ms))
  | Q_not m => match convert_req_match m with Some m => Some (M_not m) | None => None end
  | Q_path regex => if re_ok (anchored regex) then Some (M_path (anchored regex)) else None
  | Q_method t =>
      match t with
      | Some m => match method_of m with Some m => Some (M_method m) | None => None end
      | None => None
      end
  end.

(** `http::StatusCode::from_u16` *)
Definition status_from_u16 (n : N) : option N := if (100 <=? n) && (n <? 1000) then Some n else None.

(** proto.rs:135-171; `as u16` keeps the last 16 bits. *)
Fixpoint convert_rsp_match (orig : pb_rsp) : option rmatch :=
  match orig with
  | S_unset => None
  | S_all ms =>
      match filter_map convert_rsp_match ms with [] => None | ms => Some (All ms) end
  | S_any ms =>
      match filter_map convert_rsp_match ms with [] => None | ms => Some (Any ms) end
  | S_not m => match convert_rsp_match m with Some m => Some (Not m) | None => None end
  | S_status min max =>
      match status_from_u16 (min mod 65536) with
      | Some min =>
          match status_from_u16 (max mod 65536) with
          | Some max => Some (Status min max)
          | None => None
          end
      | None => None
      end
  end.
(** proto.rs:130-133 *)
Definition convert_rsp_class (orig : pb_class) : option rclass :=
  match (match pc_condition orig with Some c => convert_rsp_match c | None => None end) with
  | Some c => Some (RClass (pc_failure orig) c)
  | None => None
  end.

(** proto.rs:185: between 0 and 1000 *)
Definition ratio_ok (r : f32) : bool :=
  match r with Fin q => Qle_bool 0 q && Qle_bool q 1000 | _ => false end.
(** proto.rs:173-221 *)
Definition convert_retry_budget (orig : pb_budget) : option budget :=
  if negb (pb_min_retries orig <=? 2147483647) then None
  else if negb (ratio_ok (pb_ratio orig)) then None
  else
    match pb_ttl orig with
    | Some (seconds, nanos) =>
        if (1000000000 <? nanos)%Z then None
        else if (seconds <? 0)%Z || (nanos <? 0)%Z then None
        else
          match to_duration (seconds, nanos) with
          | Some dur =>
              if (60000000000 <? dur) || (dur <? 1000000000) then None
              else Some (Budget dur (pb_min_retries orig) (pb_ratio orig))
          | None => None
          end
    | None => None
    end.

(** proto.rs:37-55, 68-92 and http.rs:79-92, 110-116 *)
Definition convert_route (orig : pb_route) (retry_budget : option budget) : option (req_match * route) :=
  match (match pr_condition orig with Some c => convert_req_match c | None => None end) with
  | None => None
  | Some req_match =>
      let rsp_classes := filter_map convert_rsp_class (pr_classes orig) in
      let retries := if pr_retryable orig then retry_budget else None in
      let timeout := match pr_timeout orig with Some t => to_duration t | None => None end in
      Some (req_match, Route (bt_collect (pr_labels orig)) rsp_classes retries timeout)
  end.

(** proto.rs:57-66 *)
Definition convert_dst_override (orig : pb_dst) : option target :=
  if pd_weight orig =? 0 then None
  else match name_addr_from_str (pd_authority orig) with
       | inl addr => Some (Target addr (pd_weight orig))
       | inr _ => None
       end.

(** proto.rs:11-35 *)
Definition convert_profile (proto : pb_profile) (port : N) : profile :=
  let name := name_from_str (pp_name proto) in
  let retry_budget := match pp_budget proto with Some b => convert_retry_budget b | None => None end in
  Profile
    (option_map (fun n => NameAddr n port) name)
    (filter_map (fun orig => convert_route orig retry_budget) (pp_routes proto))
    (filter_map convert_dst_override (pp_overrides proto))
    (pp_opaque proto)
    (match pp_endpoint proto with Some e => to_addr_meta parse_url parse_authority to_duration e [] | None => None end).

(** http.rs:121-132 *)
Fixpoint req_is_match (m : req_match) (req : request) : bool :=
  match m with
  | M_method method => beq (q_method req) method
  | M_path re => re_match re (q_path req)
  | M_not m => negb (req_is_match m req)
  | M_all ms => forallb (fun m => req_is_match m req) ms
  | M_any ms => existsb (fun m => req_is_match m req) ms
  | M_default => true
  end.

(** http.rs:65-75 *)
Fixpoint route_for_request {K} (http_routes : list (req_match * K)) (req : request) : option K :=
  match http_routes with
  | [] => None
  | (m, key) :: rest => if req_is_match m req then Some key else route_for_request rest req
  end.

(** lib.rs:193-195 *)
Definition has_routes_or_targets (p : profile) : bool :=
  match p_routes p, p_targets p with [], [] => false | _, _ => true end.

(** ** logical/profile.rs *)

(** profile.rs:62-69 *)
Definition should_override_policy (p : profile) : option name_addr :=
  if has_routes_or_targets p then p_addr p else None.

(** A concrete target, logical.rs:38-46: endpoints are discovered for, and balanced over, an address; requests
    are sent with an authority.  The names of the parent and backend resources are not modelled. *)
Record concrete := Concrete { c_balance : name_addr; c_authority : bytes }.
(** profile.rs:124-131, 138-146, 151-160 *)
Definition mk_concrete (a : name_addr) : concrete := Concrete a (as_http_authority a).

(** profile.rs:27-41: backends, and the routes with their distributions *)
Record params := Params {
  pa_backends : list concrete;
  pa_routes : list (req_match * (route * DistributeModel.distribution concrete)) }.
(** profile.rs:109-200; [None] for the panic at 164 *)
Definition mk_params (addr : name_addr) (routes : list (req_match * route)) (targets : list target) : option params :=
  match (match targets with
         | [] => Some ([mk_concrete addr], DistributeModel.first_available [mk_concrete addr])
         | _ =>
             match DistributeModel.random_available (map (fun t => (mk_concrete (t_addr t), t_weight t)) targets) with
             | inl d => Some (map (fun t => mk_concrete (t_addr t)) targets, d)
             | inr _ => None
             end
         end) with
  | None => None
  | Some (backends, distribution) =>
      Some (Params backends
              (map (fun r => (fst r, (snd r, distribution))) routes ++ [(M_default, (default_route, distribution))]))
  end.
(** profile.rs:227-231 *)
Definition select (p : params) (req : request) : option (route * DistributeModel.distribution concrete) :=
  route_for_request (pa_routes p) req.

End Conversions.
