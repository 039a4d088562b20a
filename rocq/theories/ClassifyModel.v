(** Model of linkerd/app/core/src/classify.rs, of the response matches of
    linkerd/service-profiles/src/http.rs and of the body wrapper that sends classes,
    linkerd/http/classify/src/channel.rs. *)
From Coq Require Import String List NArith Bool.
From Verif Require Import Bytes FilterModel TraceModel.
From Verif Require Import BreakerModel.
Import ListNotations.
Open Scope N_scope.

(** service-profiles/src/http.rs:38-56 *)
Inductive rmatch :=
| Status (min max : N) | Not (m : rmatch) | All (ms : list rmatch) | Any (ms : list rmatch).
(** service-profiles/src/http.rs:188-199 *)
Fixpoint is_match (m : rmatch) (status : N) : bool :=
  match m with
  | Status min max => (min <=? status) && (status <=? max)
  | Not m => negb (is_match m status)
  | All ms => forallb (fun m => is_match m status) ms
  | Any ms => existsb (fun m => is_match m status) ms
  end.
(** service-profiles/src/http.rs:37-41 *)
Record rclass := RClass { rc_failure : bool; rc_match : rmatch }.

(** classify.rs:18-29; ranges of statuses, and codes that are failures. *)
Inductive request := Default | Profile (cs : list rclass) | Policy_grpc (codes : list N) | Policy_http (ranges : list (N * N)).
(** classify.rs:18-23: how a response will be classified *)
Inductive response_classifier := R_http (ranges : list (N * N)) | R_grpc (codes : list N) | R_profile (cs : list rclass).
(** classify.rs:31-36: what is left to do at the end of the body *)
Inductive eos := E_class (c : class) | E_grpc_open (codes : list N) | E_unmatched (c : class).

(** client-policy/src/http.rs:99-103, 113-119 and grpc.rs:74-101 *)
Definition ranges_contain (rs : list (N * N)) (s : N) : bool :=
  existsb (fun r => (fst r <=? s) && (s <=? snd r)) rs.
(** client-policy/src/http.rs:113-119: 500 to 599 *)
Definition default_ranges : list (N * N) := [(500, 599)].
(** client-policy/src/grpc.rs:74-78: `Codes::contains` *)
Definition codes_contain (cs : list N) (c : N) : bool := existsb (N.eqb c) cs.
(** client-policy/src/grpc.rs:80-100: DATA_LOSS, DEADLINE_EXCEEDED, INTERNAL, PERMISSION_DENIED, UNAVAILABLE, UNKNOWN *)
Definition default_codes : list N := [15; 4; 13; 7; 14; 2].

(** classify.rs:207-212; `Code::from_i32` knows 0 to 16. *)
Definition grpc_code (hs : headers) : option N :=
  match hm_get hs (bs "grpc-status") with
  | Some v =>
      match to_str v with
      | Some s => option_map (fun c => if c <=? 16 then c else 2) (parse_uint u16_max s)
      | None => None
      end
  | None => None
  end.
(** classify.rs:225-230 *)
Definition is_grpc (hs : headers) : bool :=
  match hm_get hs (bs "content-type") with
  | Some v => match to_str v with Some s => starts_with (bs "application/grpc") s | None => false end
  | None => false
  end.

(** classify.rs:69-88 *)
Definition classify (r : request) (hs : headers) : response_classifier :=
  match r with
  | Profile cs => R_profile cs
  | Policy_http ranges => if is_grpc hs then R_grpc default_codes else R_http ranges
  | Policy_grpc codes => R_grpc codes
  | Default => if is_grpc hs then R_grpc default_codes else R_http default_ranges
  end.

(** classify.rs:100-116 *)
Definition match_class (cs : list rclass) (status : N) : option class :=
  option_map (fun c => Http (rc_failure c) status) (find (fun c => is_match (rc_match c) status) cs).
(** classify.rs:123-159 *)
Definition start (r : response_classifier) (status : N) (hs : headers) : eos :=
  match r with
  | R_http ranges => E_class (Http (ranges_contain ranges status) status)
  | R_grpc codes =>
      match grpc_code hs with
      | Some c => E_class (Grpc (codes_contain codes c) c)
      | None => E_grpc_open codes
      end
  | R_profile cs =>
      match match_class cs status with
      | Some c => E_class c
      | None =>
          match grpc_code hs with
          | Some c => E_class (Grpc (codes_contain default_codes c) c)
          | None => E_unmatched (Http ((500 <=? status) && (status <? 600)) status)
          end
      end
  end.
(** classify.rs:176-200 *)
Definition at_eos (e : eos) (trailers : option headers) : class :=
  let code := match trailers with Some t => grpc_code t | None => None end in
  match e with
  | E_class c => c
  | E_grpc_open codes =>
      match code with
      | None => Grpc false 2
      | Some c => Grpc (codes_contain codes c) c
      end
  | E_unmatched h =>
      match code with
      | Some c => Grpc (codes_contain default_codes c) c
      | None => h
      end
  end.

(** ** channel.rs *)

(** The state of a request: its response future, its body, or nothing left. *)
Inductive state := Future (c : option response_classifier) | Body (e : option eos) | Gone.
(** What happens to it: the inner future fails or gives a response; the body gives
    data, trailers, an error or its end; it is dropped. *)
Inductive event :=
| Fails | Responds (status : N) (hs : headers)
| Data | Trailers (t : headers) | Body_error | End
| Drop.

(** channel.rs:98-112: a class is asked for only if the request has a classifier. *)
Definition call (ext : option response_classifier) : state := Future ext.
(** channel.rs:136-164, 170-203, 216-226: the new state and the class sent. *)
Definition step (s : state) (e : event) : state * list class :=
  match s, e with
  | Future c, Fails => (Gone, match c with Some _ => [Failed] | None => [] end)
  | Future c, Responds st hs => (Body (option_map (fun c => start c st hs) c), [])
  | Future _, Drop => (Gone, [])
  | Body (Some c), End => (Body None, [at_eos c None])
  | Body (Some c), Trailers t => (Body None, [at_eos c (Some t)])
  | Body (Some c), Body_error => (Body None, [Failed])
  | Body (Some c), Drop => (Gone, [at_eos c None])
  | Body None, Drop => (Gone, [])
  | s, _ => (s, [])
  end.
(** A history of a response: any polls, then perhaps a drop; channel.rs:136-226 *)
Fixpoint run (s : state) (es : list event) : state * list class :=
  match es with
  | [] => (s, [])
  | e :: es => let '(s, a) := step s e in let '(s, b) := run s es in (s, a ++ b)
  end.
