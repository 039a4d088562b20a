(** What C148 says *)
From Coq Require Import String List NArith Bool.
From Verif Require PromSpec.
From Verif Require Import Bytes Http1Model RespondModel RespondSpec ForwardModel ShedModel.
Import ListNotations.
Open Scope N_scope.

Definition size {A} (l : list A) : N := N.of_nat (List.length l).
(** The requests that come, each of which comes once *)
Definition coming (x : event) : list N := match x with Arrive id _ _ => [id] | _ => [] end.
Definition once (es : list event) : Prop := NoDup (flat_map coming es).
(** The request's time with the service beneath is over. *)
Definition over (x : event) (id : N) : Prop := (exists res, x = Finish id res) \/ x = Gone id.

(** The requests that are being served: those taken that are not over; one is taken if fewer than [max] are served and the
    service beneath is ready. *)
Definition serve (max : N) (l : list N) (x : event) : list N :=
  match x with
  | Arrive id _ Ready => if size l <? max then id :: l else l
  | Arrive _ _ _ | Body_end _ => l
  | Finish id _ | Gone id => filter (fun i => negb (i =? id)) l
  end.
Definition serving (max : N) (es : list event) : list N := fold_left (serve max) es [].

(** What becomes of a request: there is no room for it; the service beneath is broken; that one's result *)
Inductive result := No_room | Broke (e : RespondModel.error) | Gave (r : response + RespondModel.error).
Definition no_room (max : N) (es : list event) (r : readiness) : Prop := max <= size (serving max es) \/ r = Pending.
Inductive comes_to (max : N) : list event -> N -> caller -> result -> Prop :=
| ct_no_room before id c r after : no_room max before r ->
    comes_to max (before ++ Arrive id c r :: after) id c No_room
| ct_broke before id c e after : size (serving max before) < max ->
    comes_to max (before ++ Arrive id c (Broken e) :: after) id c (Broke e)
| ct_gave before id c meanwhile res after : size (serving max before) < max -> (forall x, In x meanwhile -> ~ over x id) ->
    comes_to max (before ++ Arrive id c Ready :: meanwhile ++ Finish id res :: after) id c (Gave res).
(** The errors of these *)
Definition error_of (r : result) (e : RespondModel.error) : Prop :=
  match r with
  | No_room => e = [(RespondModel.Load_shed, bs "service unavailable"%string)]
  | Broke e' => e = e'
  | Gave (inr e') => e = e'
  | Gave (inl _) => False
  end.

(** ** Kinds of errors *)
(** What the counters know: the inbound ones leave out requests that no route allows or takes. *)
Inductive known : side -> kind -> option error_kind -> Prop :=
| ko_io : known Outbound RespondModel.Io_error (Some E_io)
| ko_identity : known Outbound RespondModel.Identity_required (Some E_identity_required)
| ko_failfast : known Outbound RespondModel.Fail_fast (Some E_fail_fast)
| ko_timeout : known Outbound RespondModel.Profile_timeout (Some E_response_timeout)
| ko_shed : known Outbound RespondModel.Load_shed (Some E_load_shed)
| ki_unauthorized : known Inbound RespondModel.Route_unauthorized None
| ki_not_found : known Inbound RespondModel.Route_not_found None
| ki_failfast : known Inbound RespondModel.Fail_fast (Some E_fail_fast)
| ki_io : known Inbound RespondModel.Io_error (Some E_io)
| ki_domain : known Inbound RespondModel.Gateway_domain_invalid (Some E_gateway_domain_invalid)
| ki_loop : known Inbound RespondModel.Gateway_loop (Some E_gateway_loop)
| ki_shed : known Inbound RespondModel.Load_shed (Some E_load_shed).
(** An error counts as the outermost of its causes that is known does, and as an unexpected one if none is. *)
Definition counts_as (d : side) (e : RespondModel.error) (k : option error_kind) : Prop :=
  (exists outer c t inner, e = outer ++ (c, t) :: inner /\ known d c k /\ forall c' t' k', In (c', t') outer -> ~ known d c' k') \/
  (k = Some E_unexpected /\ forall c' t' k', In (c', t') e -> ~ known d c' k').
(** The labels of the counters *)
Definition labels (d : side) (c : caller) : bytes := match d with Inbound => c_labels c | Outbound => [] end.
Definition counter (k : bytes * error_kind) (s : state) : N := PromSpec.value key_eqb k (st_counters s).

(** ** Answers *)
(** The inbound server says whose request it was. *)
Definition told (d : side) (c : caller) (e : RespondModel.error) : RespondModel.error :=
  match d with
  | Inbound => (RespondModel.Other, c_text c ++ RespondModel.to_string e) :: e
  | Outbound => e
  end.
(** How C65 answers errors there *)
Definition answers (d : side) : RespondModel.error -> rescued :=
  match d with Inbound => inbound_server_rescue | Outbound => outbound_server_rescue end.
(** The answer to a request: the response, or that to the error; there is none if the service beneath is broken. *)
Definition answer (d : side) (c : caller) (r : result) (a : responded) : Prop :=
  match r with
  | Gave (inl rsp) => a = respond (answers d) (c_responder c) (inl rsp)
  | Gave (inr e) => a = respond (answers d) (c_responder c) (inr (told d c e))
  | No_room => exists e, error_of No_room e /\ a = respond (answers d) (c_responder c) (inr (told d c e))
  | Broke e => a = Failed (told d c e)
  end.
