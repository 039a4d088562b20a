(** What C23 says *)
From Coq Require Import List Arith NArith Bool.
From Verif Require Import P2cModel.
From Verif Require RecoverSpec.
Import ListNotations.

(** What was discovered: the endpoints that the updates so far say there are *)
Definition discovered (l : list event) : RecoverSpec.view :=
  fold_left (fun v e => match e with Updated u _ => RecoverSpec.apply v u | _ => v end) l [].
Definition target_of (a : N) (v : RecoverSpec.view) : option N := option_map snd (find (fun e => (fst e =? a)%N) v).
(** The services that were built *)
Definition built (l : list event) : list svc := flat_map (fun e => match e with Updated _ b => b | _ => [] end) l.
Definition newest (l : list event) (a : N) : option svc := find (fun v => (s_addr v =? a)%N) (rev (built l)).
(** v said it is ready, and since then was sent no request and did not say that it is pending *)
Definition fresh (l : list event) (v : svc) : Prop :=
  exists l1 e l2, l = l1 ++ e :: l2 /\ (e = Became_ready v \/ e = Answered v Is_ready) /\
    (forall r, ~ In (Sent r v) l2) /\ ~ In (Answered v Is_pending) l2.
Definition pool (s : state) : list svc := ready s ++ pending s.
(** The addresses an update says something about *)
Definition addresses (u : RecoverModel.update) : list N :=
  match u with
  | RecoverModel.Reset l | RecoverModel.Add l => map fst l
  | RecoverModel.Remove l => l
  | RecoverModel.Does_not_exist => []
  end.
Definition says (u : RecoverModel.update) (a t : N) : Prop :=
  match u with
  | RecoverModel.Reset l | RecoverModel.Add l => In (a, t) l
  | _ => False
  end.
