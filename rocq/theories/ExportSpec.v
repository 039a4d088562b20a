(** What C128 and C129 say, without the model's steps. *)
From Coq Require Import List NArith Bool.
From Verif Require Import Bytes TraceModel ExportModel.
Import ListNotations.
Open Scope N_scope.

(** The spans that came and can be sent, with the time at which they came *)
Definition arrivals (es : list event) : list (N * data) :=
  flat_map (fun e => match e with
                     | Comes now s => match convert_span s with Some d => [(now, d)] | None => [] end
                     | _ => []
                     end) es.
Definition received (es : list event) : list data := map snd (arrivals es).
(** The batches for which a call to the collector was made, in order *)
Definition calls (x : exporter) : list (list data) :=
  map fst (x_answered x) ++ match x_flight x with Some b => [b] | None => [] end.
(** The spans of the calls that succeeded *)
Definition delivered (x : exporter) : list data :=
  concat (map fst (filter snd (x_answered x))).
(** The time of an event, if it has one *)
Definition at_time (e : event) : option N :=
  match e with Comes t _ | Ends t | Ticks t | Puts t => Some t | _ => None end.
(** Time does not go back. *)
Fixpoint in_order (from : N) (es : list event) : Prop :=
  match es with
  | [] => True
  | e :: es => match at_time e with Some t => from <= t /\ in_order t es | None => in_order from es end
  end.
(** A span as the proxy's trace context records it (the ids), with the rest *)
Definition recorded (s : span) (name : bytes) (from to : N) (labels shared : list (bytes * bytes)) (k : kind) : raw :=
  Raw (s_trace_id s) (s_span_id s) (s_parent_id s) name from to labels k shared.
(** When the last batch was closed and put into the channel, or else when the export started *)
Inductive previous (start : N) (es : list event) : N -> Prop :=
| No_batch : forall t, t = start -> (forall u, ~ In (Puts u) es) -> previous start es t
| Last_batch : forall a b t, es = a ++ Puts t :: b -> (forall u, ~ In (Puts u) b) -> previous start es t.
