(** C150: what is logged, and when. *)
From Coq Require Import String List NArith Lia.
From Verif Require Import Bytes.
From Verif Require LogModel LogProofs EnvProofs.
From Verif Require Import UptimeModel UptimeSpec UptimeProofs.
Import ListNotations.
Open Scope N_scope.

(** The proxy logs unless LINKERD2_PROXY_LOG is `off`, in any case and with white space around it, and the level can then
    also be read and set while it runs.  The filter is what the variable says, or the default, with the lines of the access log
    kept out; the format is JSON when LINKERD2_PROXY_LOG_FORMAT says so, and otherwise text, with the times since the start. *)
Theorem C150_settings : forall now e, let g := init (from_env now e) in
  (g_output g = None <-> spells (e_level e) (bs "off")) /\
  (g_handle g = true <-> g_output g <> None) /\
  (forall out filter, g_output g = Some (out, filter) ->
     filter = match e_level e with Some l => l | None => bs "warn,linkerd=info,hickory=error" end ++ bs ",_access_log=off" /\
     (spells (e_format e) (bs "json") /\ out = In_json \/ ~ spells (e_format e) (bs "json") /\ out = In_plain now) /\
     g_access g = LogModel.access_log_format (e_access e)).
Proof. exact init_spec. Qed.
Print Assumptions C150_settings.
Example C150_case_settings :
  spells (Some (bs " OFF ")) (bs "off") /\ spells (Some (bs "Json")) (bs "json") /\
  init (from_env 7 (Env None (Some (bs "JSON ")) (Some (bs "apache")))) =
    Logging (Some (In_json, bs "warn,linkerd=info,hickory=error,_access_log=off")) (Some LogModel.Apache) true /\
  init (from_env 7 (Env (Some (bs "debug")) (Some (bs "text")) None)) = Logging (Some (In_plain 7, bs "debug,_access_log=off")) None true /\
  init (from_env 7 (Env (Some (bs " OFF ")) None None)) = Logging None None false.
Proof.
  split; [apply (spells_iff (Some (bs " OFF ")) (bs "off") eq_refl); eexists; split; reflexivity|].
  split; [apply (spells_iff (Some (bs "Json")) (bs "json") eq_refl); eexists; split; reflexivity|]. vm_compute. auto.
Qed.

(** There is an access log exactly when its variable names a format and the proxy's own log is not off: *)
Theorem C150_access : forall now e a, g_access (init (from_env now e)) = Some a <->
  ~ spells (e_level e) (bs "off") /\ LogModel.access_log_format (e_access e) = Some a.
Proof. exact access_iff. Qed.
Print Assumptions C150_access.
(** so it is not so that a valid format is enough: to switch the proxy's own log off is to switch off the access log. *)
Theorem C150_access_refuted : ~ forall now e a, LogModel.access_log_format (e_access e) = Some a -> g_access (init (from_env now e)) = Some a.
Proof.
  intros H. specialize (H 0 (Env (Some (bs "off")) None (Some (bs "apache"))) LogModel.Apache eq_refl). vm_compute in H. discriminate H.
Qed.
Print Assumptions C150_access_refuted.

(** The time of a line says, to the microsecond, how long after the start it is, and nothing if the clock says it is before:
    from the text the seconds and microseconds can be read in one way only. *)
Theorem C150_says : forall start now, exists secs micros,
  says (format_time start now) secs micros /\ micros < 1000000 /\ secs * 1000000 + micros = (now - start) / 1000 /\
  forall s m, says (format_time start now) s m -> s = secs /\ m = micros.
Proof.
  intros start now. exists (as_secs (now - start)), (subsec_micros (now - start)). split; [apply format_says|]. split; [apply micros_lt|].
  split; [symmetry; apply micros_total|]. intros s m H. exact (says_one _ _ _ _ _ H (format_says _)).
Qed.
Print Assumptions C150_says.
Example C150_case_says : format_time 5 1002000005 = bs "[     1.002000s]" /\ format_time 0 999999999 = bs "[     0.999999s]" /\
  format_time 9 3 = bs "[     0.000000s]" /\ format_time 0 1234567000001000 = bs "[1234567.000001s]".
Proof. vm_compute. auto. Qed.

(** For the first million seconds all times are sixteen characters, and sorted as texts they are in the order of time. *)
Theorem C150_order : forall start a b, a - start < 1000000000000000 -> b - start < 1000000000000000 ->
  List.length (format_time start a) = 16%nat /\
  (before (format_time start a) (format_time start b) <-> (a - start) / 1000 < (b - start) / 1000).
Proof.
  intros start a b A B. assert (as_secs (a - start) < 1000000) as A' by (apply N.div_lt_upper_bound; lia).
  assert (as_secs (b - start) < 1000000) as B' by (apply N.div_lt_upper_bound; lia). split; [|apply format_order; assumption].
  unfold format_time. rewrite format_length. assert (List.length (to_dec (as_secs (a - start))) <= 6)%nat; [|lia].
  apply dec_length; [lia|exact A'].
Qed.
Print Assumptions C150_order.
Example C150_case_order : before (format_time 0 9999999000) (format_time 0 10000000000).
Proof. apply C150_order; vm_compute; reflexivity. Qed.
(** After that, not: what is logged at a million seconds, eleven days and a half, is sorted before what was a second earlier. *)
Theorem C150_order_refuted : ~ forall start a b, a < b -> ~ before (format_time start b) (format_time start a).
Proof.
  intros H. apply (H 0 999999000000000 1000000000000000); [lia|].
  replace (format_time 0 1000000000000000) with (bs "[1000000.000000s]") by (vm_compute; reflexivity).
  replace (format_time 0 999999000000000) with (bs "[999999.000000s]") by (vm_compute; reflexivity).
  apply Before_next. apply Before_here. vm_compute. reflexivity.
Qed.
Print Assumptions C150_order_refuted.
