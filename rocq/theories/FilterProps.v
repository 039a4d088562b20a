(** Properties C06 and C07: request filters. *)
From Coq Require Import List NArith String.
From Verif Require Import Bytes RouteModel FilterModel FilterSpec FilterProofs.
Import ListNotations.
Open Scope N_scope.
Open Scope string_scope.

(** ** C06 *)
Theorem C06_modify_header :
  forall f hs n vs, values n (modify_apply f hs) vs <-> expected_values f hs n vs.
Proof. exact modify_header_values. Qed.
Print Assumptions C06_modify_header.

Example C06_demo :
  let f := ModifyHeader [(bs "a", bs "2"); (bs "b", bs "9"); (bs "c", bs "9")]
             [(bs "b", bs "3"); (bs "b", bs "4")] [bs "c"] in
  let hs := [(bs "a", bs "1"); (bs "b", bs "1"); (bs "c", bs "1"); (bs "d", bs "1")] in
  expected_values f hs (bs "a") [bs "1"; bs "2"] /\ expected_values f hs (bs "b") [bs "4"] /\
  expected_values f hs (bs "c") [] /\ expected_values f hs (bs "d") [bs "1"].
Proof.
  cbv zeta. repeat split; apply C06_modify_header; apply values_get_all; vm_compute; reflexivity.
Qed.

(** ** C07 *)
Theorem C07_redirect_sound :
  forall pq_valid r orig rm st loc,
    redirect_apply pq_valid r orig rm = ROk (Some (Redirection st loc)) ->
    ~ same_uri loc orig /\
    st = match rd_status r with Some s => s | None => 301 end /\
    (exists s, u_scheme loc = Some s /\ chosen_scheme r orig s /\
       exists a, u_auth loc = Some a /\ chosen_authority r orig s a) /\
    ((rd_path r = None /\ u_path loc = u_path orig /\ u_query loc = u_query orig) \/
     (rd_path r <> None /\ exists t, chosen_text r orig rm t /\ pq_text (u_path loc) (u_query loc) t)).
Proof. exact redirect_sound. Qed.
Print Assumptions C07_redirect_sound.

Theorem C07_redirect_none_means_there_already :
  forall pq_valid r orig rm,
    redirect_apply pq_valid r orig rm = ROk None ->
    exists s a p q, chosen_scheme r orig s /\ chosen_authority r orig s a /\
      ((rd_path r = None /\ p = u_path orig /\ q = u_query orig) \/
       (rd_path r <> None /\ exists t, chosen_text r orig rm t /\ pq_text p q t)) /\
      same_uri (Uri (Some s) (Some a) p q) orig.
Proof. exact redirect_none. Qed.
Print Assumptions C07_redirect_none_means_there_already.

Theorem C07_redirect_panics_only_without_path :
  forall pq_valid r orig rm,
    redirect_apply pq_valid r orig rm = RPanic ->
    rd_path r = None /\ u_scheme orig = None /\ exists a, u_auth orig = Some a.
Proof. exact redirect_panic_iff. Qed.
Print Assumptions C07_redirect_panics_only_without_path.

(** Applying a redirect never panics: refuted by a request in authority form
    (CONNECT), which the implicit rule "/" matches. *)
Theorem C07_redirect_total_refuted :
  exists r orig rm,
    http_find [Route [] [Rule [] tt]]
      (Request (bs "CONNECT") (Some (bs "example.com")) (u_path orig) None []) = Some ((None, rm), tt) /\
    orig = Uri None (Some (Authority (bs "example.com") (Some 443))) [] None /\
    forall pq_valid, redirect_apply pq_valid r orig rm = RPanic.
Proof.
  exact (ex_intro _ (Redirect (Some HTTPS) None None None)
    (ex_intro _ _ (ex_intro _ _ (conj eq_refl (conj eq_refl (fun _ => eq_refl)))))).
Qed.
Print Assumptions C07_redirect_total_refuted.

(** Replacing a prefix by "/" doubles the slash. *)
Theorem C07_replace_prefix_with_root_refuted :
  exists r orig rm st loc,
    rd_path r = Some (ReplacePrefixMatch (bs "/")) /\ u_path orig = bs "/foo/bar" /\
    rm_path rm = PMPrefix 4 /\
    redirect_apply (fun _ => true) r orig rm = ROk (Some (Redirection st loc)) /\
    u_path loc = bs "//bar".
Proof.
  exact (ex_intro _ (Redirect None None (Some (ReplacePrefixMatch (bs "/"))) None)
   (ex_intro _ (Uri (Some HTTP) (Some (Authority (bs "h") None)) (bs "/foo/bar") None)
   (ex_intro _ (RequestMatch (PMPrefix 4) 0 0 false)
   (ex_intro _ 301 (ex_intro _ (Uri (Some HTTP) (Some (Authority (bs "h") None)) (bs "//bar") None)
     (conj eq_refl (conj eq_refl (conj eq_refl (conj eq_refl eq_refl))))))))).
Qed.
Print Assumptions C07_replace_prefix_with_root_refuted.

Example C07_demo :
  redirect_apply (fun _ => true)
    (Redirect (Some HTTPS) (Some (APort 8443)) (Some (ReplacePrefixMatch (bs "/new"))) (Some 302))
    (Uri (Some HTTP) (Some (Authority (bs "h") (Some 80))) (bs "/old/x") (Some (bs "a=b")))
    (RequestMatch (PMPrefix 4) 0 0 false)
  = ROk (Some (Redirection 302
      (Uri (Some HTTPS) (Some (Authority (bs "h") (Some 8443))) (bs "/new/x") (Some (bs "a=b"))))).
Proof. vm_compute. reflexivity. Qed.
