(** The theorems about the routes of TLS connections (property C94). *)
From Coq Require Import String List NArith.
From Verif Require Import Bytes NameModel RouteModel RouteSpec TlsRouteModel TlsRouteSpec TlsRouteProofs.
Import ListNotations.
Open Scope N_scope.

(** A connection takes the first of the best routes for the name that its client asks for. *)
Theorem C94_first_best :
  forall P (routes : list (tls_route P)) sni p, tls_select routes sni = Some p -> tls_first_best routes sni p.
Proof. exact @tls_select_some. Qed.
Print Assumptions C94_first_best.

(** It takes none only if none applies. *)
Theorem C94_none :
  forall P (routes : list (tls_route P)) sni,
    tls_select routes sni = None <-> forall rt r, In rt routes -> ~ tls_applies rt sni r.
Proof. exact @tls_select_none. Qed.
Print Assumptions C94_none.

(** The names that a route's name stands for *)
Theorem C94_name :
  forall m sni, (exists s, summarize_sni m sni = Some s) <-> sni_accepts m sni.
Proof. exact sni_iff. Qed.
Print Assumptions C94_name.

(** A wildcard's text is what is left of it without the asterisk. *)
Theorem C94_wildcard :
  forall name, exists labels, sni_from_str (42 :: 46 :: name) = SSuffix labels /\ suffix_text labels = 46 :: name.
Proof. exact (fun name => ex_intro _ _ (conj eq_refl (split_rev_text name))). Qed.
Print Assumptions C94_wildcard.

(** Names written in lower case are found whatever the case in which the client writes the name.  What is missing is
    names that are not. *)
Theorem C94_case_partial :
  forall m asked sni, lower_match m -> name_from_str asked = Some sni ->
    ((exists s, summarize_sni m sni = Some s) <-> sni_accepts_any_case m asked).
Proof. exact sni_any_case. Qed.
Print Assumptions C94_case_partial.

(** Those are not found, not even when the client writes the name in the same way. *)
Theorem C94_case_refuted :
  ~ forall m asked sni, name_from_str asked = Some sni -> sni_accepts m asked ->
      exists s, summarize_sni m sni = Some s.
Proof.
  intros H. destruct (H (SExact (bs "Example.com")) (bs "Example.com") (bs "example.com") eq_refl) as [s Q].
  - cbn. right. split.
    + intros [n Q]. apply (f_equal (@rev N)) in Q. rewrite rev_app_distr in Q. vm_compute in Q. discriminate.
    + constructor. intros h Q. apply (f_equal (@rev N)) in Q. rewrite rev_app_distr in Q. vm_compute in Q. discriminate.
  - vm_compute in Q. discriminate.
Qed.
Print Assumptions C94_case_refuted.

(** A wildcard, an exact name and a route for all; the client's name has a dot. *)
Definition C94_routes : list (tls_route N) :=
  [TlsRoute [] 0; TlsRoute [sni_from_str (bs "*.example.com"%string)] 1;
   TlsRoute [sni_from_str (bs "*.com"%string); sni_from_str (bs "a.example.com"%string)] 2;
   TlsRoute [sni_from_str (bs "a.example.com"%string)] 3].
Example C94_example :
  name_from_str (bs "A.Example.com.") = Some (bs "a.example.com.") /\
  tls_select C94_routes (bs "a.example.com.") = Some 2 /\
  tls_select C94_routes (bs "b.example.com") = Some 1 /\
  tls_select C94_routes (bs "example.com") = Some 2 /\
  tls_select C94_routes (bs "example.org") = Some 0 /\
  tls_select (tl C94_routes) (bs "example.org") = None /\
  lower_match (sni_from_str (bs "*.example.com")) /\
  sni_accepts_any_case (sni_from_str (bs "*.example.com")) (bs "A.Example.com.").
Proof.
  repeat split; try (vm_compute; reflexivity).
  - vm_compute. intros l [<-|[<-|[]]]; reflexivity.
  - assert (L : lower_match (sni_from_str (bs "*.example.com"))) by (vm_compute; intros l [<-|[<-|[]]]; reflexivity).
    apply (proj1 (C94_case_partial (sni_from_str (bs "*.example.com")) (bs "A.Example.com.") (bs "a.example.com.") L eq_refl)).
    eexists. vm_compute. reflexivity.
Qed.
