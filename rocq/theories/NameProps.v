(** Properties C41 - C43: DNS names, suffixes and named addresses. *)
From Coq Require Import List NArith String.
From Verif Require Import Bytes NameModel NameSpec NameProofs.
Import ListNotations.
Open Scope N_scope.
Open Scope string_scope.

(** ** C41 *)
Theorem C41_accepted_iff_valid :
  forall s n, name_from_str s = Some n <-> dns_name s /\ n = lowers s.
Proof. exact name_from_str_spec. Qed.
Print Assumptions C41_accepted_iff_valid.

Theorem C41_case_insensitive :
  forall a b n m, name_from_str a = Some n -> name_from_str b = Some m ->
    (n = m <-> lowers a = lowers b) /\ (name_ref_eq a b = true <-> n = m).
Proof. exact name_case_insensitive. Qed.
Print Assumptions C41_case_insensitive.

Theorem C41_reparse :
  forall s n, name_from_str s = Some n -> name_from_str n = Some n.
Proof. exact name_reparse. Qed.
Print Assumptions C41_reparse.

Example C41_demo :
  name_from_str (bs "Foo-1_x.Example.com.") = Some (bs "foo-1_x.example.com.") /\
  dns_name (bs "Foo-1_x.Example.com.") /\
  ~ dns_name (bs "foo.1") /\ ~ dns_name (bs "-a") /\ ~ dns_name (bs "a-.b") /\
  ~ dns_name (bs "a..b") /\ ~ dns_name (bs ".") /\ ~ dns_name (bs "10.1.2.3").
Proof.
  repeat split; try (intros H; apply valid_dns_iff in H; vm_compute in H; discriminate);
    try (apply valid_dns_iff; vm_compute; reflexivity).
Qed.

(** ** C42 *)
Theorem C42_suffix_contains :
  forall s name, dns_name name -> (forall n, s = SName n -> dns_name n) ->
    (suffix_contains s name = true <-> contained s name).
Proof. exact suffix_contains_iff. Qed.
Print Assumptions C42_suffix_contains.

Theorem C42_name_match :
  forall l name, dns_name name -> (forall n, In (SName n) l -> dns_name n) ->
    (name_match l name = true <-> exists s, In s l /\ contained s name).
Proof. exact name_match_iff. Qed.
Print Assumptions C42_name_match.

Example C42_demo :
  dns_name (bs "foo.bar.bah.") /\ dns_name (bs "bar.bah") /\ contained (SName (bs "bar.bah")) (bs "foo.bar.bah.") /\
  dns_name (bs "foobar.bah") /\ ~ contained (SName (bs "bar.bah")) (bs "foobar.bah").
Proof.
  assert (H1 : dns_name (bs "foo.bar.bah.")) by (apply valid_dns_iff; reflexivity).
  assert (H2 : dns_name (bs "bar.bah")) by (apply valid_dns_iff; reflexivity).
  assert (H3 : dns_name (bs "foobar.bah")) by (apply valid_dns_iff; reflexivity).
  repeat split; auto; try apply H1; try apply H2; try apply H3.
  - apply C42_suffix_contains; [easy|intros n E; now injection E as <-|reflexivity].
  - intros H. apply C42_suffix_contains in H; [discriminate|easy|intros n E; now injection E as <-].
Qed.

(** ** C43 *)
Theorem C43_round_trip :
  forall s n p, name_from_str s = Some n -> p <= u16_max ->
    name_addr_from_str (name_addr_to_string (NameAddr n p)) =
    inl (NameAddr (without_trailing_dot n) p).
Proof. exact name_addr_round_trip. Qed.
Print Assumptions C43_round_trip.

(** Exactly the texts `host:port` with a valid host name and a 16-bit decimal
    port (with an optional '+') are accepted. *)
Theorem C43_accepts_iff :
  forall t a, name_addr_from_str t = inl a <->
    exists host port, t = (host ++ 58 :: port)%list /\ ~ In 58 port /\
      parse_uint u16_max port = Some (na_port a) /\ dns_name host /\ na_name a = lowers host.
Proof. exact name_addr_from_str_iff. Qed.
Print Assumptions C43_accepts_iff.

Example C43_demo :
  name_addr_to_string (NameAddr (bs "a.b.") 8080) = bs "a.b:8080" /\
  name_addr_from_str (bs "a.b:8080") = inl (NameAddr (bs "a.b") 8080) /\
  name_addr_from_str (bs "a.b") = inr MissingPort /\
  name_addr_from_str (bs "a.b:65536") = inr MissingPort /\
  name_addr_from_str (bs ":80") = inr InvalidHost.
Proof. repeat split; vm_compute; reflexivity. Qed.
