(** Model of linkerd/dns/name and of the named addresses of linkerd/addr. *)
From Coq Require Import List NArith Bool.
From Verif Require Import Bytes.
Import ListNotations.
Open Scope N_scope.

(** ** linkerd/dns/name/src/name.rs *)

Definition is_alpha_or_underscore (c : N) : bool :=
  ((97 <=? c) && (c <=? 122)) || ((65 <=? c) && (c <=? 90)) || (c =? 95).

(** name.rs:188-252, the loop, once at least one byte has been read: `at_end`
    is tested after every byte. *)
Fixpoint dns_scan (label_length : N) (all_numeric ends_with_hyphen : bool) (input : bytes) : bool :=
  match input with
  | [] => negb ends_with_hyphen && negb all_numeric
  | c :: rest =>
      if c =? 45 then
        if label_length =? 0 then false
        else if 63 <? label_length + 1 then false
        else dns_scan (label_length + 1) false true rest
      else if is_digit c then
        let all_numeric := if label_length =? 0 then true else all_numeric in
        if 63 <? label_length + 1 then false
        else dns_scan (label_length + 1) all_numeric false rest
      else if is_alpha_or_underscore c then
        if 63 <? label_length + 1 then false
        else dns_scan (label_length + 1) false false rest
      else if c =? 46 then
        if ends_with_hyphen then false
        else if label_length =? 0 then false
        else dns_scan 0 all_numeric ends_with_hyphen rest
      else false
  end.

(** name.rs:176-253.  Reading a byte of an empty input fails. *)
Definition is_valid_dns_id (hostname : bytes) : bool :=
  if 253 <? len hostname then false
  else match hostname with
       | [] => false
       | _ => dns_scan 0 false false hostname
       end.

(** name.rs:56-59, 93-100, 116-135: parsing lower-cases.  A valid name is ASCII,
    so the conversion to UTF-8 cannot fail. *)
Definition name_from_str (s : bytes) : option bytes :=
  if is_valid_dns_id s then Some (lowers s) else None.

(** name.rs:148-152 *)
Definition name_ref_eq (a b : bytes) : bool := eq_ignore_case a b.

(** name.rs:82-84 *)
Definition without_trailing_dot (name : bytes) : bytes := trim_end 46 name.

(** name.rs:77-79 *)
Definition LOCALHOST_DOT : bytes := [108; 111; 99; 97; 108; 104; 111; 115; 116; 46].
(** name.rs:77-79 *)
Definition is_localhost (name : bytes) : bool := eq_ignore_case name LOCALHOST_DOT.

(** ** linkerd/dns/name/src/suffix.rs *)

(** suffix.rs:5-8 *)
Inductive suffix := SRoot | SName (n : bytes).

(** suffix.rs:28-34 *)
Definition suffix_from_str (s : bytes) : option suffix :=
  if beq s [46] then Some SRoot
  else match name_from_str s with Some n => Some (SName n) | None => None end.

(** suffix.rs:38-55 *)
Definition suffix_contains (s : suffix) (name : bytes) : bool :=
  match s with
  | SRoot => true
  | SName sfx =>
      let name := without_trailing_dot name in
      let sfx := without_trailing_dot sfx in
      ends_with sfx name &&
      ((len name =? len sfx) ||
       (let idx := (length name - length sfx)%nat in
        ends_with [46] (firstn idx name)))
  end.

(** addr_match.rs:105-107 *)
Definition name_match (l : list suffix) (name : bytes) : bool :=
  existsb (fun s => suffix_contains s name) l.

(** ** linkerd/addr/src/lib.rs *)

(** lib.rs:22-25 *)
Record name_addr := NameAddr { na_name : bytes; na_port : N }.

(** lib.rs:28-36 *)
Inductive addr_error := InvalidHost | MissingPort.

(** lib.rs:192-199 *)
Definition from_str_and_port (host : bytes) (port : N) : name_addr + addr_error :=
  match host with
  | [] => inr InvalidHost
  | _ => match name_from_str host with
         | Some n => inl (NameAddr n port)
         | None => inr InvalidHost
         end
  end.

(** lib.rs:180-188; `rsplitn(2, ':')` yields what follows the last colon, then
    what precedes it, or the whole text when there is no colon. *)
Definition name_addr_from_str (hostport : bytes) : name_addr + addr_error :=
  match rsplit_once 58 hostport with
  | Some (host, p) =>
      match parse_uint u16_max p with
      | Some port => from_str_and_port host port
      | None => inr MissingPort
      end
  | None =>
      match parse_uint u16_max hostport with
      | Some _ => inr InvalidHost
      | None => inr MissingPort
      end
  end.

(** lib.rs:241-245 *)
Definition name_addr_to_string (a : name_addr) : bytes :=
  without_trailing_dot (na_name a) ++ [58] ++ to_dec (na_port a).

(** lib.rs:230-238, the text handed to the `http` crate. *)
Definition as_http_authority (a : name_addr) : bytes :=
  if na_port a =? 80 then without_trailing_dot (na_name a) else name_addr_to_string a.
