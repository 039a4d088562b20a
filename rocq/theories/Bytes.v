(** Byte strings and the functions of Rust's standard library on [str]/[[u8]]
    that the modelled code calls.  These definitions model `core`/`std`, not
    code of /repo; they are part of the trusted reading of the code. *)
From Coq Require Import List NArith Bool Lia Ascii String.
Import ListNotations.
Open Scope N_scope.

(** `[u8]`, `str` *)
Definition bytes := list N.

(** Literals for examples: the bytes of an ASCII string. *)
Definition bs (s : string) : bytes := map N_of_ascii (list_ascii_of_string s).

(** `==` on byte strings. *)
Fixpoint beq (a b : bytes) : bool :=
  match a, b with
  | [], [] => true
  | x :: a', y :: b' => (x =? y) && beq a' b'
  | _, _ => false
  end.

(** [u8::to_ascii_lowercase] and [str::eq_ignore_ascii_case]. *)
Definition lower (c : N) : N := if (65 <=? c) && (c <=? 90) then c + 32 else c.
(** `str::to_ascii_lowercase` *)
Definition lowers (s : bytes) : bytes := map lower s.
(** `str::eq_ignore_ascii_case` *)
Definition eq_ignore_case (a b : bytes) : bool := beq (lowers a) (lowers b).

(** [str::strip_prefix], [str::strip_suffix], [starts_with], [ends_with]. *)
Fixpoint strip_prefix (p s : bytes) : option bytes :=
  match p, s with
  | [], _ => Some s
  | x :: p', y :: s' => if x =? y then strip_prefix p' s' else None
  | _ :: _, [] => None
  end.
(** `str::strip_suffix` *)
Definition strip_suffix (p s : bytes) : option bytes :=
  option_map (@rev N) (strip_prefix (rev p) (rev s)).
(** `str::starts_with` *)
Definition starts_with (p s : bytes) : bool :=
  match strip_prefix p s with Some _ => true | None => false end.
(** `str::ends_with` *)
Definition ends_with (p s : bytes) : bool :=
  match strip_suffix p s with Some _ => true | None => false end.

(** [str::trim_end_matches] for one character. *)
Fixpoint drop_while_eq (c : N) (s : bytes) : bytes :=
  match s with
  | x :: s' => if x =? c then drop_while_eq c s' else s
  | [] => []
  end.
(** `str::trim_end_matches` *)
Definition trim_end (c : N) (s : bytes) : bytes := rev (drop_while_eq c (rev s)).
(** `str::trim_start_matches` *)
Definition trim_start (c : N) (s : bytes) : bytes := drop_while_eq c s.

(** [str::split] on one character: always at least one piece. *)
Fixpoint split (c : N) (s : bytes) : list bytes :=
  match s with
  | [] => [[]]
  | x :: s' =>
      if x =? c then [] :: split c s'
      else match split c s' with
           | [] => [[x]]
           | p :: ps => (x :: p) :: ps
           end
  end.

(** [str::split_once]: at the first occurrence. *)
Fixpoint split_once (c : N) (s : bytes) : option (bytes * bytes) :=
  match s with
  | [] => None
  | x :: s' =>
      if x =? c then Some ([], s')
      else match split_once c s' with
           | Some (a, b) => Some (x :: a, b)
           | None => None
           end
  end.

(** [str::rsplit_once]: at the last occurrence. *)
Definition rsplit_once (c : N) (s : bytes) : option (bytes * bytes) :=
  match split_once c (rev s) with
  | Some (a, b) => Some (rev b, rev a)
  | None => None
  end.

(** `[_]::join` with one character *)
Fixpoint join (c : N) (l : list bytes) : bytes :=
  match l with
  | [] => []
  | [p] => p
  | p :: ps => p ++ [c] ++ join c ps
  end.

(** Decimal digits. *)
Definition is_digit (c : N) : bool := (48 <=? c) && (c <=? 57).

(** Value of a string of digits, most significant first, starting from [acc];
    [None] at the first non-digit or as soon as the value exceeds [max].  This
    is the loop of [from_str_radix] for unsigned integers: `checked_mul(10)`
    then `checked_add(digit)`. *)
Fixpoint parse_digits (max acc : N) (s : bytes) : option N :=
  match s with
  | [] => Some acc
  | c :: s' =>
      if is_digit c then
        let acc' := acc * 10 + (c - 48) in
        if acc' <=? max then parse_digits max acc' s' else None
      else None
  end.

(** [<uN as FromStr>::from_str]: one optional leading '+', at least one digit,
    no overflow. *)
Definition parse_uint (max : N) (s : bytes) : option N :=
  match s with
  | [] => None
  | 43 :: [] => None
  | 43 :: s' => parse_digits max 0 s'
  | _ => parse_digits max 0 s
  end.

(** `u8::MAX` *)
Definition u8_max : N := 255.
(** `u16::MAX` *)
Definition u16_max : N := 65535.
(** `u32::MAX` *)
Definition u32_max : N := 4294967295.
(** `u64::MAX` *)
Definition u64_max : N := 18446744073709551615.

(** [Display] for unsigned integers: decimal digits without leading zeros. *)
Fixpoint to_dec_aux (fuel : nat) (n : N) : bytes :=
  match fuel with
  | O => []
  | S f => if n <? 10 then [48 + n]
           else to_dec_aux f (n / 10) ++ [48 + n mod 10]
  end.
(** `to_string` of an unsigned integer *)
Definition to_dec (n : N) : bytes := to_dec_aux (S (N.to_nat (N.log2 n))) n.

(** `len()` *)
Definition len (s : bytes) : N := N.of_nat (List.length s).
