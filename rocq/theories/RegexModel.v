(** A model of the `regex` crate, which is not in /repo, for the core of its syntax:
    characters, escaped punctuation, `.`, `^`, `$`, `*`, `+`, `?`, `|` and groups.
    Classes, counted repetition, flags and escaped letters are not modelled: the model
    refuses them.  It is used for conditions on paths (service-profiles/src/proto.rs:108-120). *)
From Coq Require Import List NArith Bool Arith.
From Verif Require Import Bytes.
Import ListNotations.
Open Scope N_scope.

(** Expressions *)
Inductive re := Eps | Chr (c : N) | Dot | Bol | Eol | Seq (a b : re) | Or (a b : re) | Star (a : re).

(** ** Reading an expression *)

(** An open group: the alternatives that are complete, last first, and the parts of the one being read, last first. *)
Definition frame := (list re * list re)%type.
(** What has been read: whether the last character was a backslash, the innermost group, the ones around it. *)
Record reader := Reader { r_esc : bool; r_top : frame; r_below : list frame }.
(** Nothing *)
Definition start : reader := Reader false ([], []) [].
(** Parts, last first, one after the other *)
Definition seq_of (cur : list re) : re := fold_left (fun acc x => Seq x acc) cur Eps.
(** Alternatives, first first *)
Fixpoint or_of (l : list re) : re :=
  match l with [] => Eps | [a] => a | a :: l => Or a (or_of l) end.
(** The alternatives of a group that ends here *)
Definition branches (f : frame) : list re := rev (seq_of (snd f) :: fst f).
(** Another part *)
Definition add (x : re) (f : frame) : frame := (fst f, x :: snd f).
(** A repetition of the last part, if there is one *)
Definition repeat_last (g : re -> re) (f : frame) : option frame :=
  match snd f with x :: cur => Some (fst f, g x :: cur) | [] => None end.
(** Letters and digits *)
Definition alnum (c : N) : bool :=
  ((48 <=? c) && (c <=? 57)) || ((65 <=? c) && (c <=? 90)) || ((97 <=? c) && (c <=? 122)).
(** One more character *)
Definition read (s : reader) (c : N) : option reader :=
  let '(Reader esc top below) := s in
  let top' f := Some (Reader false f below) in
  let rep g := match repeat_last g top with Some f => top' f | None => None end in
  if esc then if alnum c then None else top' (add (Chr c) top)
  else if c =? 92 then Some (Reader true top below)                       (* \ *)
  else if c =? 124 then top' (seq_of (snd top) :: fst top, [])             (* | *)
  else if c =? 40 then Some (Reader false ([], []) (top :: below))         (* ( *)
  else if c =? 41 then                                                     (* ) *)
    match below with
    | f :: below => Some (Reader false (add (or_of (branches top)) f) below)
    | [] => None
    end
  else if c =? 42 then rep Star                                            (* * *)
  else if c =? 43 then rep (fun x => Seq x (Star x))                       (* + *)
  else if c =? 63 then rep (fun x => Or x Eps)                             (* ? *)
  else if c =? 46 then top' (add Dot top)                                  (* . *)
  else if c =? 94 then top' (add Bol top)                                  (* ^ *)
  else if c =? 36 then top' (add Eol top)                                  (* $ *)
  else if existsb (N.eqb c) [91; 93; 123; 125] then None                   (* [ ] { } *)
  else top' (add (Chr c) top).
(** All of a text *)
Fixpoint reads (s : reader) (t : bytes) : option reader :=
  match t with
  | [] => Some s
  | c :: t => match read s c with Some s => reads s t | None => None end
  end.
(** `Regex::new`: the alternatives of the expression *)
Definition parse_branches (t : bytes) : option (list re) :=
  match reads start t with
  | Some (Reader false top []) => Some (branches top)
  | _ => None
  end.
(** `Regex::new` *)
Definition parse (t : bytes) : option re := option_map or_of (parse_branches t).

(** ** Matching *)

(** Whether some way of matching the expression, after [pre] and at the beginning of [rest], goes on as [k] wants. *)
Fixpoint try (e : re) (pre rest : bytes) (k : bytes -> bytes -> bool) {struct e} : bool :=
  match e with
  | Eps => k pre rest
  | Chr c => match rest with x :: r => (x =? c) && k (pre ++ [x]) r | [] => false end
  | Dot => match rest with x :: r => negb (x =? 10) && k (pre ++ [x]) r | [] => false end
  | Bol => match pre with [] => k pre rest | _ => false end
  | Eol => match rest with [] => k pre rest | _ => false end
  | Seq a b => try a pre rest (fun pre rest => try b pre rest k)
  | Or a b => try a pre rest k || try b pre rest k
  | Star a =>
      (fix star (n : nat) (pre rest : bytes) : bool :=
         k pre rest ||
         match n with
         | O => false
         | S n => try a pre rest (fun pre' rest' => (length rest' <? length rest)%nat && star n pre' rest')
         end) (length rest) pre rest
  end.
(** From here or from further on *)
Fixpoint search (e : re) (pre rest : bytes) : bool :=
  try e pre rest (fun _ _ => true) ||
  match rest with [] => false | c :: r => search e (pre ++ [c]) r end.
(** `Regex::new` accepts *)
Definition re_ok (t : bytes) : bool := match parse t with Some _ => true | None => false end.
(** `Regex::is_match` *)
Definition re_match (t p : bytes) : bool := match parse t with Some e => search e [] p | None => false end.
