(** What the theorems about service profiles say, apart from the model's own functions. *)
From Coq Require Import String List NArith ZArith QArith Bool.
From Verif Require Import Bytes NameModel EndpointModel ClassifyModel RegexModel ProfileModel.
From Verif Require DistributeModel.
Import ListNotations.
Open Scope N_scope.

(** All, or some, of some statements *)
Definition every (l : list Prop) : Prop := fold_right and True l.
Definition some (l : list Prop) : Prop := fold_right or False l.

(** [kept R l l']: what the elements of [l] stand for, in order, leaving out those that stand for nothing *)
Inductive kept {A B} (R : A -> B -> Prop) : list A -> list B -> Prop :=
| Kept_nil : kept R [] []
| Kept_one : forall a b l l', R a b -> kept R l l' -> kept R (a :: l) (b :: l')
| Kept_skip : forall a l l', (forall b, ~ R a b) -> kept R l l' -> kept R (a :: l) l'.

(** The first element that satisfies something *)
Definition first_that {A} (P : A -> Prop) (l : list A) (x : A) : Prop :=
  exists a b, l = a ++ x :: b /\ P x /\ forall y, In y a -> ~ P y.

(** ** Conditions on requests *)

(** A text without the white space around it *)
Definition stripped (s core : bytes) : Prop :=
  exists a b, s = a ++ core ++ b /\
    (forall c, In c a -> is_space c = true) /\ (forall c, In c b -> is_space c = true) /\
    (forall c r, core = c :: r -> is_space c = false) /\ (forall c r, core = r ++ [c] -> is_space c = false).
(** The expression that stands for a condition on paths: with a circumflex before and a dollar sign after,
    where it has none *)
Definition pattern (regex t : bytes) : Prop :=
  exists core h l, stripped regex core /\ t = h ++ core ++ l /\
    ((h = [] /\ exists r, core = [94] ++ r) \/ (h = [94] /\ ~ exists r, core = [94] ++ r)) /\
    ((l = [] /\ exists r, core = r ++ [36]) \/ (l = [36] /\ ~ exists r, core = r ++ [36])).

Section Conditions.
Variable method_of : pb_method -> option bytes.
Variable re_ok : bytes -> bool.
Variable re_match : bytes -> bytes -> bool.

(** A condition can be used: its expression can be read, its method is known, and so on.  Of a list of conditions
    this is not required. *)
Fixpoint usable (c : pb_req) : Prop :=
  match c with
  | Q_unset => False
  | Q_all _ | Q_any _ => True
  | Q_not m => usable m
  | Q_path r => exists t, pattern r t /\ re_ok t = true
  | Q_method t => exists m n, t = Some m /\ method_of m = Some n
  end.
(** What the proxy takes a condition to mean: in a list, those that cannot be used count for nothing. *)
Fixpoint holds (c : pb_req) (q : request) : Prop :=
  match c with
  | Q_unset => False
  | Q_all ms => every (map (fun m => usable m -> holds m q) ms)
  | Q_any ms => some (map (fun m => usable m /\ holds m q) ms)
  | Q_not m => ~ holds m q
  | Q_path r => exists t, pattern r t /\ re_match t (q_path q) = true
  | Q_method t => exists m, t = Some m /\ method_of m = Some (q_method q)
  end.
(** Every part of a condition can be used. *)
Fixpoint sound (c : pb_req) : Prop :=
  match c with
  | Q_all ms | Q_any ms => every (map sound ms)
  | Q_not m => sound m
  | c => usable c
  end.
(** What a condition says *)
Fixpoint says (c : pb_req) (q : request) : Prop :=
  match c with
  | Q_all ms => every (map (fun m => says m q) ms)
  | Q_any ms => some (map (fun m => says m q) ms)
  | Q_not m => ~ says m q
  | c => holds c q
  end.
(** A route has a usable condition that holds of a request. *)
Definition applies (q : request) (o : pb_route) : Prop :=
  exists c, pr_condition o = Some c /\ usable c /\ holds c q.
End Conditions.

(** ** Conditions on responses *)

(** As above, but a list is of use only if one of its conditions is; a range must be of statuses, of which the last
    sixteen bits are taken. *)
Fixpoint rsp_usable (c : pb_rsp) : Prop :=
  match c with
  | S_unset => False
  | S_all ms | S_any ms => some (map rsp_usable ms)
  | S_not m => rsp_usable m
  | S_status min max => 100 <= min mod 65536 < 1000 /\ 100 <= max mod 65536 < 1000
  end.
Fixpoint rsp_holds (c : pb_rsp) (st : N) : Prop :=
  match c with
  | S_unset => False
  | S_all ms => every (map (fun m => rsp_usable m -> rsp_holds m st) ms)
  | S_any ms => some (map (fun m => rsp_usable m /\ rsp_holds m st) ms)
  | S_not m => ~ rsp_holds m st
  | S_status min max => min mod 65536 <= st <= max mod 65536
  end.
(** A class is of a response. *)
Definition of_class (st : N) (o : pb_class) : Prop :=
  exists c, pc_condition o = Some c /\ rsp_usable c /\ rsp_holds c st.

(** ** Budgets *)

(** The nanoseconds of a duration *)
Definition nanos (d : pb_duration) : Z := (fst d * 1000000000 + snd d)%Z.
(** A budget for retries that makes sense: a time from 1 to 60 seconds, written without negative numbers and with at
    most a second of nanoseconds; at most 2^31 - 1 retries; a ratio from 0 to 1000. *)
Definition budget_of (o : pb_budget) (b : budget) : Prop :=
  (exists d, pb_ttl o = Some d /\ (0 <= fst d)%Z /\ (0 <= snd d <= 1000000000)%Z /\
    (1000000000 <= nanos d <= 60000000000)%Z /\ Z.of_N (b_ttl b) = nanos d) /\
  pb_min_retries o < 2 ^ 31 /\ b_min_retries b = pb_min_retries o /\
  (exists q, pb_ratio o = Fin q /\ (0 <= q <= 1000)%Q) /\ b_ratio b = pb_ratio o.

(** What a route is made into: its labels; its classes; its retries, if it has any, use the budget of the profile; its
    timeout, if it is not negative. *)
Definition describes (o : pb_route) (bud : option pb_budget) (r : route) : Prop :=
  (NoDup (map fst (pr_labels o)) -> forall k v, In (k, v) (r_labels r) <-> In (k, v) (pr_labels o)) /\
  (forall st fail, match_class (r_classes r) st = Some (BreakerModel.Http fail st) <->
     exists c, first_that (of_class st) (pr_classes o) c /\ pc_failure c = fail) /\
  (forall b, r_retries r = Some b <-> pr_retryable o = true /\ exists x, bud = Some x /\ budget_of x b) /\
  (forall t, r_timeout r = Some t <-> exists d, pr_timeout o = Some d /\ nanos d = Z.of_N t).

(** ** Destinations *)

(** An override that is of use *)
Definition target_of (o : pb_dst) (t : target) : Prop :=
  pd_weight o <> 0 /\ name_addr_from_str (pd_authority o) = inl (t_addr t) /\ t_weight t = pd_weight o.
(** The sum of weights *)
Fixpoint total (ts : list target) : N := match ts with [] => 0 | t :: ts => t_weight t + total ts end.
(** A destination: its address, and as the authority of its requests its name without dots at the end, with the port
    unless that is 80 *)
Definition backend_for (a : name_addr) : concrete :=
  Concrete a (trim_end 46 (na_name a) ++ if na_port a =? 80 then [] else [58] ++ to_dec (na_port a)).
(** Where requests go *)
Definition goes (addr : name_addr) (ts : list target) : DistributeModel.distribution concrete :=
  match ts with
  | [] => DistributeModel.First_available [backend_for addr]
  | [t] => DistributeModel.First_available [backend_for (t_addr t)]
  | _ => DistributeModel.Random_available (map (fun t => (backend_for (t_addr t), t_weight t)) ts)
  end.

(** ** Expressions *)

(** [den e pre mid post]: the expression matches [mid] where it stands between [pre] and [post]. *)
Inductive den : re -> bytes -> bytes -> bytes -> Prop :=
| Den_eps : forall pre post, den Eps pre [] post
| Den_chr : forall c pre post, den (Chr c) pre [c] post
| Den_dot : forall c pre post, c <> 10 -> den Dot pre [c] post
| Den_bol : forall post, den Bol [] [] post
| Den_eol : forall pre, den Eol pre [] []
| Den_seq : forall a b pre m m' post, den a pre m (m' ++ post) -> den b (pre ++ m) m' post -> den (Seq a b) pre (m ++ m') post
| Den_left : forall a b pre m post, den a pre m post -> den (Or a b) pre m post
| Den_right : forall a b pre m post, den b pre m post -> den (Or a b) pre m post
| Den_done : forall a pre post, den (Star a) pre [] post
| Den_more : forall a pre m m' post, den a pre m (m' ++ post) -> den (Star a) (pre ++ m) m' post -> den (Star a) pre (m ++ m') post.
(** The expression written [r] matches all of a text, *)
Definition whole (r p : bytes) : Prop := exists e, parse r = Some e /\ den e [] p [].
(** a beginning of it, *)
Definition prefix (r p : bytes) : Prop := exists e m post, parse r = Some e /\ p = m ++ post /\ den e [] m post.
(** an end of it, *)
Definition suffix (r p : bytes) : Prop := exists e pre m, parse r = Some e /\ p = pre ++ m /\ den e pre m [].
(** or some part of it. *)
Definition somewhere (r p : bytes) : Prop :=
  exists e pre m post, parse r = Some e /\ p = pre ++ m ++ post /\ den e pre m post.

(** The characters of an expression, with whether each is escaped by the one before it, and how many groups are open *)
Fixpoint scan (esc : bool) (depth : nat) (r : bytes) : list (N * bool * nat) :=
  match r with
  | [] => []
  | c :: r =>
      (c, esc, depth) ::
      (if esc then scan false depth r
       else if c =? 92 then scan true depth r
       else if c =? 40 then scan false (S depth) r
       else if c =? 41 then scan false (pred depth) r
       else scan false depth r)
  end.
(** It has no alternatives, except in groups. *)
Definition no_bar (r : bytes) : Prop := ~ In (124, false, O) (scan false O r).
(** A dollar sign at its end is not escaped. *)
Definition ends_plain (r : bytes) : Prop := forall d, ~ exists l, scan false O r = l ++ [(36, true, d)].
(** A circumflex at its beginning is not repeated. *)
Definition begins_plain (r : bytes) : Prop := forall c s, In c [42; 43; 63] -> r <> [94; c] ++ s.

(** The expression for a text: all characters but letters and digits are escaped. *)
Definition escape (s : bytes) : bytes :=
  flat_map (fun c => if ((48 <=? c) && (c <=? 57)) || ((65 <=? c) && (c <=? 90)) || ((97 <=? c) && (c <=? 122)) then [c] else [92; c]) s.
