(** Python built-ins used by the modelled code: text, exceptions as values,
    decimal numbers, insertion-ordered dictionaries, [sorted(set(..))].
    Text is restricted to 8-bit characters; character classes are the ASCII ones
    ([\d], [\w], [str.strip] on the ASCII blanks). *)
From Coq Require Import String Ascii List ZArith NArith Bool.
Import ListNotations.
Open Scope list_scope.

(** Python texts; non-ASCII characters do not occur in the inputs considered
    (scaks/parsers/rxn_parser.py 21-40 and all other users). *)
Definition str := list ascii.

(** Literal text. Such as those of scaks/parsers/rxn_parser.py 298-336. *)
Definition L (s : string) : str := list_ascii_of_string s.

(** A literal of one character (rxn_parser.py 153). *)
Definition ch (s : string) : ascii :=
  match s with String c _ => c | EmptyString => zero end.

(** [ord(c)] (comparison of texts, parser_base.py 105-109). *)
Definition code (c : ascii) : N := N_of_ascii c.

(** A range of a character class such as [a-z] (rxn_parser.py 298-299). *)
Definition in_range (lo hi : N) (c : ascii) : bool :=
  (lo <=? code c)%N && (code c <=? hi)%N.

(** [\d] (rxn_parser.py 298-299) *)
Definition is_digit (c : ascii) : bool := in_range 48 57 c.
(** [str.isupper], [str.islower] on one ASCII character. functions.py 42-44. *)
Definition is_upper (c : ascii) : bool := in_range 65 90 c.
(** functions.py 44. *)
Definition is_lower (c : ascii) : bool := in_range 97 122 c.
(** [a-zA-Z] (rxn_parser.py 298-299) *)
Definition is_letter (c : ascii) : bool := is_upper c || is_lower c.
(** [\w] (rxn_parser.py 298) *)
Definition is_word (c : ascii) : bool :=
  is_letter c || is_digit c || Ascii.eqb c "_".
(** Characters removed by [str.strip()]: tab, LF, VT, FF, CR, FS, GS, RS, US, space.
    rxn_parser.py 38, 153. *)
Definition is_space (c : ascii) : bool :=
  in_range 9 13 c || in_range 28 32 c.

(** [str] equality and membership of a character ([c in s]). rxn_parser.py 325-336. *)
Fixpoint str_eqb (a b : str) : bool :=
  match a, b with
  | [], [] => true
  | x :: a', y :: b' => Ascii.eqb x y && str_eqb a' b'
  | _, _ => false
  end.

(** [c in s] (rxn_parser.py 333, parser_base.py 306). *)
Definition has_char (c : ascii) (s : str) : bool := existsb (Ascii.eqb c) s.

(** [s in l] for a list of texts (rxn_parser.py 162-200, check_utilities.py 55). *)
Definition str_mem (s : str) (l : list str) : bool := existsb (str_eqb s) l.

(** [str.lstrip], [str.strip]. rxn_parser.py 38, 153. *)
Fixpoint lstrip (s : str) : str :=
  match s with
  | [] => []
  | c :: t => if is_space c then lstrip t else s
  end.

(** [str.strip] (rxn_parser.py 38, 153). *)
Definition strip (s : str) : str := rev (lstrip (rev (lstrip s))).

(** [s.split(c)] for a one-character separator. rxn_parser.py 153, 445. *)
Fixpoint split_on (c : ascii) (s : str) : list str :=
  match s with
  | [] => [[]]
  | x :: t =>
      if Ascii.eqb x c then [] :: split_on c t
      else match split_on c t with
           | [] => [[x]]
           | w :: ws => (x :: w) :: ws
           end
  end.

(** [sep.join(l)]. rxn_parser.py 446, parser_base.py 236-237. *)
Fixpoint join (sep : str) (l : list str) : str :=
  match l with
  | [] => []
  | [x] => x
  | x :: t => x ++ sep ++ join sep t
  end.

(** [int(s)] for a text of decimal digits. rxn_parser.py 319, 323, 370. *)
Definition digit_val (c : ascii) : Z := Z.of_N (code c) - 48.
(** [int(s)], rxn_parser.py 319, 323, 370. *)
Definition int_of (s : str) : Z :=
  fold_left (fun acc c => acc * 10 + digit_val c)%Z s 0%Z.

(** [str(n)] for an integer. mean_field_solver.py 330, 342. *)
Definition digit_char (d : N) : ascii := ascii_of_N (48 + d).

(** The digits, from the last (mean_field_solver.py 330, 342). *)
Fixpoint dec_aux (fuel : nat) (n : N) (acc : str) : str :=
  match fuel with
  | O => acc
  | S f =>
      let acc' := digit_char (n mod 10) :: acc in
      if (n / 10 =? 0)%N then acc' else dec_aux f (n / 10)%N acc'
  end.

(** [str(n)] for a natural number (mean_field_solver.py 330, 342). *)
Definition dec (n : N) : str := dec_aux (S (N.size_nat n)) n [].

(** [str(n)] (mean_field_solver.py 330, parser_base.py 224, 231). *)
Definition str_of_Z (z : Z) : str :=
  match z with
  | Zneg p => ch "-" :: dec (Npos p)
  | _ => dec (Z.to_N z)
  end.

(** Exceptions as values. Those of scaks/errors/error.py 1-75 and of Python. *)
Inductive exn :=
| AttributeError | IndexError | KeyError | TypeError | ValueError
| ZeroDivisionError | IOError | NameError | UnboundLocalError
| ChemFormulaError | ParameterError | SetupError | ElementSearchingError
| AssertionError | SyntaxError | EOFError | RuntimeError | StopIteration | OverflowError
| Unsupported (* not a Python exception: text outside the part of Python that is modelled *)
| OutOfFuel  (* not a Python exception: a loop bound of the model was too small *).

(** The result of code that may raise (for example rxn_parser.py 309-323). *)
Inductive res (A : Type) :=
| Ok (a : A)
| Err (e : exn).
Arguments Ok {A} _.
Arguments Err {A} _.

(** The next statement is reached only without exception (for example rxn_parser.py 309-323). *)
Definition bind {A B} (r : res A) (f : A -> res B) : res B :=
  match r with Ok a => f a | Err e => Err e end.

Notation "'do' x <- r ; k" := (bind r (fun x => k))
  (at level 200, x pattern, r at level 100, k at level 200, right associativity).

(** A [for] loop / comprehension whose body may raise: stops at the first
    exception. For example rxn_parser.py 158-160. *)
Fixpoint mapM {A B} (f : A -> res B) (l : list A) : res (list B) :=
  match l with
  | [] => Ok []
  | x :: t => do y <- f x; do ys <- mapM f t; Ok (y :: ys)
  end.

(** Insertion-ordered dictionary with text keys. For example rxn_parser.py 162-200. *)
Definition dict (V : Type) := list (str * V).

(** [d.get(k)] (kmc_solver.py 156-162). *)
Fixpoint dget {V} (d : dict V) (k : str) : option V :=
  match d with
  | [] => None
  | (k', v) :: t => if str_eqb k k' then Some v else dget t k
  end.

(** [d[k] = v] (rxn_parser.py 370-376) *)
Fixpoint dset {V} (d : dict V) (k : str) (v : V) : dict V :=
  match d with
  | [] => [(k, v)]
  | (k', v') :: t => if str_eqb k k' then (k', v) :: t else (k', v') :: dset t k v
  end.

(** [k in d] (check_utilities.py 148). *)
Definition dmem {V} (d : dict V) (k : str) : bool :=
  match dget d k with Some _ => true | None => false end.

(** [d[k]] (parser_base.py 309) *)
Definition dindex {V} (d : dict V) (k : str) : res V :=
  match dget d k with Some v => Ok v | None => Err KeyError end.

(** [d1 == d2] *)
Definition dict_eqb {V} (veqb : V -> V -> bool) (d1 d2 : dict V) : bool :=
  Nat.eqb (length d1) (length d2) &&
  forallb (fun kv => match dget d2 (fst kv) with
                     | Some v => veqb (snd kv) v
                     | None => false
                     end) d1.

(** Text comparison by code points, and [sorted(list(set(l)))]. parser_base.py 105-109. *)
Fixpoint str_compare (a b : str) : comparison :=
  match a, b with
  | [], [] => Eq
  | [], _ :: _ => Lt
  | _ :: _, [] => Gt
  | x :: a', y :: b' =>
      match N.compare (code x) (code y) with
      | Eq => str_compare a' b'
      | c => c
      end
  end.

(** Insertion into a sorted list without repetition (parser_base.py 105-109). *)
Fixpoint insert_uniq (x : str) (l : list str) : list str :=
  match l with
  | [] => [x]
  | y :: t => match str_compare x y with
              | Lt => x :: l
              | Eq => l
              | Gt => y :: insert_uniq x t
              end
  end.

(** [sorted(list(set(l)))], parser_base.py 105-109. *)
Definition sorted_set (l : list str) : list str := fold_right insert_uniq [] l.

(** [l.index(x)] (parser_base.py 159-180, mean_field_solver.py 325) *)
Fixpoint index_of (x : str) (l : list str) : option nat :=
  match l with
  | [] => None
  | y :: t => if str_eqb x y then Some O
              else match index_of x t with Some i => Some (S i) | None => None end
  end.

(** [l[i]] for a natural index. mean_field_solver.py 144. *)
Definition lindex {A} (l : list A) (i : nat) : res A :=
  match nth_error l i with Some a => Ok a | None => Err IndexError end.

(** [l[0]] and [l[-1]]. *)
Definition lfirst {A} (l : list A) : res A :=
  match l with x :: _ => Ok x | [] => Err IndexError end.
(** [l[-1]] (parser_base.py 340-352). *)
Fixpoint llast {A} (l : list A) : res A :=
  match l with [] => Err IndexError | [x] => Ok x | _ :: t => llast t end.

(** [n * l] for a list and an integer: empty for n <= 0. *)
Fixpoint repeat_list {A} (n : nat) (l : list A) : list A :=
  match n with O => [] | S k => l ++ repeat_list k l end.
