(** Model of scaks/functions.py:7-55 (string2symbols), scaks/parsers/parser_base.py:247-279
    (get_molecular_mass) and scaks/database/elements_data.py. *)
From Coq Require Import String Ascii List ZArith NArith QArith Bool Arith.
Import ListNotations.
From Verif Require Import PyBase.
Open Scope list_scope.
Open Scope nat_scope.

(** [while i < n and s[i].isdigit(): i += 1], functions.py:20-21, 33-34, 45-46: the
    number of digits at the beginning of a text. *)
Fixpoint count_digits (s : str) : nat :=
  match s with
  | [] => 0
  | c :: t => if is_digit c then S (count_digits t) else 0
  end.

(** The loop looking for the closing parenthesis, functions.py:25-31.  [i] is the
    index of the head of [s], [last] the value of the loop variable so far. *)
Fixpoint scan (p : Z) (i last : nat) (s : str) : nat :=
  match s with
  | [] => last
  | c :: t =>
      if Ascii.eqb c "(" then scan (p + 1) (S i) i t
      else if Ascii.eqb c ")" then
        if Z.eqb (p - 1) 0 then i else scan (p - 1) (S i) i t
      else scan p (S i) i t
  end.

(** [m * l] for a list, functions.py:22, 39, 51. *)
Definition times_list {A} (m : Z) (l : list A) : list A := repeat_list (Z.to_nat m) l.

(** [int(s[i:j]) if j > i else 1], functions.py:35-38, 47-50. *)
Definition mult_of (digits : str) : Z :=
  match digits with [] => 1%Z | _ => int_of digits end.

(** [string2symbols(s)], functions.py:7-55, one call per unit of fuel. *)
Fixpoint s2s (fuel : nat) (s : str) : res (list str) :=
  match fuel with
  | O => Err OutOfFuel
  | S k =>
    match s with
    | [] => Ok []
    | c :: t =>
      if is_digit c then
        let i := S (count_digits t) in
        do rest <- s2s k (skipn i s);
        Ok (times_list (int_of (firstn i s)) rest)
      else if Ascii.eqb c "(" then
        let i := scan 0 0 0 s in
        let d := count_digits (skipn (S i) s) in
        let j := S i + d in
        do inner <- s2s k (firstn (i - 1) t);
        do rest <- s2s k (skipn j s);
        Ok (times_list (mult_of (firstn d (skipn (S i) s))) inner ++ rest)
      else if is_upper c then
        let i := match t with
                 | c1 :: _ => if is_lower c1 then 2 else 1
                 | [] => 1
                 end in
        let d := count_digits (skipn i s) in
        do rest <- s2s k (skipn (i + d) s);
        Ok (times_list (mult_of (firstn d (skipn i s))) [firstn i s] ++ rest)
      else Err ValueError
    end
  end.

(** Every recursive call is on a shorter text, so this fuel is enough (proved).
    functions.py:8-52. *)
Definition string2symbols (s : str) : res (list str) := s2s (S (length s)) s.

(** elements_data.py:4-14: the masses, as exact rationals. *)
Definition amu : Q := 166053904 # (10 ^ 35).
(** Same lines: elements_data.py:4-14. *)
Definition chem_elements : dict Q :=
  [(L "H", 100794 # 100000); (L "C", 120107 # 10000); (L "N", 140067 # 10000);
   (L "O", 159994 # 10000); (L "F", 189984032 # 10000000); (L "Ne", 201797 # 10000);
   (L "S", 32065 # 1000); (L "Cl", 35453 # 1000)]%Q.

(** The loop over the elements, parser_base.py:267-273. *)
Fixpoint add_masses (acc : Q) (els : list str) : res Q :=
  match els with
  | [] => Ok acc
  | e :: t => match dget chem_elements e with
              | None => Err ElementSearchingError
              | Some m => add_masses (acc + m)%Q t
              end
  end.

(** [get_molecular_mass(species_name, absolute)], parser_base.py:247-279.  Floats are
    exact rationals here. *)
Definition molecular_mass (s : str) (absolute : bool) : res Q :=
  do els <- string2symbols s;
  do m <- add_masses 0%Q els;
  Ok (if absolute then (amu * m)%Q else m).
