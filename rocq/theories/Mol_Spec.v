(** Specification vocabulary for molecular formulas (C14). *)
From Coq Require Import String Ascii List ZArith NArith QArith Bool.
Import ListNotations.
From Verif Require Import PyBase.
Open Scope list_scope.

(** A molecule: a number in front (or none), then elements and parenthesised
    molecules, each followed by a number (or none).  Numbers are digit texts. *)
Inductive mol := Mol (lead : str) (its : items)
with items :=
| INil
| IElem (upper : ascii) (lower : option ascii) (number : str) (rest : items)
| IGroup (group : mol) (number : str) (rest : items).

Definition symbol (u : ascii) (l : option ascii) : str :=
  u :: match l with Some c => [c] | None => [] end.

Fixpoint write_mol (m : mol) : str :=
  match m with Mol lead its => lead ++ write_items its end
with write_items (its : items) : str :=
  match its with
  | INil => []
  | IElem u l n rest => symbol u l ++ n ++ write_items rest
  | IGroup g n rest => L "(" ++ write_mol g ++ L ")" ++ n ++ write_items rest
  end.

Definition digits (s : str) : Prop := forallb is_digit s = true.
Fixpoint mol_ok (m : mol) : Prop :=
  match m with Mol lead its => digits lead /\ items_ok its end
with items_ok (its : items) : Prop :=
  match its with
  | INil => True
  | IElem u l n rest =>
      is_upper u = true /\ match l with Some c => is_lower c = true | None => True end /\
      digits n /\ items_ok rest
  | IGroup g n rest => mol_ok g /\ digits n /\ items_ok rest
  end.

(** Value of a written number; no number means one. *)
Definition number (s : str) : Z := match s with [] => 1%Z | _ => int_of s end.

(** How many atoms with the given symbol the molecule denotes. *)
Fixpoint mol_count (x : str) (m : mol) : Z :=
  match m with Mol lead its => (number lead * items_count x its)%Z end
with items_count (x : str) (its : items) : Z :=
  match its with
  | INil => 0%Z
  | IElem u l n rest =>
      ((if str_eqb (symbol u l) x then number n else 0) + items_count x rest)%Z
  | IGroup g n rest => (number n * mol_count x g + items_count x rest)%Z
  end.

(** Occurrences of a symbol in a list. *)
Fixpoint occurrences (x : str) (l : list str) : Z :=
  match l with
  | [] => 0%Z
  | y :: t => ((if str_eqb y x then 1 else 0) + occurrences x t)%Z
  end.

(** Does the depth, starting at [p], come back to zero? *)
Fixpoint closes (p : nat) (s : str) : bool :=
  match p with
  | O => true
  | S q =>
    match s with
    | [] => false
    | c :: t => if Ascii.eqb c "(" then closes (S p) t
                else if Ascii.eqb c ")" then closes q t
                else closes p t
    end
  end.
(** Every opening parenthesis of the text is closed. *)
Definition all_closed (s : str) : Prop :=
  forall a b, s = a ++ "("%char :: b -> closes 1 b = true.

(** The text that takes the place of a text with unclosed parentheses: the part behind the
    first unclosed one loses its last character and is closed at the end; the same happens
    inside that part. *)
Inductive stands_for : str -> str -> Prop :=
| StandsClosed s : all_closed s -> stands_for s s
| StandsOpen a b b' : all_closed a -> closes 1 b = false -> stands_for (removelast b) b' ->
    stands_for (a ++ "("%char :: b) (a ++ "("%char :: b' ++ [")"%char]).

(** The element masses of the periodic table used here. *)
Definition known_masses : list (str * Q) :=
  [(L "H", 1.00794); (L "C", 12.0107); (L "N", 14.0067); (L "O", 15.9994);
   (L "F", 18.9984032); (L "Ne", 20.1797); (L "S", 32.065); (L "Cl", 35.453)]%Q.
Fixpoint sum_Q (l : list Q) : Q := match l with [] => 0%Q | x :: t => (x + sum_Q t)%Q end.
Definition mass_of (count : str -> Z) : Q :=
  sum_Q (map (fun em => (inject_Z (count (fst em)) * snd em)%Q) known_masses).
