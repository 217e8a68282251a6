(** Vocabulary for the TeX texts of formulas and reactions (C59), independent of the functions of
    Rxn_Model.v. *)
From Coq Require Import String Ascii List ZArith NArith Bool.
Import ListNotations.
From Verif Require Import PyBase Rxn_Model Rxn_Spec.
Local Open Scope list_scope.

(** A species name in TeX: letters and stars with their numbers as subscripts, dashes; everything
    else is left out. *)
Fixpoint tex_species (s : str) : str :=
  match s with
  | [] => []
  | c :: t =>
      (if element_letter c then
         [c] ++ match leading_digits t with [] => [] | n => L "_{" ++ n ++ L "}" end
       else if Ascii.eqb c "-" then L "-" else []) ++ tex_species t
  end.

Definition tex_formula (f : formula) : str :=
  (if (f_stoich f =? 1)%Z then [] else str_of_Z (f_stoich f)) ++ tex_species (f_species f)
  ++ L "(" ++ f_site f ++ L ")".

Definition tex_state (fs : list formula) : str := join (L " + ") (map tex_formula fs).

(** What a reader sees who ignores the TeX commands for subscripts. *)
Definition plain_text (s : str) : str := filter (fun c => negb (has_char c (L "_{}"))) s.

(** Names of which nothing is lost: letters, stars, digits and dashes, with every number after a
    letter; [after]: the text so far ends with a letter or its number. *)
Fixpoint simple_after (after : bool) (s : str) : Prop :=
  match s with
  | [] => True
  | c :: t => (element_letter c = true /\ simple_after true t) \/
              (c = "-"%char /\ simple_after false t) \/
              (is_digit c = true /\ after = true /\ simple_after true t)
  end.
Definition simple_name (s : str) : Prop := simple_after false s.

(** What is left of a species name: letters, stars, dashes and numbers behind letters. *)
Fixpoint visible_after (after : bool) (s : str) : str :=
  match s with
  | [] => []
  | c :: t =>
      if element_letter c then c :: visible_after true t
      else if Ascii.eqb c "-" then c :: visible_after false t
      else if is_digit c && after then c :: visible_after true t
      else visible_after false t
  end.
Definition visible (s : str) : str := visible_after false s.
