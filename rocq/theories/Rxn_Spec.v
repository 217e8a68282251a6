(** Specification vocabulary for formulas, states and reactions, independent of the
    functions of Rxn_Model.v (only the record of formula parts is shared). *)
From Coq Require Import String Ascii List ZArith NArith Bool.
Import ListNotations.
From Verif Require Import PyBase Rxn_Model.

(** ** Writing formulas (C01, C02) *)

Definition number_text (o : option N) : str :=
  match o with None => [] | Some n => dec n end.
Definition number_value (o : option N) : Z :=
  match o with None => 1%Z | Some n => Z.of_N n end.

Definition write_species_site (sp : str) (m : option N) (site : str) : str :=
  sp ++ L "_" ++ number_text m ++ site.
Definition write_formula (n : option N) (sp : str) (m : option N) (site : str) : str :=
  number_text n ++ write_species_site sp m site.

(** Letters, digits, underscore, star, dash; the first is not a digit. *)
Definition name_char (c : ascii) : bool :=
  is_letter c || is_digit c || has_char c (L "_*-").
Definition species_name (sp : str) : Prop :=
  forallb name_char sp = true /\
  match sp with [] => True | c :: _ => is_digit c = false end.
(** Letters and star, at least one. *)
Definition site_name (site : str) : Prop :=
  site <> [] /\ forallb (fun c => is_letter c || Ascii.eqb c "*") site = true.

(** An underscore, any digits, then a letter or star, somewhere in the text. *)
Definition has_site_marker (s : str) : Prop :=
  exists before digits c after,
    s = before ++ L "_" ++ digits ++ c :: after /\
    forallb is_digit digits = true /\ (is_letter c || Ascii.eqb c "*") = true.

(** ** Writing reactions (C03, C04) *)

Inductive arrow := Single | Double.
Definition arrow_text (a : arrow) : str :=
  match a with Single => L "->" | Double => L "<->" end.

Definition no_angle (s : str) : Prop := ~ In ("<"%char) s /\ ~ In (">"%char) s.
Definition nonblank (s : str) : Prop := strip s <> [].

(** ** Counting atoms and sites (C05-C07) *)

(** The number written at the beginning of a text; 1 if there is none. *)
Fixpoint leading_digits (s : str) : str :=
  match s with
  | [] => []
  | c :: t => if is_digit c then c :: leading_digits t else []
  end.
Definition leading_number (s : str) : Z :=
  match leading_digits s with [] => 1%Z | ds => int_of ds end.

(** Number of atoms of the element with letter [x] in a species name: the numbers
    written after each occurrence of the letter, added up. *)
Fixpoint letter_count (x : ascii) (sp : str) : Z :=
  match sp with
  | [] => 0%Z
  | c :: t => ((if Ascii.eqb c x then leading_number t else 0) + letter_count x t)%Z
  end.

Definition element_letter (x : ascii) : bool := is_letter x || Ascii.eqb x "*".

Definition atoms_in_species (x : ascii) (sp : str) : Z :=
  if str_eqb sp (L "*") then 0%Z
  else if element_letter x then letter_count x sp else 0%Z.

Definition species_mentions (x : ascii) (sp : str) : Prop :=
  sp <> L "*" /\ element_letter x = true /\ In x sp.

Fixpoint sum_Z (l : list Z) : Z := match l with [] => 0%Z | x :: t => (x + sum_Z t)%Z end.

(** Totals over a list of formulas. *)
Definition total_atoms (x : ascii) (fs : list formula) : Z :=
  sum_Z (map (fun f => (f_stoich f * atoms_in_species x (f_species f))%Z) fs).
Definition mentions_atom (x : ascii) (fs : list formula) : Prop :=
  exists f, In f fs /\ species_mentions x (f_species f).

Definition surface_site (s : str) : Prop := s <> L "g" /\ s <> L "l".
Definition total_sites (s : str) (fs : list formula) : Z :=
  sum_Z (map (fun f => if str_eqb (f_site f) s then (f_nsite f * f_stoich f)%Z else 0%Z) fs).
Definition mentions_site (s : str) (fs : list formula) : Prop :=
  exists f, In f fs /\ f_site f = s.

(** Two states are balanced: same atoms and same surface sites, with the same
    elements and sites mentioned. *)
Definition balanced (fs1 fs2 : list formula) : Prop :=
  (forall x, total_atoms x fs1 = total_atoms x fs2) /\
  (forall s, surface_site s -> total_sites s fs1 = total_sites s fs2).
Definition same_mentions (fs1 fs2 : list formula) : Prop :=
  (forall x, mentions_atom x fs1 <-> mentions_atom x fs2) /\
  (forall s, surface_site s -> (mentions_site s fs1 <-> mentions_site s fs2)).

(** ** Species totals (C08, C11) *)
Definition total_of_species (name : str) (fs : list formula) : Z :=
  sum_Z (map (fun f => if str_eqb (f_species_site f) name then f_stoich f else 0%Z) fs).

(** ** Whole reactions as written by a user (C04, C06) *)
Definition write_state (formulas : list str) : str := join (L " + ") formulas.
Definition write_rxn (states : list str) : str :=
  match states with
  | [a; b] => a ++ L " -> " ++ b
  | [a; b; c] => a ++ L " <-> " ++ b ++ L " -> " ++ c
  | _ => []
  end.
Definition two_or_three {A} (l : list A) : Prop := length l = 2 \/ length l = 3.
(** Text of one formula inside a reaction. *)
Definition formula_word (s : str) : Prop :=
  nonblank s /\ no_angle s /\ ~ In ("+"%char) s.

(** All states of a reaction have equal totals and mention the same things. *)
Definition conserved (states : list (list formula)) : Prop :=
  forall a b, In a states -> In b states -> balanced a b /\ same_mentions a b.
