(** Specification vocabulary for species classification, stoichiometry matrices and
    total reactions (C10-C13). *)
From Coq Require Import String Ascii List ZArith Bool Sorted.
Import ListNotations.
From Verif Require Import PyBase Rxn_Model Rxn_Spec.

(** A formula occurs in one of the states of one of the reactions. *)
Definition occurs (f : formula) (rxns : list (list (list formula))) : Prop :=
  exists rxn state, In rxn rxns /\ In state rxn /\ In f state.

(** The rules of the four species lists. *)
Definition gas_formula (f : formula) : Prop := f_site f = L "g".
Definition liquid_formula (f : formula) : Prop := f_site f = L "l".
Definition ts_formula (f : formula) : Prop :=
  surface_site (f_site f) /\ In ("-"%char) (f_species f).
Definition ads_formula (f : formula) : Prop :=
  surface_site (f_site f) /\ ~ In ("-"%char) (f_species f) /\ ~ In ("*"%char) (f_species f).
(** The list holds exactly the names of the formulas that satisfy the rule. *)
Definition lists_names (rule : formula -> Prop) (rxns : list (list (list formula))) (l : list str) : Prop :=
  forall n, In n l <-> exists f, occurs f rxns /\ rule f /\ n = f_species_site f.
Definition lists_sites (rxns : list (list (list formula))) (l : list str) : Prop :=
  forall n, In n l <-> exists f, occurs f rxns /\ surface_site (f_site f) /\ n = L "*_" ++ f_site f.

(** Code point order on texts. *)
Definition text_lt (a b : str) : Prop := str_compare a b = Lt.
Definition strictly_increasing (l : list str) : Prop := StronglySorted text_lt l.

(** Net consumption of a species in a reaction: first state minus last state. *)
Definition net_consumption (name : str) (first last : list formula) : Z :=
  (total_of_species name first - total_of_species name last)%Z.

(** Reading a name: species before the last underscore, then the number of sites
    and the site. *)
Fixpoint after_last_underscore (s : str) : str :=
  match s with
  | [] => []
  | c :: t => if has_char "_" t then after_last_underscore t
              else if Ascii.eqb c "_" then t else c :: t
  end.
Fixpoint before_last_underscore (s : str) : str :=
  match s with
  | [] => []
  | c :: t => if has_char "_" t then c :: before_last_underscore t else []
  end.
Fixpoint after_digits (s : str) : str :=
  match s with
  | [] => []
  | c :: t => if is_digit c then after_digits t else c :: t
  end.
Definition name_atoms (x : ascii) (name : str) : Z :=
  atoms_in_species x (before_last_underscore name).
Definition name_occupies (site name : str) : Z :=
  if str_eqb (after_digits (after_last_underscore name)) site
  then leading_number (after_last_underscore name) else 0%Z.

(** Weighted sum of a matrix row. *)
Fixpoint weighted (w : str -> Z) (names : list str) (row : list Z) : Z :=
  match names, row with
  | n :: ns, z :: zs => (w n * z + weighted w ns zs)%Z
  | _, _ => 0%Z
  end.

(** A state in which every surface species has a column: no transition state, and
    stars occur only as empty sites written one at a time. *)
Definition tabulated (st : list formula) : Prop :=
  forall f, In f st -> surface_site (f_site f) ->
    ads_formula f \/ f_species_site f = L "*_" ++ f_site f.
