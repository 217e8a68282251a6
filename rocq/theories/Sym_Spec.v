(** Specification vocabulary for the symbolic evaluation (C30). *)
From Coq Require Import String Ascii List ZArith Bool Reals.
Import ListNotations.
From Verif Require Import PyBase Rxn_Model Species_Model Species_Spec PyReal Energy_Model Energy_Spec Thermo_Model
  Rate_Spec MF_Model MF_Spec Sym_Model.
Local Open Scope list_scope.

(** The solver made its symbols and read its data. *)
Definition symbolic (s : setup) (y : symbols) (data : dict R * dict R) : Prop :=
  exists cl, classify s = Ok cl /\ data_symbols s cl = Ok y /\ get_data s = Ok data.

(** No adsorbate sits on a site whose name has a star in it. *)
Definition plain_sites (s : setup) : Prop :=
  forall f, occurs f (l_rxns (s_lists s)) -> ads_formula f -> ~ In ("*"%char) (f_site f).

(** One barrier and one reaction energy for every reaction. *)
Definition energies_ready (s : setup) (r : rel_energies) : Prop :=
  length (r_Gaf r) = length (s_exprs s) /\ length (r_dG r) = length (s_exprs s).

(** Rate constant of transition state theory. *)
Definition tst (T g : R) : R := (frequency T * exp (- g / kT T))%R.

(** Reverse barriers are forward barriers minus reaction energies. *)
Definition consistent (r : rel_energies) : Prop :=
  forall i a b d, entry r i a b d -> b = (a - d)%R.

(** Every adsorbate is written without a number (or with 1) where a reaction names it first. *)
Definition single (s : setup) : Prop :=
  forall name fls i n, In name (ads s) -> In fls (l_rxns (s_lists s)) -> met_first name fls i n -> n = 1%Z.

(** Change of an adsorbate by one reaction, as the symbolic code counts it: once, with the sign
    of the state it is met in first. *)
Definition bare_change (name : str) (fls : list (list formula)) (rf rr x : R) : Prop :=
  (absent name fls /\ x = 0%R) \/
  (exists n, met_first name fls 0 n /\ x = (rr - rf)%R) \/
  (exists i n, met_first name fls (S i) n /\ x = (rf - rr)%R).

(** The list with one entry replaced. *)
Definition moved (l : list R) (j : nat) (t : R) : list R := firstn j l ++ t :: skipn (S j) l.

(** The cases the symbolic methods can deal with. *)
Definition evaluable (s : setup) (y : symbols) (data : dict R * dict R) (T : R) (r : rel_energies) (cvgs : list R) : Prop :=
  usable_setup s /\ plain_sites s /\ l_liq (s_lists s) = [] /\ (0 < T)%R /\ energies_ready s r /\
  length cvgs = length (ads s) /\ symbolic s y data.
