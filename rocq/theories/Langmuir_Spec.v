(** Specification vocabulary for competing adsorption (C97). *)
From Coq Require Import String Ascii List ZArith Bool Reals.
Import ListNotations.
From Verif Require Import PyBase Rxn_Model Rxn_Spec Species_Model Species_Spec PyReal MF_Model MF_Spec.
Local Open Scope list_scope.
Local Open Scope R_scope.

(** [X_g + *_s -> X_s]: one molecule [gas] and one free site become one adsorbate [name], in
    either order and with any states in between that name no adsorbate. *)
Definition adsorption (fls : list (list formula)) (gas name : str) : Prop :=
  exists g e a mid,
    (fls = [g; e] :: mid ++ [[a]] \/ fls = [e; g] :: mid ++ [[a]]) /\
    f_stoich g = 1%Z /\ f_stoich e = 1%Z /\ f_stoich a = 1%Z /\
    f_site g = L "g" /\ f_species_site g = gas /\
    surface_site (f_site e) /\ f_species_site e = site_tag name /\
    ads_formula a /\ f_species_site a = name /\
    forall st f, In st mid -> In f st -> ~ ads_formula f.

(** The mechanism consists of the adsorption of these gases as these adsorbates, which are all
    different.  There may be several kinds of sites. *)
Definition only_adsorption (s : setup) (l : list (str * str)) : Prop :=
  Forall2 (fun fls p => adsorption fls (fst p) (snd p)) (l_rxns (s_lists s)) l /\ NoDup (map snd l).

(** The sum of K p over the adsorbates of a site. *)
Definition pull (s : setup) (l : list (str * str)) (Ks : list R) (site : str) : R :=
  Rsum (map (fun t => if str_eqb (site_tag (snd (fst t))) site
                      then snd t * value (s_pressure s) (fst (fst t)) else 0) (combine l Ks)).

(** Langmuir's isotherm for adsorbates that compete for the same sites. *)
Definition isotherm (s : setup) (l : list (str * str)) (Ks : list R) (gas name : str) (K : R) : R :=
  total s (site_tag name) * (K * value (s_pressure s) gas) / (1 + pull s l Ks (site_tag name)).
Definition langmuir (s : setup) (l : list (str * str)) (Ks : list R) (cvgs : list R) : Prop :=
  forall i gas name K, nth_error l i = Some (gas, name) -> nth_error Ks i = Some K ->
    coverage s cvgs name = isotherm s l Ks gas name K.

(** Equilibrium constants. *)
Definition quotients (kf kr : list R) : list R := map (fun p => fst p / snd p) (combine kf kr).

(** The sum of 1/k over the desorption constants of a site. *)
Definition delays (l : list (str * str)) (kr : list R) (site : str) : R :=
  Rsum (map (fun t => if str_eqb (site_tag (snd (fst t))) site then / snd t else 0) (combine l kr)).
