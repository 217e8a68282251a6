(** Specification vocabulary for dissociative adsorption (C114). *)
From Coq Require Import String Ascii List ZArith Bool Reals.
Import ListNotations.
From Verif Require Import PyBase Rxn_Model Rxn_Spec Species_Model Species_Spec PyReal MF_Model MF_Spec.
Local Open Scope list_scope.
Local Open Scope R_scope.

(** [X_g + n*_s -> nY_s]: one molecule [gas] and [n] free sites become [n] adsorbates [name], in
    either order and with any states in between that name no adsorbate. *)
Definition dissociation (fls : list (list formula)) (gas name : str) (n : nat) : Prop :=
  exists g e a mid,
    (fls = [g; e] :: mid ++ [[a]] \/ fls = [e; g] :: mid ++ [[a]]) /\
    (1 <= n)%nat /\ f_stoich g = 1%Z /\ f_stoich e = Z.of_nat n /\ f_stoich a = Z.of_nat n /\
    f_site g = L "g" /\ f_species_site g = gas /\
    surface_site (f_site e) /\ f_species_site e = site_tag name /\
    ads_formula a /\ f_species_site a = name /\
    forall st f, In st mid -> In f st -> ~ ads_formula f.

(** The mechanism consists of the adsorption of these gases as that many of these adsorbates, which
    are all different.  There may be several kinds of sites. *)
Definition only_dissociation (s : setup) (l : list (str * str * nat)) : Prop :=
  Forall2 (fun fls p => dissociation fls (fst (fst p)) (snd (fst p)) (snd p)) (l_rxns (s_lists s)) l /\
  NoDup (map (fun p => snd (fst p)) l).

(** The root of order [n] of a number that is not negative. *)
Definition root (n : nat) (y : R) : R := if Rlt_dec 0 y then Rpower y (/ INR n) else 0.

(** How much an adsorbate takes for each free site. *)
Definition share (s : setup) (p : str * str * nat) (K : R) : R :=
  root (snd p) (K * value (s_pressure s) (fst (fst p))).
Definition shares (s : setup) (l : list (str * str * nat)) (Ks : list R) (site : str) : R :=
  Rsum (map (fun t => if str_eqb (site_tag (snd (fst (fst t)))) site then share s (fst t) (snd t) else 0)
            (combine l Ks)).

(** The isotherm of adsorbates that compete for the same sites, [n] of them from one molecule. *)
Definition isotherms (s : setup) (l : list (str * str * nat)) (Ks : list R) (cvgs : list R) : Prop :=
  forall i gas name n K, nth_error l i = Some (gas, name, n) -> nth_error Ks i = Some K ->
    coverage s cvgs name
    = total s (site_tag name) * root n (K * value (s_pressure s) gas) / (1 + shares s l Ks (site_tag name)).

(** No coverage is negative, that of the free sites included. *)
Definition nothing_negative (s : setup) (cvgs : list R) : Prop :=
  forall x, In x (ads s) \/ In x (sites s) -> 0 <= coverage s cvgs x.
