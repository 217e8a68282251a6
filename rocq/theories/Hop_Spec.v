(** Specification vocabulary for mechanisms of single-site steps (C115). *)
From Coq Require Import String Ascii List ZArith Bool Reals Relations.
Import ListNotations.
From Verif Require Import PyBase Rxn_Model Rxn_Spec Species_Model Species_Spec PyReal MF_Model MF_Spec.
Local Open Scope list_scope.
Local Open Scope R_scope.

(** A formula for one occupied or one empty place on the surface. *)
Definition one_place (f : formula) (name : str) : Prop :=
  f_stoich f = 1%Z /\ surface_site (f_site f) /\ f_species_site f = name /\
  (ads_formula f \/ name = site_tag name).

(** [A_s + gases -> B_s + gases]: what is on one place of the surface becomes something else, any
    gases and liquids take part, and the states in between name no adsorbate. *)
Definition hop (fls : list (list formula)) (a b : str) : Prop :=
  exists u x v mid u' y v',
    fls = (u ++ x :: v) :: mid ++ [u' ++ y :: v'] /\
    one_place x a /\ one_place y b /\ a <> b /\ site_tag a = site_tag b /\
    (forall f, In f (u ++ v ++ u' ++ v') -> ~ surface_site (f_site f)) /\
    (forall st f, In st mid -> In f st -> ~ ads_formula f).

(** The mechanism consists of such steps, each written once. *)
Definition only_hops (s : setup) (l : list (str * str)) : Prop :=
  Forall2 (fun fls p => hop fls (fst p) (snd p)) (l_rxns (s_lists s)) l /\ NoDup (s_exprs s).

(** A chain of steps, in either direction, empties every occupied place. *)
Definition linked (s : setup) (l : list (str * str)) : Prop :=
  forall n, In n (ads s) -> clos_refl_sym_trans str (fun a b => In (a, b) l) n (site_tag n).

(** Gases and liquids that are there, or that are not in debt. *)
Definition supplied (ok : R -> Prop) (s : setup) : Prop :=
  forall f, occurs f (l_rxns (s_lists s)) ->
    (f_site f = L "g" -> ok (value (s_pressure s) (f_species_site f))) /\
    (f_site f = L "l" -> ok (value (s_conc s) (f_species_site f))).
