(** Specification vocabulary for rate constants (C19-C21, C24). *)
From Coq Require Import String Ascii List ZArith Bool Reals.
Import ListNotations.
From Verif Require Import PyBase Rxn_Model PyReal Energy_Model Energy_Spec Thermo_Model.
Open Scope list_scope.

(** Thermal energy in eV, and the frequency kT/h. *)
Definition kT (T : R) : R := (kB_eV * T)%R.
Definition frequency (T : R) : R := (kT T / h_eV)%R.

(** Product over the gases of a state of their pressures to the power of their
    stoichiometric numbers. *)
Fixpoint pressure_factor (P : str -> R) (fs : list formula) : R :=
  match fs with
  | [] => 1%R
  | f :: t =>
      if str_eqb (f_site f) (L "g")
      then (powerRZ (P (f_species_site f)) (f_stoich f) * pressure_factor P t)%R
      else pressure_factor P t
  end.

Definition gases (fs : list formula) : list formula :=
  filter (fun f => str_eqb (f_site f) (L "g")) fs.

(** Written without a number in front. *)
Definition unnumbered (f : formula) : Prop := f_text f = f_species_site f /\ f_stoich f = 1%Z.

(** The model knows the pressure [P g] of every gas [g] of these states. *)
Definition knows_pressures (o : owner) (P : str -> R) (states : list (list formula)) : Prop :=
  forall fs f, In fs states -> In f (gases fs) ->
    dget (o_pressures o) (f_species_site f) = Some (Some (P (f_species_site f))).

(** The energies of reaction [e], found at its (first) position in the model. *)
Definition energies_of (o : owner) (r : rel_energies) (e : str) (gaf gar dg : R) : Prop :=
  exists i, nth_error (o_rxns o) i = Some e /\
            (forall j, j < i -> nth_error (o_rxns o) j <> Some e) /\ entry r i gaf gar dg.

(** Same model at another temperature. *)
Definition heated (o : owner) (T : R) : owner :=
  {| o_T := T; o_pressures := o_pressures o; o_rxns := o_rxns o; o_rxns_list := o_rxns_list o; o_Auc := o_Auc o;
     o_act_ratio := o_act_ratio o; o_corrector_str := o_corrector_str o |}.
