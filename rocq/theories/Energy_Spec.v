(** Specification vocabulary for energies (C15-C18). *)
From Coq Require Import String Ascii List ZArith Bool Reals.
Import ListNotations.
From Verif Require Import PyBase Rxn_Model PyReal Energy_Model.
Open Scope list_scope.

(** [name_for f n]: the energy of formula [f] is tabulated under [n].  Everything
    marked with a star is an empty site. *)
Definition starred (f : formula) : Prop := In "*"%char (f_species_site f).
Inductive name_for (f : formula) : str -> Prop :=
| name_species : ~ starred f -> name_for f (f_species_site f)
| name_site : starred f -> name_for f (L "*_" ++ f_site f).

(** The tabulated energies of the formulas of a state, and their sum weighted with the
    stoichiometric numbers. *)
Definition tabulated (ed : dict R) (f : formula) (e : R) : Prop :=
  exists n, name_for f n /\ dget ed n = Some e.
Definition weigh (fs : list formula) (es : list R) : R :=
  Rsum (map (fun p => IZR (f_stoich (fst p)) * snd p)%R (combine fs es)).
Definition energy_is (ed : dict R) (fs : list formula) (e : R) : Prop :=
  exists es, Forall2 (tabulated ed) fs es /\ e = weigh fs es.
(** Some formula of the state is not in the table. *)
Definition untabulated (ed : dict R) (fs : list formula) : Prop :=
  exists f, In f fs /\ forall e, ~ tabulated ed f e.

(** [entry r i gaf gar dg]: the energies of reaction number [i]. *)
Definition entry (r : rel_energies) (i : nat) (gaf gar dg : R) : Prop :=
  nth_error (r_Gaf r) i = Some gaf /\ nth_error (r_Gar r) i = Some gar /\ nth_error (r_dG r) i = Some dg.
Definition entries (r : rel_energies) (n : nat) : Prop :=
  length (r_Gaf r) = n /\ length (r_Gar r) = n /\ length (r_dG r) = n.
