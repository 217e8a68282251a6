(** Specification vocabulary for the energy files written for the user (C68). *)
From Coq Require Import String Ascii List ZArith Bool Reals.
Import ListNotations.
From Verif Require Import PyBase PyData_Model PyData_Spec Rxn_Model Rxn_Spec Species_Spec.
Local Open Scope list_scope.

(** The names of the file: one for every gas, liquid, adsorbate and transition state, and
    one for every kind of surface site. *)
Inductive energy_name (rxns : list (list (list formula))) : str -> Prop :=
| en_species f : occurs f rxns ->
    gas_formula f \/ liquid_formula f \/ ads_formula f \/ ts_formula f ->
    energy_name rxns (f_species_site f)
| en_site f : occurs f rxns -> surface_site (f_site f) -> energy_name rxns (L "*_" ++ f_site f).

(** The file of absolute energies with the numbers put in by the user. *)
Definition filled_absolute (kvs : list (str * str)) : str :=
  L "# Absolute energies for all species." ++ [nl] ++
  L "absolute_energies = {" ++ [nl; nl] ++
  concat (map (fun kv => L "    '" ++ fst kv ++ L "': " ++ snd kv ++ L ", # eV" ++ [nl; nl]) kvs) ++
  L "}" ++ [nl; nl].

(** The file of relative energies with the texts put in between the brackets: reaction,
    barrier, reaction energy. *)
Definition filled_relative (l : list (str * (str * str))) : str :=
  L "# Relative Energies for all elementary reactions." ++ [nl] ++
  L "Ga, dG = [], []" ++ [nl; nl] ++
  concat (map (fun b => L "# " ++ fst b ++ [nl] ++
                        L "Ga.append(" ++ fst (snd b) ++ L ")" ++ [nl] ++
                        L "dG.append(" ++ snd (snd b) ++ L ")" ++ [nl; nl]) l).

(** A star outside the surface: an empty "site" of the gas or of a liquid. *)
Definition star_off_surface (f : formula) : Prop :=
  In "*"%char (f_species_site f) /\ (gas_formula f \/ liquid_formula f).
