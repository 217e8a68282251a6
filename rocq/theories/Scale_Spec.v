(** Specification vocabulary for the response of a mechanism to its constants and pressures
    (C82, C83). *)
From Coq Require Import String Ascii List ZArith Bool Arith Reals.
Import ListNotations.
From Verif Require Import PyBase Rxn_Model Species_Model PyReal Energy_Model MF_Model MF_Spec Whole_Spec.
Local Open Scope list_scope.
Local Open Scope R_scope.

(** [a x + b y], position by position. *)
Definition mix (a b : R) (xs ys : list R) : list R := map (fun p => a * fst p + b * snd p) (combine xs ys).

(** All barriers raised by the same energy. *)
Definition raised (e : R) (r r' : rel_energies) : Prop :=
  r_Gaf r' = map (fun x => x + e) (r_Gaf r) /\ r_Gar r' = map (fun x => x + e) (r_Gar r) /\ r_dG r' = r_dG r.

(** The pressure of one gas multiplied by [c], everything else as it is. *)
Definition pressure_scaled (gas : str) (c : R) (s s' : setup) : Prop :=
  s_exprs s' = s_exprs s /\ s_lists s' = s_lists s /\ s_total s' = s_total s /\ s_conc s' = s_conc s /\
  dget (s_pressure s') gas = option_map (Rmult c) (dget (s_pressure s) gas) /\
  forall n, n <> gas -> dget (s_pressure s') n = dget (s_pressure s) n.

(** The order of the rate of a state in a gas: how many of it stand in the state. *)
Definition order (gas : str) (st : list formula) : nat :=
  list_sum (map (fun f => if str_eqb (f_species_site f) gas then Z.to_nat (f_stoich f) else 0%nat)
                (filter (fun f => str_eqb (f_site f) (L "g")) st)).

(** The same mechanism with one more reaction, which brings no new species. *)
Definition one_more (e : str) (s s' : setup) : Prop :=
  same_but_reactions s s' /\ s_exprs s' = s_exprs s ++ [e] /\ ~ In e (s_exprs s) /\
  ads s' = ads s /\ sites s' = sites s /\ l_gas (s_lists s') = l_gas (s_lists s) /\ l_liq (s_lists s') = l_liq (s_lists s).
