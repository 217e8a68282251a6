(** Specification vocabulary for the rates of a model at different pressures (C111). *)
From Coq Require Import List Reals.
Import ListNotations.
From Verif Require Import PyBase Thermo_Model.

(** The same model with other pressures in its definitions of species. *)
Definition pressed (o : owner) (P : dict (option R)) : owner :=
  {| o_T := o_T o; o_pressures := P; o_rxns := o_rxns o; o_rxns_list := o_rxns_list o; o_Auc := o_Auc o;
     o_act_ratio := o_act_ratio o; o_corrector_str := o_corrector_str o |}.

(** The corrector with the tables of the code, called with mass, pressure and temperature. *)
Definition ec_tables : str -> R -> R -> R -> res R :=
  fun name m p T => entropy_correction_full rotation_temperatures vibration_temperatures name m p T.
