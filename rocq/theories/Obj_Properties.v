(** C100: comparing and adding objects of the reaction parser. *)
From Coq Require Import String Ascii List ZArith Bool.
Import ListNotations.
From Verif Require Import PyBase Rxn_Model Rxn_Spec Obj_Model Obj_Spec Obj_Proofs.

(** Formulas: the check answers True exactly for a balancing formula, and raises for
    everything else. *)
Theorem C100_formula_conserve : forall f o,
  (vouched (formula_conserve_any f o) <-> exists f2, o = OFormula f2 /\ formulas_balance f f2) /\
  (forall a, formula_conserve_any f o = Ok a -> a = ABool true) /\
  (forall f2, o = OFormula f2 -> ~ formulas_balance f f2 ->
     formula_conserve_any f o = Err ValueError) /\
  (~ same_class_formula o -> formula_conserve_any f o = Err ParameterError).
Proof. exact formula_vouch. Qed.
Print Assumptions C100_formula_conserve.

(** States: the same, as long as the other object is a state. *)
Theorem C100_state_conserve_partial : forall st st2,
  (vouched (state_conserve_any st (OState st2)) <-> states_balance st st2) /\
  (forall a, state_conserve_any st (OState st2) = Ok a -> a = ABool true) /\
  (~ states_balance st st2 ->
     state_conserve_any st (OState st2) = Err ValueError \/
     state_conserve_any st (OState st2) = Err ChemFormulaError).
Proof. exact state_vouch. Qed.
Print Assumptions C100_state_conserve_partial.

(** Any other object is vouched for by every state: the error is returned. *)
Theorem C100_state_vouches_others : forall st o,
  ~ same_class_state o ->
  state_conserve_any st o = Ok (AException ParameterError) /\ vouched (state_conserve_any st o).
Proof. exact state_vouches_others. Qed.
Print Assumptions C100_state_vouches_others.

Theorem C100_state_conserve_refuted : exists st f,
  parse_formula (L "CO_g") = Ok f /\ state_formulas st = Ok [f] /\
  vouched (state_conserve_any st (OFormula f)) /\ vouched (state_conserve_any st OOther) /\
  formula_conserve_any f (OState st) = Err ParameterError.
Proof. exact state_vouches_wrongly. Qed.
Print Assumptions C100_state_conserve_refuted.

(** Adding formulas never works, whatever is added. *)
Theorem C100_add_fails : forall f o, formula_add f o = Err TypeError.
Proof. exact add_fails. Qed.
Print Assumptions C100_add_fails.

Theorem C100_add_refuted : exists f g,
  parse_formula (L "CO_s") = Ok f /\ parse_formula (L "O_s") = Ok g /\
  state_formulas (f_text f ++ L " + " ++ f_text g) = Ok [f; g] /\
  formula_add f (OFormula g) <> Ok (f_text f ++ L " + " ++ f_text g).
Proof. exact add_never_joins. Qed.
Print Assumptions C100_add_refuted.

Example C100_example :
  state_conserve_any (L "CO_s + O_s") (OState (L "CO2_g + 2*_s")) = Ok (ABool true) /\
  state_conserve_any (L "CO_s") (OState (L "O_s")) = Err ValueError /\
  ~ same_class_state OOther.
Proof. repeat split; try (vm_compute; reflexivity). intros [st H]. discriminate H. Qed.
