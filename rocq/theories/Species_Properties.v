(** Properties C10-C13: species lists, stoichiometry matrices, total reaction.
    Vocabulary: Rxn_Spec.v, Species_Spec.v. *)
From Coq Require Import String Ascii List ZArith Bool Permutation Sorted.
Import ListNotations.
From Verif Require Import PyBase PyBaseFacts Rxn_Model Rxn_Spec Rxn_Proofs Rxn_Count Rxn_More
  Species_Model Species_Spec Species_Proofs Species_Matrix Species_Total.

(** C10 *)
Theorem C10_lists_exact : forall es p,
  parse_rxns es = Ok p ->
  mapM rxn_formula_list es = Ok (l_rxns p) /\
  strictly_increasing (l_ads p) /\ strictly_increasing (l_gas p) /\
  strictly_increasing (l_liq p) /\ strictly_increasing (l_site p) /\ strictly_increasing (l_ts p) /\
  lists_names gas_formula (l_rxns p) (l_gas p) /\
  lists_names liquid_formula (l_rxns p) (l_liq p) /\
  lists_names ts_formula (l_rxns p) (l_ts p) /\
  lists_names ads_formula (l_rxns p) (l_ads p) /\
  lists_sites (l_rxns p) (l_site p).
Proof. exact parse_rxns_facts. Qed.
Print Assumptions C10_lists_exact.

Theorem C10_lists_disjoint : forall es p n,
  parse_rxns es = Ok p ->
  ~ (In n (l_gas p) /\ In n (l_liq p)) /\ ~ (In n (l_gas p) /\ In n (l_ts p)) /\
  ~ (In n (l_gas p) /\ In n (l_ads p)) /\ ~ (In n (l_liq p) /\ In n (l_ts p)) /\
  ~ (In n (l_liq p) /\ In n (l_ads p)) /\ ~ (In n (l_ts p) /\ In n (l_ads p)).
Proof. exact parse_rxns_disjoint. Qed.
Print Assumptions C10_lists_disjoint.

Theorem C10_order_independent : forall es1 es2 p1,
  Permutation es1 es2 -> parse_rxns es1 = Ok p1 ->
  exists p2, parse_rxns es2 = Ok p2 /\
    l_ads p2 = l_ads p1 /\ l_gas p2 = l_gas p1 /\ l_liq p2 = l_liq p1 /\
    l_site p2 = l_site p1 /\ l_ts p2 = l_ts p1 /\ Permutation (l_rxns p1) (l_rxns p2).
Proof. exact parse_rxns_perm. Qed.
Print Assumptions C10_order_independent.

(** The call succeeds iff every reaction is balanced and readable. *)
Theorem C10_all_or_nothing : forall es,
  (exists p, parse_rxns es = Ok p) <->
  (forall e, In e es -> rxn_check_conservation e = Ok true /\ exists fls, rxn_formula_list e = Ok fls).
Proof. exact parse_rxns_ok_iff. Qed.
Print Assumptions C10_all_or_nothing.

Theorem C10_error_comes_from_a_reaction : forall es er,
  parse_rxns es = Err er ->
  exists e, In e es /\ (rxn_check_conservation e = Err er \/
                        (rxn_check_conservation e = Ok true /\ rxn_formula_list e = Err er)).
Proof. exact parse_rxns_error. Qed.
Print Assumptions C10_error_comes_from_a_reaction.

Definition co_oxidation : list str :=
  [L "CO_g + *_s -> CO_s"; L "O2_g + 2*_s -> 2O_s"; L "CO_s + O_s <-> CO-O_2s -> CO2_g + 2*_s"].

Example C10_example : exists p, parse_rxns co_oxidation = Ok p /\
  l_ads p = [L "CO_s"; L "O_s"] /\ l_gas p = [L "CO2_g"; L "CO_g"; L "O2_g"] /\ l_liq p = [] /\
  l_site p = [L "*_s"] /\ l_ts p = [L "CO-O_2s"].
Proof. eexists. split; [vm_compute; reflexivity|]. repeat split; vm_compute; reflexivity. Qed.

(** C11 *)
Theorem C11_matrices_net_consumption : forall es p,
  parse_rxns es = Ok p ->
  exists sm rm, stoichiometry_matrices p = Ok (sm, rm) /\
    length sm = length es /\ length rm = length es /\
    forall i rxn first last, nth_error (l_rxns p) i = Some rxn ->
      lfirst rxn = Ok first -> llast rxn = Ok last ->
      nth_error sm i = Some (map (fun n => net_consumption n first last) (l_site p ++ l_ads p)) /\
      nth_error rm i = Some (map (fun n => net_consumption n first last) (l_gas p ++ l_liq p)).
Proof. exact matrices_net. Qed.
Print Assumptions C11_matrices_net_consumption.

Theorem C11_reversal_negates : forall names e e' fls fls',
  NoDup names -> fls <> [] ->
  rxn_revert e = Ok e' -> rxn_formula_list e = Ok fls -> rxn_formula_list e' = Ok fls' ->
  exists row, matrix_row names fls = Ok row /\ matrix_row names fls' = Ok (map Z.opp row).
Proof. exact row_reversal. Qed.
Print Assumptions C11_reversal_negates.

Example C11_example : exists p, parse_rxns co_oxidation = Ok p /\
  stoichiometry_matrices p
  = Ok ([[1; -1; 0]; [2; 0; -2]; [-2; 1; 1]]%Z, [[0; 1; 0]; [0; 0; 1]; [-1; 0; 0]]%Z) /\
  rxn_revert (L "O2_g + 2*_s -> 2O_s") = Ok (L "2O_s -> O2_g + 2*_s") /\
  exists fls, rxn_formula_list (L "2O_s -> O2_g + 2*_s") = Ok fls /\
              matrix_row (l_site p ++ l_ads p) fls = Ok [-2; 0; 2]%Z.
Proof.
  eexists. split; [vm_compute; reflexivity|]. split; [vm_compute; reflexivity|].
  split; [vm_compute; reflexivity|].
  eexists. split; [vm_compute; reflexivity|]. vm_compute. reflexivity.
Qed.

(** C12 *)
Theorem C12_rows_conserve : forall es p, parse_rxns es = Ok p ->
  forall i rxn first last srow rrow sm rm,
  stoichiometry_matrices p = Ok (sm, rm) ->
  nth_error (l_rxns p) i = Some rxn -> lfirst rxn = Ok first -> llast rxn = Ok last ->
  nth_error sm i = Some srow -> nth_error rm i = Some rrow ->
  tabulated first -> tabulated last ->
  (forall x, (weighted (name_atoms x) (l_site p ++ l_ads p) srow
              + weighted (name_atoms x) (l_gas p ++ l_liq p) rrow)%Z = 0%Z) /\
  (forall s, surface_site s -> weighted (name_occupies s) (l_site p ++ l_ads p) srow = 0%Z).
Proof. exact rows_conserve. Qed.
Print Assumptions C12_rows_conserve.

Example C12_example :
  (exists a b, state_formulas (L "CO_s + O_s") = Ok a /\ tabulated a /\
               state_formulas (L "CO2_g + 2*_s") = Ok b /\ tabulated b) /\
  (map (name_atoms "O") [L "*_s"; L "CO_s"; L "O_s"; L "CO2_g"; L "CO_g"; L "O2_g"] = [0; 1; 1; 2; 1; 2])%Z /\
  (map (name_occupies (L "s")) [L "*_s"; L "CO_s"; L "O_s"; L "H_2s"] = [1; 1; 1; 2])%Z.
Proof.
  split; [|split; reflexivity]. eexists. eexists.
  split; [vm_compute; reflexivity|]. split.
  - intros f [<-|[<-|[]]] S; left; (split; [exact S|]); split; intro I; vm_compute in I; intuition discriminate.
  - split; [vm_compute; reflexivity|]. intros f [<-|[<-|[]]] S.
    + exfalso. destruct S as [S _]. apply S. vm_compute. reflexivity.
    + right. reflexivity.
Qed.

(** An empty pair of sites written in one word has no column: the site row of an
    accepted reaction then does not sum to zero. *)
Theorem C12_double_site_refuted : exists es p sm rm srow,
  parse_rxns es = Ok p /\ stoichiometry_matrices p = Ok (sm, rm) /\
  nth_error sm 0 = Some srow /\
  weighted (name_occupies (L "s")) (l_site p ++ l_ads p) srow <> 0%Z.
Proof.
  exists [L "O2_g + *_2s -> 2O_s"]. do 4 eexists. split; [vm_compute; reflexivity|]. split; [vm_compute; reflexivity|].
  split; [reflexivity|]. vm_compute. discriminate.
Qed.
Print Assumptions C12_double_site_refuted.

(** C13: for any coefficients whatever. *)
Theorem C13_returned_equation_checked : forall p coeffs e,
  total_rxn_equation p coeffs = Ok e -> rxn_check_conservation e = Ok true.
Proof. exact total_checked. Qed.
Print Assumptions C13_returned_equation_checked.

(** A returned equation has two sides, is balanced, shows the coefficients as net
    consumption, and these coefficients balance every element. *)
Theorem C13_returned_equation_balanced : forall es p, parse_rxns es = Ok p ->
  forall coeffs e,
  let names := l_gas p ++ l_liq p in
  total_rxn_equation p coeffs = Ok e ->
  exists reactants products, rxn_formula_list e = Ok [reactants; products] /\
    balanced reactants products /\
    (forall k n c, nth_error names k = Some n -> nth_error coeffs k = Some c ->
       net_consumption n reactants products = c) /\
    (forall x, weighted (name_atoms x) names (firstn (length names) coeffs) = 0%Z).
Proof. exact total_balanced. Qed.
Print Assumptions C13_returned_equation_balanced.

(** Exact outcome: which text is built, and that it is returned iff it is balanced. *)
Theorem C13_outcome : forall es p, parse_rxns es = Ok p ->
  forall coeffs, let names := l_gas p ++ l_liq p in
  length names <= length coeffs ->
  (exists c, In c (firstn (length names) coeffs) /\ (0 <= c)%Z) ->
  (exists c, In c (firstn (length names) coeffs) /\ (c < 0)%Z) ->
  exists e reactants products,
    rxn_formula_list e = Ok [reactants; products] /\
    (forall k n c, nth_error names k = Some n -> nth_error coeffs k = Some c ->
       total_of_species n reactants = Z.max c 0 /\ total_of_species n products = Z.max (- c) 0) /\
    (forall x, (total_atoms x reactants - total_atoms x products)%Z
               = weighted (name_atoms x) names (firstn (length names) coeffs)) /\
    (conserved [reactants; products] -> total_rxn_equation p coeffs = Ok e) /\
    (~ conserved [reactants; products] -> total_rxn_equation p coeffs = Err ValueError).
Proof. exact total_two_sided. Qed.
Print Assumptions C13_outcome.

Theorem C13_too_few_coefficients : forall es p, parse_rxns es = Ok p ->
  forall coeffs, length coeffs < length (l_gas p ++ l_liq p) ->
  total_rxn_equation p coeffs = Err IndexError.
Proof. exact total_short. Qed.
Print Assumptions C13_too_few_coefficients.

Theorem C13_one_sided_rejected : forall es p, parse_rxns es = Ok p ->
  forall coeffs, let names := l_gas p ++ l_liq p in
  length names <= length coeffs ->
  (forall c, In c (firstn (length names) coeffs) -> (0 <= c)%Z) \/
  (forall c, In c (firstn (length names) coeffs) -> (c < 0)%Z) ->
  total_rxn_equation p coeffs = Err ChemFormulaError.
Proof. exact total_one_sided. Qed.
Print Assumptions C13_one_sided_rejected.

Example C13_example : exists p, parse_rxns co_oxidation = Ok p /\
  total_rxn_equation p [-2; 2; 1]%Z = Ok (L "2CO_g + O2_g -> 2CO2_g") /\
  total_rxn_equation p [-1; 1; 1]%Z = Err ValueError.
Proof. eexists. split; [vm_compute; reflexivity|]. repeat split; vm_compute; reflexivity. Qed.
