(** Properties C01-C09: formulas, states and reactions.  Vocabulary: Rxn_Spec.v. *)
From Coq Require Import String Ascii List ZArith NArith Bool Permutation.
Import ListNotations.
From Verif Require Import PyBase PyBaseFacts Rxn_Model Rxn_Spec Rxn_Proofs Rxn_Count Rxn_More.

(** C01 *)
Theorem C01_formula_roundtrip : forall n sp m site,
  species_name sp -> site_name site ->
  parse_formula (write_formula n sp m site)
  = Ok {| f_text := write_formula n sp m site;
          f_stoich := number_value n;
          f_species_site := write_species_site sp m site;
          f_species := sp;
          f_nsite := number_value m;
          f_site := site |}.
Proof. exact formula_roundtrip. Qed.
Print Assumptions C01_formula_roundtrip.

Example C01_example :
  species_name (L "CO-O2") /\ site_name (L "s") /\
  write_formula (Some 12%N) (L "CO-O2") (Some 3%N) (L "s") = L "12CO-O2_3s".
Proof. repeat split; try discriminate; reflexivity. Qed.

(** C02 *)
Theorem C02_formula_accepted_iff_site_marker : forall s,
  (has_site_marker s -> exists f, parse_formula s = Ok f) /\
  (~ has_site_marker s -> parse_formula s = Err ChemFormulaError).
Proof.
  exact (fun s => conj (proj2 (formula_accept s)) (formula_reject s)).
Qed.
Print Assumptions C02_formula_accepted_iff_site_marker.

Example C02_example :
  has_site_marker (L "2H2O_12s") /\ parse_formula (L "H2O_12") = Err ChemFormulaError.
Proof.
  split; [|reflexivity].
  exists (L "2H2O"), (L "12"), "s"%char, []. repeat split; reflexivity.
Qed.

(** C03 *)
Theorem C03_reaction_two_states : forall a ar b,
  no_angle a -> no_angle b -> nonblank a -> nonblank b ->
  rxn_tolist (a ++ arrow_text ar ++ b) = Ok [strip a; strip b].
Proof. exact tolist2_nonblank. Qed.
Print Assumptions C03_reaction_two_states.

Theorem C03_reaction_three_states : forall a ar b ar2 c,
  no_angle a -> no_angle b -> no_angle c -> nonblank a -> nonblank b -> nonblank c ->
  rxn_tolist (a ++ arrow_text ar ++ b ++ arrow_text ar2 ++ c) = Ok [strip a; strip b; strip c].
Proof. exact tolist3_nonblank. Qed.
Print Assumptions C03_reaction_three_states.

(** A text without arrow is the only text that is not split. *)
Theorem C03_no_arrow_error : forall e,
  (exists sts, rxn_tolist e = Ok sts) \/
  (rxn_tolist e = Err AttributeError /\ forall a b, e <> a ++ L "->" ++ b).
Proof. exact tolist_total. Qed.
Print Assumptions C03_no_arrow_error.

Example C03_example :
  no_angle (L "CO_s - x ") /\ nonblank (L "CO_s - x ") /\
  rxn_tolist (L "CO_s - x " ++ arrow_text Double ++ L " A_s" ++ arrow_text Single ++ L "B_s ")
  = Ok [L "CO_s - x"; L "A_s"; L "B_s"].
Proof.
  repeat split; try (intro H; cbn in H; intuition discriminate).
Qed.

(** What is beyond a third arrow is dropped silently. *)
Theorem C03_four_states_refuted : exists a b c d,
  Forall no_angle [a; b; c; d] /\ Forall nonblank [a; b; c; d] /\
  rxn_tolist (a ++ L "->" ++ b ++ L "->" ++ c ++ L "->" ++ d) = Ok [a; b; c ++ L "-"].
Proof. exact tolist_four_states. Qed.
Print Assumptions C03_four_states_refuted.

(** C04 *)
Theorem C04_revert_involution : forall e sts,
  rxn_tolist e = Ok sts -> two_or_three sts ->
  rxn_revert e = Ok (write_rxn (rev sts)) /\
  rxn_tolist (write_rxn (rev sts)) = Ok (rev sts) /\
  rxn_revert (write_rxn (rev sts)) = Ok (write_rxn sts) /\
  rxn_tolist (write_rxn sts) = Ok sts.
Proof. exact revert_full. Qed.
Print Assumptions C04_revert_involution.

Theorem C04_revert_error : forall e sts,
  rxn_tolist e = Ok sts -> ~ two_or_three sts -> rxn_revert e = Err UnboundLocalError.
Proof. exact revert_other_length. Qed.
Print Assumptions C04_revert_error.

Example C04_example :
  rxn_tolist (L "CO_g + *_s->CO_s") = Ok [L "CO_g + *_s"; L "CO_s"] /\
  rxn_revert (L "CO_g + *_s->CO_s") = Ok (L "CO_s -> CO_g + *_s").
Proof. split; reflexivity. Qed.

(** C05 *)
Theorem C05_conservation_check_exact : forall e fls,
  rxn_formula_list e = Ok fls -> fls <> [] ->
  (conserved fls -> rxn_check_conservation e = Ok true) /\
  (~ conserved fls -> rxn_check_conservation e = Err ValueError).
Proof. exact check_exact. Qed.
Print Assumptions C05_conservation_check_exact.

Theorem C05_accepted_is_balanced : forall e sts,
  rxn_tolist e = Ok sts -> 2 <= length sts -> rxn_check_conservation e = Ok true ->
  exists fls, rxn_formula_list e = Ok fls /\ forall a b, In a fls -> In b fls -> balanced a b.
Proof. exact check_sound. Qed.
Print Assumptions C05_accepted_is_balanced.

(** The check never returns False, and fails only in these ways. *)
Theorem C05_check_outcomes : forall e,
  rxn_check_conservation e = Ok true \/
  rxn_check_conservation e = Err ValueError \/
  rxn_check_conservation e = Err ChemFormulaError \/
  (rxn_check_conservation e = Err AttributeError /\ rxn_tolist e = Err AttributeError) \/
  (rxn_check_conservation e = Err IndexError /\ rxn_tolist e = Ok []).
Proof. exact check_outcomes. Qed.
Print Assumptions C05_check_outcomes.

(** Two single formulas. *)
Theorem C05_formula_conserve_iff : forall f1 f2,
  formula_conserve f1 f2 = Ok true <->
  (forall x, total_atoms x [f1] = total_atoms x [f2]) /\
  (forall x, species_mentions x (f_species f1) <-> species_mentions x (f_species f2)) /\
  f_site f1 = f_site f2 /\ (f_nsite f1 * f_stoich f1 = f_nsite f2 * f_stoich f2)%Z.
Proof. exact formula_conserve_iff. Qed.
Print Assumptions C05_formula_conserve_iff.

(** Two single states, whatever their text. *)
Theorem C05_state_conserve_exact : forall st1 st2 fs1 fs2,
  state_formulas st1 = Ok fs1 -> state_formulas st2 = Ok fs2 ->
  (balanced fs1 fs2 /\ same_mentions fs1 fs2 /\ state_conserve st1 st2 = Ok true) \/
  (~ (balanced fs1 fs2 /\ same_mentions fs1 fs2) /\ state_conserve st1 st2 = Err ValueError).
Proof. exact state_conserve_exact. Qed.
Print Assumptions C05_state_conserve_exact.

(** A one-sided equation is accepted unread. *)
Theorem C05_one_sided_refuted : exists e st,
  rxn_tolist e = Ok [st] /\ rxn_check_conservation e = Ok true /\
  state_formulas st = Err ChemFormulaError.
Proof. exact check_one_sided. Qed.
Print Assumptions C05_one_sided_refuted.

Example C05_example :
  rxn_check_conservation (L "CO_s + O_s <-> CO-O_2s -> CO2_g + 2*_s") = Ok true /\
  rxn_check_conservation (L "CO_s + O_s -> CO2_s") = Err ValueError /\
  rxn_check_conservation (L "CO_s + *_s -> C_s + 2O_s") = Err ValueError.
Proof. repeat split; vm_compute; reflexivity. Qed.

(** C06 *)
Theorem C06_check_reversal : forall e e',
  rxn_revert e = Ok e' ->
  (rxn_check_conservation e = Ok true <-> rxn_check_conservation e' = Ok true).
Proof. exact check_revert. Qed.
Print Assumptions C06_check_reversal.

Theorem C06_check_permutation : forall tss1 tss2,
  two_or_three tss1 ->
  Forall (fun ts => ts <> [] /\ Forall formula_word ts) tss1 ->
  Forall2 (@Permutation str) tss1 tss2 ->
  (rxn_check_conservation (write_rxn (map write_state tss1)) = Ok true <->
   rxn_check_conservation (write_rxn (map write_state tss2)) = Ok true).
Proof. exact check_perm. Qed.
Print Assumptions C06_check_permutation.

Example C06_example :
  write_rxn (map write_state [[L "O2_g"; L "2*_s"]; [L "2O_s"]]) = L "O2_g + 2*_s -> 2O_s" /\
  Forall (fun ts => ts <> [] /\ Forall formula_word ts) [[L "O2_g"; L "2*_s"]; [L "2O_s"]] /\
  rxn_check_conservation (L "2*_s + O2_g -> 2O_s") = Ok true.
Proof.
  split; [reflexivity|]. split; [|reflexivity].
  repeat constructor; try discriminate; cbn; intuition discriminate.
Qed.

(** C07 *)
Theorem C07_element_totals : forall st fs,
  state_formulas st = Ok fs ->
  exists d, state_elements st = Ok d /\ NoDup (map fst d) /\
    (forall x, mentions_atom x fs -> dget d [x] = Some (total_atoms x fs)) /\
    (forall k, In k (map fst d) -> exists x, k = [x] /\ mentions_atom x fs).
Proof. exact state_elements_totals. Qed.
Print Assumptions C07_element_totals.

Theorem C07_formula_elements : forall f,
  NoDup (map fst (formula_elements f)) /\
  (forall x, species_mentions x (f_species f) ->
     dget (formula_elements f) [x] = Some (f_stoich f * atoms_in_species x (f_species f))%Z) /\
  (forall k, In k (map fst (formula_elements f)) -> exists x, k = [x] /\ species_mentions x (f_species f)).
Proof. exact formula_elements_totals. Qed.
Print Assumptions C07_formula_elements.

Theorem C07_site_totals : forall st fs,
  state_formulas st = Ok fs ->
  exists d, state_sites st = Ok d /\ NoDup (map fst d) /\
    (forall s, surface_site s -> mentions_site s fs -> dget d s = Some (total_sites s fs)) /\
    (forall k, In k (map fst d) -> surface_site k /\ mentions_site k fs).
Proof. exact state_sites_totals. Qed.
Print Assumptions C07_site_totals.

Example C07_example :
  state_elements (L "2C2H5OH_g + *_s") = Ok [(L "C", 4%Z); (L "H", 12%Z); (L "O", 2%Z)] /\
  exists fs, state_formulas (L "2C2H5OH_g + *_s") = Ok fs /\
    total_atoms "H" fs = 12%Z /\ mentions_atom "H" fs.
Proof.
  split; [reflexivity|]. eexists. split; [reflexivity|]. split; [reflexivity|].
  eexists. split; [left; reflexivity|]. repeat split; cbn; auto. discriminate.
Qed.

(** C08: the full statement is false for a species written twice. *)
Theorem C08_species_table_refuted : exists st fs d name,
  state_formulas st = Ok fs /\ state_species_site_dict st = Ok d /\
  In name (map f_species_site fs) /\ dget d name <> Some (total_of_species name fs).
Proof. exact species_table_wrong. Qed.
Print Assumptions C08_species_table_refuted.

(** It holds for states that list no species twice (missing: repeated species). *)
Theorem C08_species_table_partial : forall st fs,
  state_formulas st = Ok fs -> NoDup (map f_species_site fs) ->
  exists d, state_species_site_dict st = Ok d /\
    (forall name, In name (map fst d) <-> In name (map f_species_site fs)) /\
    (forall name, In name (map f_species_site fs) -> dget d name = Some (total_of_species name fs)).
Proof. exact species_table_unique. Qed.
Print Assumptions C08_species_table_partial.

(** What the table shows in general: the number of the last occurrence. *)
Theorem C08_species_table_last : forall st l f r,
  state_formulas st = Ok (l ++ f :: r) -> ~ In (f_species_site f) (map f_species_site r) ->
  exists d, state_species_site_dict st = Ok d /\ dget d (f_species_site f) = Some (f_stoich f).
Proof. exact species_table_last. Qed.
Print Assumptions C08_species_table_last.

Theorem C08_species_list : forall st fs,
  state_formulas st = Ok fs -> state_species_site_list st = Ok (map f_species_site fs).
Proof. exact species_list_all. Qed.
Print Assumptions C08_species_list.

Example C08_example :
  state_species_site_dict (L "2CO_s + 3*_s") = Ok [(L "CO_s", 2%Z); (L "*_s", 3%Z)] /\
  state_species_site_dict (L "CO_s + 2CO_s") = Ok [(L "CO_s", 2%Z)].
Proof. split; reflexivity. Qed.

(** C09 *)
Theorem C09_gas_lists : forall e fls first last,
  rxn_formula_list e = Ok fls -> lfirst fls = Ok first -> llast fls = Ok last ->
  rxn_adsorption_gases e = Ok (filter (fun f => str_eqb (f_site f) (L "g")) first) /\
  rxn_desorption_gases e = Ok (filter (fun f => str_eqb (f_site f) (L "g")) last).
Proof. exact gas_lists. Qed.
Print Assumptions C09_gas_lists.

Theorem C09_gas_lists_mirror : forall e e',
  rxn_revert e = Ok e' -> forall fls, rxn_formula_list e = Ok fls ->
  rxn_adsorption_gases e' = rxn_desorption_gases e /\
  rxn_desorption_gases e' = rxn_adsorption_gases e.
Proof. exact gases_revert. Qed.
Print Assumptions C09_gas_lists_mirror.

Theorem C09_formula_type : forall f,
  (formula_type f = Gas <-> f_site f = L "g") /\
  (formula_type f = Liquid <-> f_site f = L "l") /\
  (formula_type f = Site <-> surface_site (f_site f) /\ In ("*"%char) (f_species_site f)) /\
  (formula_type f = Adsorbate <-> surface_site (f_site f) /\ ~ In ("*"%char) (f_species_site f)).
Proof. exact formula_type_iff. Qed.
Print Assumptions C09_formula_type.

Example C09_example : exists e', rxn_revert (L "CO_g + 2O_s -> CO2_g + *_s") = Ok e' /\
  match rxn_adsorption_gases e' with Ok [f] => f_text f = L "CO2_g" | _ => False end /\
  match rxn_desorption_gases e' with Ok [f] => f_text f = L "CO_g" | _ => False end.
Proof. eexists. repeat split; reflexivity. Qed.
