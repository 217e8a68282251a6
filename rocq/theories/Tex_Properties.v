(** Property C59: TeX texts of formulas, states and reactions.  Vocabulary: Tex_Spec.v. *)
From Coq Require Import String Ascii List ZArith NArith Bool.
Import ListNotations.
From Verif Require Import PyBase Rxn_Model Rxn_Spec Tex_Spec Tex_Proofs.
Local Open Scope list_scope.

(** A formula: the number unless it is one, the species with its numbers as subscripts, the site. *)
Theorem C59_formula : forall f, formula_texen f = tex_formula f.
Proof. exact formula_tex. Qed.
Print Assumptions C59_formula.

Example C59_formula_example : exists f, parse_formula (L "2CH3-OH_s") = Ok f /\
  formula_texen f = L "2CH_{3}-OH(s)".
Proof. eexists. split; vm_compute; reflexivity. Qed.

(** A state: its formulas joined by plus signs; a state that cannot be split raises as before. *)
Theorem C59_state : forall st, match state_formulas st with
  | Ok fs => state_texen st = Ok (tex_state fs)
  | Err e => state_texen st = Err e
  end.
Proof. exact state_tex. Qed.
Print Assumptions C59_state.

(** A reaction: one arrow between two states; with a transition state a double arrow and an arrow;
    any other number of states is an error. *)
Theorem C59_reaction : forall e fls, rxn_formula_list e = Ok fls ->
  rxn_texen e =
    match fls with
    | [a; b] => Ok (tex_state a ++ L " \rightarrow " ++ tex_state b)
    | [a; b; c] => Ok (tex_state a ++ L " \leftrightarrow " ++ tex_state b ++ L " \rightarrow " ++ tex_state c)
    | _ => Err UnboundLocalError
    end.
Proof. exact rxn_tex. Qed.
Print Assumptions C59_reaction.

Theorem C59_reaction_error : forall e x, rxn_formula_list e = Err x -> rxn_texen e = Err x.
Proof. exact rxn_tex_error. Qed.
Print Assumptions C59_reaction_error.

Example C59_reaction_example : exists fls,
  rxn_formula_list (L "CO_s + O_s <-> CO-O_2s -> CO2_g + 2*_s") = Ok fls /\ length fls = 3%nat /\
  rxn_texen (L "CO_s + O_s <-> CO-O_2s -> CO2_g + 2*_s")
  = Ok (L "CO(s) + O(s) \leftrightarrow CO-O(s) \rightarrow CO_{2}(g) + 2*(s)").
Proof. eexists. split; [vm_compute; reflexivity|]. split; vm_compute; reflexivity. Qed.

(** For simple names nothing of the species is lost: without the subscript commands the text is
    the number, the species and the site. *)
Theorem C59_readable_simple : forall f, simple_name (f_species f) -> site_name (f_site f) -> (0 <= f_stoich f)%Z ->
  plain_text (formula_texen f)
  = (if (f_stoich f =? 1)%Z then [] else str_of_Z (f_stoich f)) ++ f_species f ++ L "(" ++ f_site f ++ L ")".
Proof. exact plain_formula. Qed.
Print Assumptions C59_readable_simple.

(** All names: what is left of the species, and for which names this is everything. *)
Theorem C59_readable : forall f, site_name (f_site f) -> (0 <= f_stoich f)%Z ->
  plain_text (formula_texen f)
  = (if (f_stoich f =? 1)%Z then [] else str_of_Z (f_stoich f)) ++ visible (f_species f) ++ L "(" ++ f_site f ++ L ")" /\
  (visible (f_species f) = f_species f <-> simple_name (f_species f)).
Proof. exact readable. Qed.
Print Assumptions C59_readable.

Example C59_left_out_example : exists f, parse_formula (L "3C_2H5_2s") = Ok f /\ f_species f = L "C_2H5" /\ visible (f_species f) = L "CH5" /\ site_name (f_site f) /\ (0 <= f_stoich f)%Z.
Proof.
  eexists. split; [vm_compute; reflexivity|]. split; [reflexivity|]. split; [reflexivity|].
  split; [split; [discriminate|reflexivity]|discriminate].
Qed.

Example C59_readable_example : exists f, parse_formula (L "2CH3-OH_s") = Ok f /\
  simple_name (f_species f) /\ site_name (f_site f) /\ (0 <= f_stoich f)%Z.
Proof.
  eexists. split; [vm_compute; reflexivity|].
  split; [vm_compute; intuition|split; [split; [discriminate|reflexivity]|discriminate]].
Qed.

(** Refuted: different reactions can have the same text.  The number of sites, the kind of the
    arrow between two states, and underscores and leading numbers in names are not shown. *)
Theorem C59_distinct_refuted :
  (exists s1 s2 f1 f2, parse_formula s1 = Ok f1 /\ parse_formula s2 = Ok f2 /\
     f_nsite f1 <> f_nsite f2 /\ formula_texen f1 = formula_texen f2) /\
  (exists s1 s2 f1 f2, parse_formula s1 = Ok f1 /\ parse_formula s2 = Ok f2 /\
     f_species f1 <> f_species f2 /\ formula_texen f1 = formula_texen f2) /\
  (forall a b, rxn_texen (L "CO_g + *_s -> CO_s") = Ok a -> rxn_texen (L "CO_g + *_s <-> CO_s") = Ok b -> a = b).
Proof.
  split; [|split].
  - exists (L "CO_s"), (L "CO_2s"). do 2 eexists. split; [vm_compute; reflexivity|]. split; [vm_compute; reflexivity|].
    split; [discriminate|vm_compute; reflexivity].
  - exists (L "C_O_s"), (L "CO_s"). do 2 eexists. split; [vm_compute; reflexivity|]. split; [vm_compute; reflexivity|].
    split; [discriminate|vm_compute; reflexivity].
  - intros a b A B. vm_compute in A, B. congruence.
Qed.
Print Assumptions C59_distinct_refuted.
