(** Property C14: molecular formulas and masses.  Vocabulary: Mol_Spec.v. *)
From Coq Require Import String Ascii List ZArith QArith Bool.
Import ListNotations.
From Verif Require Import PyBase PyBaseFacts Mol_Model Mol_Spec Mol_Proofs Mol_More.
Open Scope list_scope.

Theorem C14_expansion : forall m, mol_ok m ->
  exists l, string2symbols (write_mol m) = Ok l /\ forall x, occurrences x l = mol_count x m.
Proof. exact read_molecule. Qed.
Print Assumptions C14_expansion.

(** The only exception is ValueError (the recursion always ends). *)
Theorem C14_outcomes : forall s,
  (exists l, string2symbols s = Ok l) \/ string2symbols s = Err ValueError.
Proof. exact string2symbols_outcome. Qed.
Print Assumptions C14_outcomes.

(** Rejection of every other text, provided its parentheses are closed.  Missing: texts
    with an unclosed parenthesis, see the refutation below. *)
Theorem C14_rejection_partial : forall s, all_closed s ->
  ((exists l, string2symbols s = Ok l) <-> (exists m, mol_ok m /\ write_mol m = s)) /\
  (~ (exists m, mol_ok m /\ write_mol m = s) -> string2symbols s = Err ValueError).
Proof. exact accept_iff. Qed.
Print Assumptions C14_rejection_partial.

(** An unclosed parenthesis is accepted and the last character is lost. *)
Theorem C14_unclosed_refuted : exists s l,
  ~ all_closed s /\ string2symbols s = Ok l /\ l = [L "C"] /\ s = L "(CO".
Proof.
  exists (L "(CO"), [L "C"]. repeat split. intro H. specialize (H [] (L "CO") eq_refl). discriminate.
Qed.
Print Assumptions C14_unclosed_refuted.

(** All texts: a text is read as exactly one text with closed parentheses, and is accepted
    if and only if that one is a written molecule. *)
Theorem C14_acceptance : forall s, exists s',
  stands_for s s' /\ (forall s2, stands_for s s2 -> s2 = s') /\ all_closed s' /\
  ((exists l, string2symbols s = Ok l) <-> (exists m, mol_ok m /\ write_mol m = s')) /\
  (forall m, mol_ok m -> write_mol m = s' ->
     exists l, string2symbols s = Ok l /\ forall x, occurrences x l = mol_count x m) /\
  (~ (exists m, mol_ok m /\ write_mol m = s') -> string2symbols s = Err ValueError).
Proof. exact acceptance. Qed.
Print Assumptions C14_acceptance.

Theorem C14_mass_unclosed : forall s s' absolute, stands_for s s' ->
  molecular_mass s absolute = molecular_mass s' absolute.
Proof. exact mass_stands. Qed.
Print Assumptions C14_mass_unclosed.

(** Two unclosed parentheses: the last two characters are lost. *)
Example C14_unclosed_example :
  stands_for (L "C(O(CH2") (L "C(O(C))") /\ string2symbols (L "C(O(CH2") = Ok [L "C"; L "O"; L "C"].
Proof.
  split; [|reflexivity].
  assert (N : forall s, forallb (fun c => negb (Ascii.eqb c "(")) s = true -> all_closed s).
  { intros s H a b E. exfalso. subst s. rewrite forallb_app in H. cbn [forallb] in H.
    change (Ascii.eqb "(" "(") with true in H. cbn [negb andb] in H. rewrite andb_false_r in H. discriminate. }
  apply (StandsOpen (L "C") (L "O(CH2") (L "O(C)")); [now apply N|reflexivity|].
  apply (StandsOpen (L "O") (L "CH") (L "C")); [now apply N|reflexivity|].
  apply StandsClosed. now apply N.
Qed.

Theorem C14_mass : forall m absolute, mol_ok m ->
  ((forall x, (0 < mol_count x m)%Z -> In x (map fst known_masses)) ->
     exists q, molecular_mass (write_mol m) absolute = Ok q /\
       (q == (if absolute then 1.66053904e-27 else 1) * mass_of (fun x => mol_count x m))%Q) /\
  ((exists x, (0 < mol_count x m)%Z /\ ~ In x (map fst known_masses)) ->
     molecular_mass (write_mol m) absolute = Err ElementSearchingError).
Proof. exact mass_molecule. Qed.
Print Assumptions C14_mass.

Definition ethanol_pair : mol :=
  Mol (L "2") (IGroup (Mol [] (IElem "C" None [] (IElem "H" None (L "3") INil))) []
              (IElem "C" None [] (IElem "H" None (L "2") (IElem "O" None [] (IElem "H" None [] INil))))).

Example C14_example :
  mol_ok ethanol_pair /\ write_mol ethanol_pair = L "2(CH3)CH2OH" /\
  mol_count (L "H") ethanol_pair = 12%Z /\
  string2symbols (L "CH2(Cl)2") = Ok [L "C"; L "H"; L "H"; L "Cl"; L "Cl"] /\
  string2symbols (L "CO)") = Err ValueError /\
  all_closed (L "CO)").
Proof.
  repeat split. intros a b E. exfalso.
  assert (In "("%char (L "CO)")) by (rewrite E; apply in_elt).
  vm_compute in H. intuition discriminate.
Qed.
