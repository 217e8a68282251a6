(** Vocabulary for the comparisons of C100. *)
From Coq Require Import String Ascii List ZArith Bool.
Import ListNotations.
From Verif Require Import PyBase Rxn_Model Rxn_Spec Obj_Model.

(** Python's truth of what came back: an exception object counts as true. *)
Definition truthy (a : answer) : Prop :=
  match a with ABool b => b = true | AException _ => True end.

(** [if x.conserve(y): ...] enters the branch. *)
Definition vouched (r : res answer) : Prop := exists a, r = Ok a /\ truthy a.

Definition same_class_state (o : pyobj) : Prop := exists st, o = OState st.
Definition same_class_formula (o : pyobj) : Prop := exists f, o = OFormula f.

(** Equal atoms and equal sites of two single formulas. *)
Definition formulas_balance (f1 f2 : formula) : Prop :=
  (forall x, total_atoms x [f1] = total_atoms x [f2]) /\
  (forall x, species_mentions x (f_species f1) <-> species_mentions x (f_species f2)) /\
  f_site f1 = f_site f2 /\ (f_nsite f1 * f_stoich f1 = f_nsite f2 * f_stoich f2)%Z.

(** Equal atoms and equal surface sites of two states given as text. *)
Definition states_balance (st1 st2 : str) : Prop :=
  exists fs1 fs2, state_formulas st1 = Ok fs1 /\ state_formulas st2 = Ok fs2 /\
    balanced fs1 fs2 /\ same_mentions fs1 fs2.
