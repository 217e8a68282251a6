From Coq Require Import String Ascii List ZArith Bool.
Import ListNotations.
From Verif Require Import PyBase Rxn_Model Rxn_Spec Rxn_Proofs Rxn_Count Rxn_More Obj_Model Obj_Spec.

Lemma formula_conserve_bool f1 f2 :
  formula_conserve f1 f2 = Ok true \/ formula_conserve f1 f2 = Err ValueError.
Proof. unfold formula_conserve. destruct (negb _); auto. destruct (negb _); auto. Qed.

Lemma formula_vouch f o :
  (vouched (formula_conserve_any f o) <-> exists f2, o = OFormula f2 /\ formulas_balance f f2) /\
  (forall a, formula_conserve_any f o = Ok a -> a = ABool true) /\
  (forall f2, o = OFormula f2 -> ~ formulas_balance f f2 ->
     formula_conserve_any f o = Err ValueError) /\
  (~ same_class_formula o -> formula_conserve_any f o = Err ParameterError).
Proof.
  unfold vouched, formulas_balance, same_class_formula.
  destruct o as [st|f2|]; cbn [formula_conserve_any].
  1,3: split; [split; [intros (a & H & _); discriminate | intros (? & H & _); discriminate]|];
       split; [discriminate|]; split; [discriminate|reflexivity].
  pose proof (formula_conserve_iff f f2) as F.
  destruct (formula_conserve_bool f f2) as [E|E]; rewrite E in *; cbn [bind].
  - split; [|split; [|split]].
    + split; [intros _; exists f2; split; [reflexivity|now apply F]|].
      intros _. exists (ABool true). split; reflexivity.
    + intros a H. now injection H as <-.
    + intros g H N. injection H as <-. exfalso. apply N, F. reflexivity.
    + intros N. exfalso. apply N. eauto.
  - split; [|split; [|split]].
    + split; [intros (a & H & _); discriminate|].
      intros (g & H & B). injection H as <-. apply F in B. discriminate.
    + discriminate.
    + reflexivity.
    + intros N. exfalso. apply N. eauto.
Qed.

Lemma state_vouch st st2 :
  (vouched (state_conserve_any st (OState st2)) <-> states_balance st st2) /\
  (forall a, state_conserve_any st (OState st2) = Ok a -> a = ABool true) /\
  (~ states_balance st st2 ->
     state_conserve_any st (OState st2) = Err ValueError \/
     state_conserve_any st (OState st2) = Err ChemFormulaError).
Proof.
  unfold vouched, states_balance. cbn [state_conserve_any].
  destruct (state_conserve_cases st st2) as [(a & b & Ha & Hb & _)|[N E]].
  - destruct (state_conserve_exact _ _ _ _ Ha Hb) as [(B & M & E)|[N E]]; rewrite E; cbn [bind].
    + split; [|split].
      * split; [intros _; exists a, b; auto|intros _; exists (ABool true); split; reflexivity].
      * intros x H. now injection H as <-.
      * intros N. exfalso. apply N. exists a, b. auto.
    + split; [|split].
      * split; [intros (x & H & _); discriminate|].
        intros (a' & b' & Ha' & Hb' & BM). exfalso. apply N. congruence.
      * discriminate.
      * auto.
  - rewrite E. cbn [bind]. split; [|split].
    + split; [intros (x & H & _); discriminate|].
      intros (a' & b' & Ha' & Hb' & _). destruct N as [[e H]|[e H]]; congruence.
    + discriminate.
    + auto.
Qed.

Lemma state_vouches_others st o :
  ~ same_class_state o ->
  state_conserve_any st o = Ok (AException ParameterError) /\ vouched (state_conserve_any st o).
Proof.
  intros N. assert (E : state_conserve_any st o = Ok (AException ParameterError)).
  { destruct o as [s| |]; [exfalso; apply N; red; eauto| |]; reflexivity. }
  split; [exact E|]. rewrite E. exists (AException ParameterError). split; [reflexivity|exact I].
Qed.

Lemma state_vouches_wrongly : exists st f,
  parse_formula (L "CO_g") = Ok f /\ state_formulas st = Ok [f] /\
  vouched (state_conserve_any st (OFormula f)) /\ vouched (state_conserve_any st OOther) /\
  formula_conserve_any f (OState st) = Err ParameterError.
Proof.
  exists (L "CO_g"). eexists. split; [vm_compute; reflexivity|].
  split; [vm_compute; reflexivity|].
  split; [|split; [|reflexivity]];
    (exists (AException ParameterError); split; [reflexivity|exact I]).
Qed.

Lemma add_fails f o : formula_add f o = Err TypeError.
Proof. reflexivity. Qed.

Lemma add_never_joins : exists f g,
  parse_formula (L "CO_s") = Ok f /\ parse_formula (L "O_s") = Ok g /\
  state_formulas (f_text f ++ L " + " ++ f_text g) = Ok [f; g] /\
  formula_add f (OFormula g) <> Ok (f_text f ++ L " + " ++ f_text g).
Proof.
  eexists. eexists. split; [vm_compute; reflexivity|]. split; [vm_compute; reflexivity|].
  split; [vm_compute; reflexivity|discriminate].
Qed.
