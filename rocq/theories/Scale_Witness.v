(** Concrete mechanisms for C82 and C83. *)
From Coq Require Import String Ascii List ZArith Bool Reals Lra Lia.
Import ListNotations.
From Verif Require Import PyBase PyBaseFacts Rxn_Model Rxn_Spec Species_Model PyReal Energy_Model Energy_Spec MF_Model MF_Spec MF_Witness
  Whole_Spec Whole_Witness Scale_Spec.
Local Open Scope list_scope.
Local Open Scope R_scope.

Definition direct : str := L "CO_g + O_s -> CO2_g + *_s".
Definition more : list str := oxidation ++ [direct].
Definition more_lists : lists := Eval vm_compute in lists_of more.
Definition more_setup : setup :=
  setup_of more more_lists [(L "*_s", one)] [(L "CO_g", 2); (L "O2_g", 3); (L "CO2_g", 0)]%R [].
Lemma more_usable : usable_setup more_setup.
Proof. apply usable_setup_ok; vm_compute; reflexivity. Qed.
Lemma more_one : one_more direct ox_setup more_setup.
Proof.
  split; [split; [vm_compute; reflexivity|repeat split]|]. split; [reflexivity|].
  split; [vm_compute; intros H; repeat destruct H as [H|H]; try discriminate; auto|].
  repeat split; vm_compute; reflexivity.
Qed.

Lemma flat_raised : exists r r', relative_from_absolute true flat (s_exprs ox_setup) = Ok r /\
  entries r (length (s_exprs ox_setup)) /\ raised (/ 2) r r'.
Proof.
  destruct flat_relative as [r E]. exists r,
    {| r_Gaf := map (fun x => x + / 2) (r_Gaf r); r_Gar := map (fun x => x + / 2) (r_Gar r); r_dG := r_dG r |}.
  split; [exact E|]. split; [|repeat split].
  revert E. change (s_exprs ox_setup) with oxidation. lazy -[Rmult Rminus Rplus IZR Rmax]. intro E. injection E as <-. repeat split.
Qed.

Definition pressed_setup : setup :=
  setup_of oxidation ox_lists [(L "*_s", one)] [(L "CO_g", 4 * 2); (L "O2_g", 3); (L "CO2_g", 0)]%R [].
Lemma pressed_ok : pressure_scaled (L "CO_g") 4 ox_setup pressed_setup.
Proof.
  do 4 (split; [reflexivity|]). split; [reflexivity|]. intros n Hn.
  cbn [pressed_setup ox_setup setup_of s_pressure dget].
  destruct (str_eqb n (L "CO_g")) eqn:E; [apply str_eqb_eq in E; contradiction|]. reflexivity.
Qed.
