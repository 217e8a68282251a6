(** Lemmas: gases in only one of the two tables of characteristic temperatures (C105). *)
From Coq Require Import String Ascii List ZArith Bool Reals Lra.
Import ListNotations.
From Verif Require Import PyBase PyBaseFacts PyReal Thermo_Model Thermo_Spec Thermo_Lone_Spec.
Open Scope list_scope.
Open Scope R_scope.

Ltac near := repeat (constructor; [unfold within; apply Rabs_le; split; lra|]); constructor.

Lemma lone_vibrations g vib : In (g, vib) spectroscopy_vibrations -> exists vth,
  dget vibration_temperatures g = Some vth /\ dget rotation_temperatures g = None /\ Forall2 (within 0.05) vth vib.
Proof.
  intro H. unfold spectroscopy_vibrations in H. cbn [In] in H.
  repeat (destruct H as [H|H]; [injection H as <- <-; eexists; split; [reflexivity|]; split; [reflexivity|near]|]).
  destruct H.
Qed.

Lemma lone_rotations g sigma rot : In (g, sigma, rot) spectroscopy_rotations -> exists rth,
  dget rotation_temperatures g = Some (sigma, rth) /\ dget vibration_temperatures g = None /\ Forall2 (within 0.04) rth rot.
Proof.
  intro H. unfold spectroscopy_rotations in H. cbn [In] in H.
  repeat (destruct H as [H|H]; [injection H as <- <- <-; eexists; split; [reflexivity|]; split; [reflexivity|near]|]).
  destruct H.
Qed.

Lemma cs2_off : exists th, dget rotation_temperatures (L "CS2_g") = Some (2, [th]) /\ dget vibration_temperatures (L "CS2_g") = None /\
  ~ within 0.5 th cs2_rotation.
Proof.
  eexists. split; [reflexivity|]. split; [reflexivity|]. unfold within, cs2_rotation, Rabs. destruct (Rcase_abs _); lra.
Qed.

Lemma so2_off : exists rth, dget rotation_temperatures (L "SO2_g") = Some (2, rth) /\
  dget vibration_temperatures (L "SO2_g") = None /\ Forall2 (within 0.13) rth so2_rotation /\
  Forall2 (fun a b => ~ within 0.1 a b) rth so2_rotation.
Proof.
  eexists. split; [reflexivity|]. split; [reflexivity|]. split; [near|].
  repeat (constructor; [unfold within, Rabs; destruct (Rcase_abs _); lra|]). constructor.
Qed.
