(** Lemmas: the Shomate parameters against standard values and against each other (C103). *)
From Coq Require Import String Ascii List ZArith Bool Reals Lra Lia.
Import ListNotations.
From Verif Require Import PyBase PyBaseFacts Rxn_Model Rxn_Spec PyReal Energy_Model Energy_Spec
  Thermo_Model Rate_Spec Rate_Model Rate_Proofs RDeriv Thermo_Spec Thermo_Proofs Thermo_Entropy Thermo_Witness
  Thermo_More Thermo_Jump Thermo_Fall.
Open Scope list_scope.
Open Scope R_scope.

(** ** Logarithms *)
Lemma grows_from_1 (f f' : R -> R) : f 1 = 0 -> (forall x, 1 <= x -> derivable_pt_lim f x (f' x)) ->
  (forall x, 1 <= x -> 0 <= f' x) -> forall x, 1 <= x -> 0 <= f x.
Proof.
  intros Z D P x [H|<-]; [|lra].
  destruct (MVT_cor2 f f' 1 x H) as (c & E & Hc); [intros c Hc; apply D; lra|].
  rewrite Z in E. pose proof (P c ltac:(lra)). nra.
Qed.

Lemma ln_upper x : 1 <= x -> ln x <= (x - / x) / 2.
Proof.
  intro H. enough (0 <= / 2 * (x - / x) - ln x) by lra.
  apply (grows_from_1 (fun x => / 2 * (x - / x) - ln x) (fun x => / 2 * (1 - - / (x * x)) - / x)); auto.
  - rewrite ln_1, Rinv_1. lra.
  - intros y Hy. apply d_minus; [|apply d_ln; lra]. apply d_scal. apply d_minus; [apply d_id|apply d_inv; lra].
  - intros y Hy. pose proof (Rle_0_sqr (1 - / y)) as K. unfold Rsqr in K. rewrite Rinv_mult. lra.
Qed.

Lemma ln_lower x : 1 <= x -> 2 * (x - 1) / (x + 1) <= ln x.
Proof.
  intro H. replace (2 * (x - 1) / (x + 1)) with (2 - 4 * / (x + 1)) by (field; lra).
  enough (0 <= ln x - (2 - 4 * / (x + 1))) by lra.
  apply (grows_from_1 (fun x => ln x - (2 - 4 * / (x + 1))) (fun x => / x - (0 - 4 * (- / ((x + 1) * (x + 1)) * 1)))); auto.
  - rewrite ln_1. field.
  - intros y Hy. apply d_minus; [apply d_ln; lra|]. apply d_minus; [apply d_const|]. apply d_scal.
    apply (d_comp (fun u => u + 1) (fun u => / u)); [apply d_sum_const, d_id|apply d_inv; lra].
  - intros y Hy. replace (/ y - (0 - 4 * (- / ((y + 1) * (y + 1)) * 1))) with
      ((y - 1) ^ 2 * / (y * (y + 1) ^ 2)) by (field; lra).
    apply Rmult_le_pos; [apply pow2_ge_0|]. left. apply Rinv_0_lt_compat, Rmult_lt_0_compat; [lra|apply pow_lt; lra].
Qed.

Lemma ln_pow_of n y : 0 < y -> ln (y ^ n) = INR n * ln y.
Proof.
  intro H. induction n as [|n IH]; [cbn; rewrite ln_1; lra|]. rewrite S_INR. cbn [pow].
  rewrite ln_mult by (auto; now apply pow_lt). lra.
Qed.

Lemma ln_between n a b x : 1 <= a -> 1 <= b -> a ^ n <= x -> x <= b ^ n ->
  INR n * (2 * (a - 1) / (a + 1)) <= ln x <= INR n * ((b - / b) / 2).
Proof.
  intros Ha Hb L U. assert (0 < a ^ n) by (apply pow_lt; lra). pose proof (pos_INR n).
  split; [eapply Rle_trans; [|apply ln_mono; [|exact L]; auto]|eapply Rle_trans; [apply ln_mono; [|exact U]; lra|]];
    rewrite ln_pow_of by lra; apply Rmult_le_compat_l; auto; [now apply ln_lower|now apply ln_upper].
Qed.

Lemma lnb_12 : 0.18230 <= ln 1.2 <= 0.18234.
Proof. pose proof (ln_between 8 1.023051 1.023052 1.2) as H. cbn [INR] in H. lra. Qed.
Lemma lnb_13 : 0.26233 <= ln 1.3 <= 0.26242.
Proof. pose proof (ln_between 8 1.033339 1.03334 1.3) as H. cbn [INR] in H. lra. Qed.
Lemma lnb_17 : 0.53057 <= ln 1.7 <= 0.53074.
Proof. pose proof (ln_between 16 1.03372 1.033721 1.7) as H. cbn [INR] in H. lra. Qed.
Lemma lnb_2 : 0.69302 <= ln 2 <= 0.69337.
Proof. pose proof (ln_between 16 1.044273 1.044274 2) as H. cbn [INR] in H. lra. Qed.
Lemma lnb_25 : 0.91602 <= ln 2.5 <= 0.91680.
Proof. pose proof (ln_between 16 1.058939 1.05894 2.5) as H. cbn [INR] in H. lra. Qed.
Lemma lnb_05 : -0.69337 <= ln 0.5 <= -0.69302.
Proof.
  pose proof (ln_between 16 1.044273 1.044274 (/ 0.5)) as H. cbn [INR] in H. rewrite ln_Rinv in H by lra. lra.
Qed.
Lemma lnb_07 : -0.35680 <= ln 0.7 <= -0.35661.
Proof.
  pose proof (ln_between 8 1.045593 1.045594 (/ 0.7)) as H. cbn [INR] in H. rewrite ln_Rinv in H by lra. lra.
Qed.
Lemma lnb_029815 : -1.21046 <= ln 0.29815 <= -1.20999.
Proof.
  pose proof (ln_between 32 1.038541 1.038542 (/ 0.29815)) as H. cbn [INR] in H. rewrite ln_Rinv in H by lra. lra.
Qed.

Ltac bounds_ln :=
  match goal with |- context [ln ?x] =>
    let N := fresh in
    first [ assert (N : ln x = 0) by (replace x with 1 by lra; exact ln_1)
          | assert (N := lnb_12); replace 1.2 with x in N by lra
          | assert (N := lnb_13); replace 1.3 with x in N by lra
          | assert (N := lnb_17); replace 1.7 with x in N by lra
          | assert (N := lnb_2); replace 2 with x in N by lra
          | assert (N := lnb_25); replace 2.5 with x in N by lra
          | assert (N := lnb_05); replace 0.5 with x in N by lra
          | assert (N := lnb_07); replace 0.7 with x in N by lra
          | assert (N := lnb_029815); replace 0.29815 with x in N by lra ];
    set (l := ln x) in *; clearbody l
  end.

(** ** Standard values *)
Lemma standard_row gas s c r : In (gas, s, c) standard_gases -> In r shomate_params -> sh_gas r = gas ->
  sh_min r <= 298.15 <= sh_max r ->
  Rabs (shomate_entropy r 298.15 - s) <= 1 /\ Rabs (shomate_heat_capacity r 298.15 - c) <= 1.
Proof.
  intros G H E B. unfold shomate_params in H. cbn [In] in H.
  repeat (destruct H as [<-|H]; [cbn [sh_gas sh_min sh_max] in E, B; subst gas;
    repeat (destruct G as [G|G]; [first [discriminate G|injection G as <- <-;
      first [exfalso; lra|unfold shomate_heat_capacity, shomate_entropy;
        cbn [sh_min sh_A sh_B sh_C sh_D sh_E sh_F sh_G sh_H]; cbv zeta; bounds_ln; split; apply Rabs_le; lra]]|]);
    destruct G|]). destruct H.
Qed.

(** ** Rows that meet *)
Definition meets (r1 r2 : shomate_row) : Prop :=
  Rabs (shomate_heat_capacity r2 (sh_min r2) - shomate_heat_capacity r1 (sh_min r2)) <= 0.2 /\
  Rabs (shomate_entropy r2 (sh_min r2) - shomate_entropy r1 (sh_min r2)) <= 0.05 /\
  Rabs (shomate_enthalpy r2 (sh_min r2) - shomate_enthalpy r1 (sh_min r2)) <= 0.05.

Lemma rows_meet r1 r2 : In r1 shomate_params -> In r2 shomate_params -> sh_gas r1 = sh_gas r2 ->
  sh_max r1 = sh_min r2 -> meets r1 r2.
Proof.
  intros H1 H2 G E.
  assert (F : In r2 (filter (fun r => str_eqb (sh_gas r) (sh_gas r1)) shomate_params)).
  { apply filter_In. split; [exact H2|]. rewrite G. apply str_eqb_refl. }
  clear H2 G. unfold shomate_params in H1. cbn [In] in H1.
  repeat (destruct H1 as [<-|H1]; [
    cbv -[IZR Rplus Rmult Rminus Rdiv Rinv Ropp In] in F; cbn [In] in F;
    repeat (destruct F as [<-|F]; [first [exfalso; cbn [sh_max sh_min] in E; lra|
      unfold meets, shomate_heat_capacity, shomate_entropy, shomate_enthalpy;
      cbn [sh_min sh_A sh_B sh_C sh_D sh_E sh_F sh_G sh_H]; cbv zeta; bounds_ln; repeat split; apply Rabs_le; lra]|]);
    destruct F|]).
  destruct H1.
Qed.

(** Enthalpies are counted from 298.15 K. *)
Lemma zero_row r : In r shomate_params -> sh_min r <= 298.15 <= sh_max r ->
  sh_gas r <> L "CH3OH_g" -> sh_gas r <> L "HCOOH_g" -> sh_gas r <> L "CH3CH2OH_g" ->
  Rabs (shomate_enthalpy r 298.15) <= 0.05.
Proof.
  intros H B N1 N2 N3. unfold shomate_params in H. cbn [In] in H.
  repeat (destruct H as [<-|H]; [cbn [sh_gas sh_min sh_max] in B, N1, N2, N3;
    first [congruence|exfalso; lra|unfold shomate_enthalpy; cbn [sh_min sh_A sh_B sh_C sh_D sh_E sh_F sh_G sh_H]; cbv zeta;
      apply Rabs_le; lra]|]).
  destruct H.
Qed.

(** With one reference enthalpy the rows join. *)
Lemma join_from r0 r1 r2 : In r1 shomate_params -> In r2 shomate_params -> sh_gas r1 = sh_gas r2 ->
  sh_max r1 = sh_min r2 ->
  Rabs (free_energy_from r0 r2 (sh_min r2) - free_energy_from r0 r1 (sh_min r2)) <= 0.002.
Proof.
  intros H1 H2 G E. destruct (rows_meet r1 r2 H1 H2 G E) as (_ & A & B).
  assert (T : 0 < sh_min r2 <= 2500).
  { clear - H2. unfold shomate_params in H2. cbn [In] in H2.
    repeat (destruct H2 as [<-|H2]; [cbn [sh_min]; lra|]). destruct H2. }
  unfold free_energy_from.
  assert (AI : forall x y, Rabs x <= y -> - y <= x <= y).
  { intros x y K. unfold Rabs in K. destruct (Rcase_abs x); lra. }
  apply AI in A, B. apply Rabs_le.
  set (T0 := sh_min r2) in *.
  set (s1 := shomate_entropy r1 T0) in *. set (s2 := shomate_entropy r2 T0) in *.
  set (h1 := shomate_enthalpy r1 T0) in *. set (h2 := shomate_enthalpy r2 T0) in *.
  set (c := 298.15 * shomate_heat_capacity r0 298.15 / 1000) in *.
  set (h0 := shomate_enthalpy r0 298.15) in *. clearbody T0 s1 s2 h1 h2 c h0.
  assert (-125 <= T0 * (s2 - s1) <= 125) by nra.
  lra.
Qed.

(** Ethanol. *)
Lemma ethanol_off : exists r, In r shomate_params /\ sh_gas r = L "CH3CH2OH_g" /\ sh_min r <= 298.15 <= sh_max r /\
  shomate_entropy r 298.15 < 266.5 /\ 77 < shomate_heat_capacity r 298.15 /\ 4 < shomate_enthalpy r 298.15 /\
  155 < shomate_heat_capacity r 1000.
Proof.
  exists (nth 29 shomate_params default_row). split; [apply nth_In; cbn; lia|].
  split; [reflexivity|]. cbn [nth shomate_params]. 
  split; [cbn [sh_min sh_max]; lra|].
  unfold shomate_heat_capacity, shomate_entropy, shomate_enthalpy;
      cbn [sh_min sh_A sh_B sh_C sh_D sh_E sh_F sh_G sh_H]; cbv zeta; bounds_ln; repeat split; lra.
Qed.

Lemma step_cause r1 r2 : In r1 shomate_params -> In r2 shomate_params -> sh_gas r1 = sh_gas r2 ->
  sh_max r1 = sh_min r2 ->
  Rabs ((shomate_free_energy r2 (sh_min r2) - shomate_free_energy r1 (sh_min r2))
        - 0.01036427 * ((298.15 * shomate_heat_capacity r2 298.15 / 1000 - shomate_enthalpy r2 298.15)
                        - (298.15 * shomate_heat_capacity r1 298.15 / 1000 - shomate_enthalpy r1 298.15))) <= 0.002.
Proof.
  intros H1 H2 G E. pose proof (join_from r1 r1 r2 H1 H2 G E) as J.
  eapply Rle_trans; [|exact J]. right. f_equal. unfold shomate_free_energy, free_energy_from. ring.
Qed.
