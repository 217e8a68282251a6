(** Lemmas: the Shomate correction falls with temperature along every row, and is negative (C101). *)
From Coq Require Import String Ascii List ZArith Bool Reals Lra Lia.
Import ListNotations.
From Verif Require Import PyBase PyBaseFacts Rxn_Model Rxn_Spec PyReal Energy_Model Energy_Spec
  Thermo_Model Rate_Spec RDeriv Thermo_Spec Thermo_Proofs Thermo_Entropy Thermo_Witness Thermo_More Thermo_Jump.
Open Scope list_scope.
Open Scope R_scope.

(** ** Bounds of logarithms and powers *)
Lemma ln_le_minus t : 0 < t -> ln t <= t - 1.
Proof. intro H. pose proof (exp_ineq1_le (ln t)) as E. rewrite exp_ln in E by auto. lra. Qed.

Lemma ln_root n e x : 0 < x -> 0 < 1 + e -> 1 <= x * (1 + e) ^ n -> - (INR n * e) <= ln x.
Proof.
  intros Hx He H. assert (P : 0 < (1 + e) ^ n) by now apply pow_lt.
  assert (Q : ln ((1 + e) ^ n) <= INR n * e).
  { clear H P. induction n as [|n IH]; [cbn; rewrite ln_1; lra|].
    rewrite S_INR. cbn [pow]. rewrite ln_mult by (auto; now apply pow_lt).
    pose proof (ln_le_minus (1 + e) He). lra. }
  assert (0 <= ln (x * (1 + e) ^ n)).
  { rewrite <- ln_1. destruct (Req_dec 1 (x * (1 + e) ^ n)) as [<-|N]; [lra|]. left. apply ln_increasing; lra. }
  rewrite ln_mult in H0 by auto. lra.
Qed.

Lemma ln_mono a b : 0 < a -> a <= b -> ln a <= ln b.
Proof. intros H [L|<-]; [left; now apply ln_increasing|lra]. Qed.

Lemma ln_01 : -2.5 <= ln 0.1.
Proof. pose proof (ln_root 25 0.1 0.1) as H. cbn [INR] in H. lra. Qed.
Lemma ln_0273 : -1.4 <= ln 0.273.
Proof. pose proof (ln_root 14 0.1 0.273) as H. cbn [INR] in H. lra. Qed.
Lemma ln_0298 : -1.25 <= ln 0.298.
Proof. pose proof (ln_root 25 0.05 0.298) as H. cbn [INR] in H. lra. Qed.
Lemma ln_05 : -0.72 <= ln 0.5.
Proof. pose proof (ln_root 36 0.02 0.5) as H. cbn [INR] in H. lra. Qed.
Lemma ln_07 : -0.4 <= ln 0.7.
Proof. pose proof (ln_root 20 0.02 0.7) as H. cbn [INR] in H. lra. Qed.
Lemma ln_ge1 x : 1 <= x -> 0 <= ln x.
Proof. intro H. rewrite <- ln_1. apply ln_mono; lra. Qed.

Lemma box lo hi t : 0 < lo -> lo <= t <= hi ->
  lo ^ 2 <= t ^ 2 <= hi ^ 2 /\ lo ^ 3 <= t ^ 3 <= hi ^ 3 /\ / hi ^ 2 <= / t ^ 2 <= / lo ^ 2.
Proof.
  intros H [H1 H2]. assert (lo ^ 2 <= t ^ 2) by (apply pow_incr; lra).
  assert (t ^ 2 <= hi ^ 2) by (apply pow_incr; lra).
  assert (0 < lo ^ 2) by (apply pow_lt; lra).
  split; [auto|]. split; [split; apply pow_incr; lra|].
  split; apply Rinv_le_contravar; lra.
Qed.

(** Chords and tangents of the square, the cube and the inverse square. *)
Lemma band a b t : 0 < a -> a < b -> a <= t <= b ->
  ((a + b) * t - ((a + b) / 2) ^ 2 <= t ^ 2 <= (a + b) * t - a * b) /\
  (((a + b) / 2) ^ 3 + 3 * ((a + b) / 2) ^ 2 * (t - (a + b) / 2) <= t ^ 3
     <= a ^ 3 + (t - a) * (a ^ 2 + a * b + b ^ 2)) /\
  (/ ((a + b) / 2) ^ 2 - 2 * (t - (a + b) / 2) * / ((a + b) / 2) ^ 3 <= / t ^ 2
     <= / a ^ 2 - (t - a) * ((a + b) * / (a ^ 2 * b ^ 2))).
Proof.
  intros Ha Hab Ht. set (m := (a + b) / 2). assert (Hm : 0 < m) by (unfold m; lra).
  assert (E : a + b = 2 * m) by (unfold m; lra).
  split; [|split].
  - rewrite E. split; [pose proof (pow2_ge_0 (t - m)); nra|]. replace (2 * m) with (a + b) by auto.
    assert (0 <= (t - a) * (b - t)) by (apply Rmult_le_pos; lra). nra.
  - split.
    + assert (0 <= (t - m) ^ 2 * (t + 2 * m)) by (apply Rmult_le_pos; [apply pow2_ge_0|lra]). nra.
    + assert (0 <= (t - a) * ((b - t) * (a + b + t))) by (apply Rmult_le_pos; [|apply Rmult_le_pos]; lra). nra.
  - assert (T : 0 < t ^ 2) by (apply pow_lt; lra). split.
    + assert (K : / t ^ 2 - (/ m ^ 2 - 2 * (t - m) * / m ^ 3) = (t - m) ^ 2 * (m + 2 * t) * / (t ^ 2 * m ^ 3)).
      { field. split; lra. }
      assert (0 <= (t - m) ^ 2 * (m + 2 * t) * / (t ^ 2 * m ^ 3)); [|lra].
      apply Rmult_le_pos; [apply Rmult_le_pos; [apply pow2_ge_0|lra]|].
      left. apply Rinv_0_lt_compat. apply Rmult_lt_0_compat; auto. apply pow_lt; auto.
    + assert (K : / a ^ 2 - (t - a) * ((a + b) * / (a ^ 2 * b ^ 2)) - / t ^ 2
                  = (t - a) * (b - t) * (a * b + a * t + b * t) * / (a ^ 2 * b ^ 2 * t ^ 2)).
      { field. repeat split; lra. }
      assert (0 <= (t - a) * (b - t) * (a * b + a * t + b * t) * / (a ^ 2 * b ^ 2 * t ^ 2)); [|lra].
      apply Rmult_le_pos; [apply Rmult_le_pos; [apply Rmult_le_pos; lra|]|].
      * assert (0 < a * b) by (apply Rmult_lt_0_compat; lra). assert (0 < a * t) by (apply Rmult_lt_0_compat; lra).
        assert (0 < b * t) by (apply Rmult_lt_0_compat; lra). lra.
      * left. apply Rinv_0_lt_compat. repeat apply Rmult_lt_0_compat; lra.
Qed.

(** ** The rows of the table *)
Lemma entropy_poly r T : T <> 0 -> shomate_entropy r T
  = sh_A r * ln (T / 1000) + sh_B r * (T / 1000) + sh_C r * (T / 1000) ^ 2 / 2 + sh_D r * (T / 1000) ^ 3 / 3
    - sh_E r * / (T / 1000) ^ 2 / 2 + sh_G r.
Proof. intro H. unfold shomate_entropy. cbv zeta. field. lra. Qed.
Lemma capacity_poly r T : T <> 0 -> shomate_heat_capacity r T
  = sh_A r + sh_B r * (T / 1000) + sh_C r * (T / 1000) ^ 2 + sh_D r * (T / 1000) ^ 3 + sh_E r * / (T / 1000) ^ 2.
Proof. intro H. unfold shomate_heat_capacity. cbv zeta. field. lra. Qed.

Lemma ln_low lo c t : c <= ln lo -> 0 < lo -> lo <= t -> c <= ln t <= t - 1.
Proof. intros H H0 H1. split; [|apply ln_le_minus; lra]. pose proof (ln_mono lo t H0 H1). lra. Qed.

Ltac ln_base :=
  first [exact ln_01|exact ln_0273|exact ln_0298|exact ln_05|exact ln_07|apply ln_ge1; lra].

Ltac entropy_row lo hi :=
  match goal with H : _ <= ?T <= _ |- _ =>
    rewrite entropy_poly by lra; cbn [sh_A sh_B sh_C sh_D sh_E sh_G];
    assert (BB : lo <= T / 1000 <= hi) by lra;
    let N := fresh in
    assert (N := ln_low lo _ (T / 1000) ltac:(ln_base) ltac:(lra) (proj1 BB));
    destruct (box lo hi (T / 1000) ltac:(lra) BB) as (X1 & X2 & X3);
    set (t := T / 1000) in *; clearbody t; set (l := ln t) in *; clearbody l;
    set (u := / t ^ 2) in *; clearbody u; set (t3 := t ^ 3) in *; clearbody t3;
    set (t2 := t ^ 2) in *; clearbody t2; lra
  end.

Lemma row_entropy r T : In r shomate_params -> sh_min r <= T <= sh_max r -> 97 <= shomate_entropy r T.
Proof.
  intros H B. unfold shomate_params in H. cbn [In] in H.
  repeat (destruct H as [<-|H]; [cbn [sh_min sh_max] in B;
    match type of B with ?a <= _ <= ?b =>
      first [entropy_row (a / 1000) (b / 1000)
            |entropy_row 0.1 (b / 1000)|entropy_row 0.273 (b / 1000)|entropy_row 0.298 (b / 1000)
            |entropy_row 0.5 (b / 1000)|entropy_row 0.7 (b / 1000)]
    end|]). destruct H.
Qed.

Ltac capacity_piece t a b :=
  let X1 := fresh in let X2 := fresh in let X3 := fresh in
  destruct (band a b t ltac:(lra) ltac:(lra) ltac:(lra)) as (X1 & X2 & X3);
  set (u := / t ^ 2) in *; clearbody u; set (t3 := t ^ 3) in *; clearbody t3;
  set (t2 := t ^ 2) in *; clearbody t2; lra.
Ltac capacity_pieces n t a b :=
  lazymatch n with
  | O => capacity_piece t a b
  | S ?k => destruct (Rle_dec t ((a + b) / 2)); [capacity_pieces k t a ((a + b) / 2)|capacity_pieces k t ((a + b) / 2) b]
  end.

Lemma row_capacity r T : In r shomate_params -> sh_min r <= T <= sh_max r ->
  monatomic_heat_capacity <= shomate_heat_capacity r T.
Proof.
  intros H B. unfold monatomic_heat_capacity. unfold shomate_params in H. cbn [In] in H.
  repeat (destruct H as [<-|H]; [cbn [sh_min sh_max] in B; rewrite capacity_poly by lra;
    cbn [sh_A sh_B sh_C sh_D sh_E];
    match type of B with ?a <= _ <= ?b =>
      assert (BB : a / 1000 <= T / 1000 <= b / 1000) by lra;
      set (t := T / 1000) in *; clearbody t;
      first [capacity_pieces 0%nat t (a / 1000) (b / 1000)|capacity_pieces 1%nat t (a / 1000) (b / 1000)
            |capacity_pieces 2%nat t (a / 1000) (b / 1000)|capacity_pieces 3%nat t (a / 1000) (b / 1000)]
    end|]). destruct H.
Qed.

(** ** The value at the lower end of a row, and below *)
Ltac at_start :=
  match goal with |- context [ln ?x] =>
    let N := fresh in
    first [ assert (N : -2.5 <= ln x) by (replace x with 0.1 by lra; exact ln_01)
          | assert (N : -1.4 <= ln x) by (replace x with 0.273 by lra; exact ln_0273)
          | assert (N : -1.25 <= ln x) by (replace x with 0.298 by lra; exact ln_0298)
          | assert (N : -0.72 <= ln x) by (replace x with 0.5 by lra; exact ln_05)
          | assert (N : -0.4 <= ln x) by (replace x with 0.7 by lra; exact ln_07)
          | assert (N : 0 <= ln x) by (apply ln_ge1; lra) ];
    let M := fresh in assert (M := ln_le_minus x ltac:(lra));
    set (l := ln x) in *; clearbody l
  end.

Lemma row_start r : In r shomate_params -> shomate_free_energy r (sh_min r) <= - 0.001 * sh_min r.
Proof.
  intro H. unfold shomate_params in H. cbn [In] in H.
  repeat (destruct H as [<-|H]; [unfold shomate_free_energy, shomate_heat_capacity, shomate_enthalpy, shomate_entropy;
    cbn [sh_min sh_A sh_B sh_C sh_D sh_E sh_F sh_G sh_H]; cbv zeta; at_start; lra|]). destruct H.
Qed.

Lemma row_below r : In r shomate_params -> shomate_heat_capacity r (sh_min r) - shomate_entropy r (sh_min r) <= -96.5.
Proof.
  intro H. unfold shomate_params in H. cbn [In] in H.
  repeat (destruct H as [<-|H]; [unfold shomate_heat_capacity, shomate_entropy;
    cbn [sh_min sh_A sh_B sh_C sh_D sh_E sh_F sh_G sh_H]; cbv zeta; at_start; lra|]). destruct H.
Qed.

(** ** Along a row *)
Lemma free_energy_derivative r T : 0 < T ->
  derivable_pt_lim (shomate_free_energy r) T (- (0.01036427 / 1000 * shomate_entropy r T)).
Proof.
  intro H. eapply (derivable_pt_lim_locally_ext (row_value r) _ T 0 (T + 1)); [lra| |].
  - intros z Hz. unfold row_value, shomate_free_energy. rewrite T_ref_value.
    rewrite <- !shomate_H_spec, <- shomate_S_spec, <- shomate_Cp_spec by lra. unfold kJmol2eV. field.
  - eapply d_eq; [|apply deriv_row; lra]. rewrite shomate_S_spec by lra. unfold kJmol2eV. lra.
Qed.

Lemma row_positive r : In r shomate_params -> 0 < sh_min r <= sh_max r.
Proof. intro H. now destruct (shomate_rows_listed r H) as (_ & _ & _ & M). Qed.

Lemma row_fall r T1 T2 : In r shomate_params -> sh_min r <= T1 -> T1 <= T2 -> T2 <= sh_max r ->
  shomate_free_energy r T2 <= shomate_free_energy r T1 - 0.001 * (T2 - T1).
Proof.
  intros H L1 [L2|<-] L3; [|lra]. pose proof (row_positive r H) as P.
  destruct (MVT_cor2 (shomate_free_energy r) (fun T => - (0.01036427 / 1000 * shomate_entropy r T)) T1 T2 L2)
    as (c & E & Hc); [intros c Hc; apply free_energy_derivative; lra|].
  pose proof (row_entropy r c H ltac:(lra)) as N. cbv beta in E. nra.
Qed.

Lemma row_heat r T1 T2 : In r shomate_params -> sh_min r <= T1 -> T1 < T2 -> T2 <= sh_max r ->
  shomate_enthalpy r T1 < shomate_enthalpy r T2 /\ shomate_entropy r T1 < shomate_entropy r T2.
Proof.
  intros H L1 L2 L3. pose proof (row_positive r H) as P. split.
  - destruct (MVT_cor2 (shomate_enthalpy r) (fun T => shomate_heat_capacity r T / 1000) T1 T2 L2)
      as (c & E & Hc); [intros c Hc; apply derivative_enthalpy_spec; lra|].
    pose proof (row_capacity r c H ltac:(lra)) as N. unfold monatomic_heat_capacity in N. cbv beta in E. nra.
  - destruct (MVT_cor2 (shomate_entropy r) (fun T => shomate_heat_capacity r T / T) T1 T2 L2)
      as (c & E & Hc); [intros c Hc; apply derivative_enthalpy_spec; lra|].
    pose proof (row_capacity r c H ltac:(lra)) as N. unfold monatomic_heat_capacity in N. cbv beta in E.
    assert (0 < shomate_heat_capacity r c / c * (T2 - T1)); [|lra].
    apply Rmult_lt_0_compat; [|lra]. apply Rdiv_lt_0_compat; lra.
Qed.

Lemma row_for_in s T r : row_for shomate_params s T r -> In r shomate_params.
Proof. intros (b & a & E & _). rewrite E. apply in_or_app. right. now left. Qed.

Lemma correction_falls s f r T1 T2 : parse_formula s = Ok f -> f_site f = L "g" ->
  row_for shomate_params s T1 r -> row_for shomate_params s T2 r -> 0 < T1 < T2 ->
  (sh_min r <= T1 /\ T2 <= sh_max r) \/ T2 < sh_min r < 300 ->
  exists c1 c2, shomate_correction shomate_params T1 s = Ok c1 /\ shomate_correction shomate_params T2 s = Ok c2 /\
    c2 <= c1 - 0.001 * (T2 - T1).
Proof.
  intros P G F1 F2 HT [[A B]|B]; pose proof (row_for_in _ _ _ F1) as H.
  - exists (shomate_free_energy r T1), (shomate_free_energy r T2).
    split; [apply (shomate_inside _ s f r T1); auto; lra|].
    split; [apply (shomate_inside _ s f r T2); auto; lra|]. apply row_fall; auto; lra.
  - pose proof (row_positive r H) as Pr. do 2 eexists.
    split; [apply (shomate_below _ s f r T1); auto; lra|].
    split; [apply (shomate_below _ s f r T2); auto; lra|].
    pose proof (row_below r H) as K. unfold kJmol2eV.
    set (x := shomate_heat_capacity r (sh_min r) - shomate_entropy r (sh_min r)) in *. clearbody x. nra.
Qed.

Lemma gases_parse s hi : In (s, hi) shomate_gases -> exists f, parse_formula s = Ok f /\ f_site f = L "g".
Proof.
  intro H. unfold shomate_gases in H. cbn [In] in H.
  repeat (destruct H as [H|H]; [injection H as <- _; eexists; split; [vm_compute; reflexivity|reflexivity]|]).
  destruct H.
Qed.

Lemma correction_low s hi T : In (s, hi) shomate_gases -> 0 < T <= hi ->
  exists c, shomate_correction shomate_params T s = Ok c /\ c <= - 0.001 * T.
Proof.
  intros I HT. destruct (gases_parse s hi I) as (f & P & G).
  destruct (proj1 (shomate_gases_corrected s f T P G) (ex_intro _ hi (conj I (proj2 HT)))) as (r & F & [B|B]);
    pose proof (row_for_in _ _ _ F) as H; pose proof (row_positive r H) as Pr.
  - exists (shomate_free_energy r T). split; [apply (shomate_inside _ s f r T); auto; lra|].
    pose proof (row_fall r (sh_min r) T H ltac:(lra) ltac:(lra) ltac:(lra)). pose proof (row_start r H). lra.
  - eexists. split; [apply (shomate_below _ s f r T); auto; lra|].
    pose proof (row_below r H) as K. unfold kJmol2eV.
    set (x := shomate_heat_capacity r (sh_min r) - shomate_entropy r (sh_min r)) in *. clearbody x. nra.
Qed.

(** ** Oxygen at 2000 K *)
Lemma oxygen_row1 : row_for shomate_params (L "O2_g") 2000 (nth 13 shomate_params default_row).
Proof.
  exists (firstn 13 shomate_params), (skipn 14 shomate_params). split; [reflexivity|]. split; [reflexivity|].
  cbn [firstn shomate_params]. do 12 (apply Forall_cons; [left; discriminate|]).
  apply Forall_cons; [|constructor]. right. left. cbn [sh_min sh_max]. lra.
Qed.
Lemma oxygen_row2 u : 2000 < u < 6000 -> row_for shomate_params (L "O2_g") u (nth 14 shomate_params default_row).
Proof.
  intro H. exists (firstn 14 shomate_params), (skipn 15 shomate_params). split; [reflexivity|]. split; [reflexivity|].
  cbn [firstn shomate_params]. do 12 (apply Forall_cons; [left; discriminate|]).
  do 2 (apply Forall_cons; [right; left; cbn [sh_min sh_max]; lra|]). constructor.
Qed.
Lemma ln_ge_minus x : 0 < x -> 1 - / x <= ln x.
Proof.
  intro H. pose proof (ln_le_minus (/ x) (Rinv_0_lt_compat x H)) as E. rewrite ln_Rinv in E by auto. lra.
Qed.
Lemma ln_2_low : 0.61 <= ln 2.
Proof.
  replace 2 with (5 / 4 * (4 / 3) * (6 / 5)) by lra. rewrite !ln_mult by lra.
  pose proof (ln_ge_minus (5 / 4) ltac:(lra)). pose proof (ln_ge_minus (4 / 3) ltac:(lra)).
  pose proof (ln_ge_minus (6 / 5) ltac:(lra)). lra.
Qed.
Lemma oxygen_rise :
  shomate_free_energy (nth 14 shomate_params default_row) 2000 - shomate_free_energy (nth 13 shomate_params default_row) 2000 > 0.505.
Proof.
  cbn [nth shomate_params]. unfold shomate_free_energy, shomate_heat_capacity, shomate_enthalpy, shomate_entropy.
  cbn [sh_A sh_B sh_C sh_D sh_E sh_F sh_G sh_H]. cbv zeta.
  replace (2000 / 1000) with 2 by lra. pose proof ln_2_low as B. set (x := ln 2) in *. clearbody x.
  replace (298.15 / 1000) with 0.29815 by lra. lra.
Qed.
Lemma oxygen_jump : exists v, shomate_correction shomate_params 2000 (L "O2_g") = Ok v /\
  exists d, 0 < d /\ forall u, 2000 < u < 2000 + d ->
    exists c, shomate_correction shomate_params u (L "O2_g") = Ok c /\ v + 0.5 < c.
Proof.
  destruct (gases_parse (L "O2_g") 6000) as (f & P & G); [do 5 right; left; reflexivity|].
  destruct (shomate_step shomate_params (L "O2_g") f (nth 13 shomate_params default_row) (nth 14 shomate_params default_row)
    2000 6000 P G ltac:(lra) oxygen_row1) as [E S].
  - cbn [nth shomate_params sh_min sh_max]. lra.
  - intros u Hu. split; [now apply oxygen_row2|]. cbn [nth shomate_params sh_min sh_max]. lra.
  - eexists. split; [exact E|]. destruct (S 0.005 ltac:(lra)) as (d & Hd & C). exists d. split; [exact Hd|].
    intros u Hu. destruct (C u Hu) as (c & Ec & Hc). exists c. split; [exact Ec|].
    apply Rabs_def2 in Hc. pose proof oxygen_rise. lra.
Qed.
Lemma oxygen_hotter : exists T1 T2 c1 c2, 298 < T1 < T2 /\ T2 <= 6000 /\
  shomate_correction shomate_params T1 (L "O2_g") = Ok c1 /\
  shomate_correction shomate_params T2 (L "O2_g") = Ok c2 /\ c1 + 0.5 < c2.
Proof.
  destruct oxygen_jump as (v & E & d & Hd & J).
  destruct (J (2000 + Rmin d 1 / 2)) as (c & Ec & Hc).
  { pose proof (Rmin_l d 1). pose proof (Rmin_glb_lt d 1 0 Hd Rlt_0_1). lra. }
  exists 2000, (2000 + Rmin d 1 / 2), v, c.
  pose proof (Rmin_r d 1). pose proof (Rmin_glb_lt d 1 0 Hd Rlt_0_1).
  split; [lra|]. split; [lra|]. auto.
Qed.
