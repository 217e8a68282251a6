(** Lemmas: the correction by partition functions falls with temperature (C102). *)
From Coq Require Import String Ascii List ZArith Bool Reals Lra Lia.
Import ListNotations.
From Verif Require Import PyBase PyBaseFacts Rxn_Model Rxn_Spec PyReal Energy_Model Energy_Spec
  Thermo_Model Rate_Spec Rate_Model Rate_Proofs RDeriv Thermo_Spec Thermo_Proofs Thermo_Entropy Thermo_Witness
  Thermo_More Thermo_Jump Thermo_Fall.
Open Scope list_scope.
Open Scope R_scope.

Lemma mass_law rot vib name f sigma rth vth qr m1 m2 p T :
  parse_formula name = Ok f -> f_site f = L "g" ->
  dget rot (f_species_site f) = Some (sigma, rth) -> dget vib (f_species_site f) = Some vth ->
  0 < sigma -> 0 < T -> 0 < m1 -> 0 < m2 -> 0 < p -> q_rot sigma rth T qr ->
  vth <> [] -> Forall (fun th => 0 < th) vth ->
  exists g1 g2, entropy_correction_full rot vib name m1 p T = Ok g1 /\
    entropy_correction_full rot vib name m2 p T = Ok g2 /\ g1 - g2 = 3 / 2 * kT T * ln (m2 / m1).
Proof.
  intros P G Dr Dv Hs HT H1 H2 Hp Q N F. do 2 eexists.
  split; [eapply entropy_value; eauto|]. split; [eapply entropy_value; eauto|].
  rewrite !ln_q_trans, (ln_quot m2 m1) by auto.
  assert (E : forall m, 0 < m -> ln (2 * PI * m * kB_J * T / (h_J * h_J))
                                 = ln m + ln (2 * PI * 1 * kB_J * T / (h_J * h_J))).
  { intros m Hm. rewrite <- ln_mult; auto; [|apply trans_base_pos; lra]. f_equal. field.
    pose proof h_J_pos. lra. }
  rewrite (E m1), (E m2) by auto. field.
Qed.

(** ** Every factor grows *)
Lemma trans_factor m : 0 < m -> 0 < 2 * PI * m * kB_J.
Proof.
  intro H. apply Rmult_lt_0_compat; [|exact kB_J_pos]. apply Rmult_lt_0_compat; [|exact H].
  pose proof PI_RGT_0. lra.
Qed.
Lemma h_square : 0 < h_J * h_J.
Proof. apply Rmult_lt_0_compat; exact h_J_pos. Qed.

Lemma quot_falls th T1 T2 : 0 < th -> 0 < T1 < T2 -> 0 < th / T2 < th / T1.
Proof.
  intros H [H1 H2]. split; [apply Rdiv_lt_0_compat; lra|]. unfold Rdiv. apply Rmult_lt_compat_l; auto.
  apply Rinv_lt_contravar; auto. apply Rmult_lt_0_compat; lra.
Qed.

Lemma trans_grows m p T1 T2 : 0 < m -> 0 < p -> 0 < T1 < T2 -> ln (q_trans m p T1) < ln (q_trans m p T2).
Proof.
  intros Hm Hp [H1 H2]. rewrite !ln_q_trans by lra. pose proof kB_J_pos as K. pose proof h_J_pos as J.
  assert (A : ln (kB_J * T1) < ln (kB_J * T2)).
  { apply ln_increasing; [apply Rmult_lt_0_compat; lra|]. apply Rmult_lt_compat_l; lra. }
  assert (B : ln (2 * PI * m * kB_J * T1 / (h_J * h_J)) < ln (2 * PI * m * kB_J * T2 / (h_J * h_J))).
  { apply ln_increasing; [apply trans_base_pos; lra|]. pose proof PI_RGT_0.
    unfold Rdiv. apply Rmult_lt_compat_r; [apply Rinv_0_lt_compat, h_square|].
    apply Rmult_lt_compat_l; [now apply trans_factor|lra]. }
  lra.
Qed.

Lemma rot_grows sigma rth T1 T2 q1 q2 : 0 < sigma -> 0 < T1 < T2 -> same_rotor rth T1 T2 ->
  q_rot sigma rth T1 q1 -> q_rot sigma rth T2 q2 -> ln q1 <= ln q2.
Proof.
  intros Hs HT S1 Q1 Q2.
  pose proof (proj2 (rot_partition_ok _ _ _ _ Hs (proj1 HT) Q1)) as P1.
  apply ln_mono; [exact P1|].
  destruct Q1 as [(th & E & Hth & R1 & ->)|(a & b & c & E & (Ha & Hb & Hc) & ->)], Q2 as
    [(th' & E' & _ & R2 & ->)|(a' & b' & c' & E' & _ & ->)]; try congruence.
  - rewrite E in E'. injection E' as <-. specialize (S1 th E). unfold q_linear.
    destruct (quot_falls th T1 T2 Hth HT) as [X2 X1].
    assert (ST : 0 < sigma * th) by (apply Rmult_lt_0_compat; auto).
    destruct (Rle_dec (th / T1) 0.01), (Rle_dec (th / T2) 0.01); try tauto.
    + unfold Rdiv. apply Rmult_le_compat_r; [left; now apply Rinv_0_lt_compat|lra].
    + assert (K : forall T, 0 < T -> T / (sigma * th) * (1 + th / T / 3 + th / T * (th / T) / 15)
                 = / (sigma * th) * (T + th / 3 + th * (th / T) / 15)).
      { intros T H. field. lra. }
      rewrite !K by lra. apply Rmult_le_compat_l; [left; now apply Rinv_0_lt_compat|].
      assert (th * (th / T1) - th * (th / T2) <= T2 - T1); [|lra].
      replace (th * (th / T1) - th * (th / T2)) with ((T2 - T1) * (th / T1 * (th / T2))) by (field; lra).
      rewrite <- (Rmult_1_r (T2 - T1)) at 2. apply Rmult_le_compat_l; [lra|].
      rewrite <- (Rmult_1_r 1). apply Rmult_le_compat; lra.
  - rewrite E in E'. injection E' as <- <- <-. unfold q_nonlinear. unfold Rdiv at 1 5.
    apply Rmult_le_compat_r; [left; now apply Rinv_0_lt_compat|]. apply sqrt_le_1_alt.
    assert (HP : 0 < PI) by exact PI_RGT_0.
    assert (M : forall x, 0 < x -> 0 < T1 / x <= T2 / x).
    { intros x Hx. split; [apply Rdiv_lt_0_compat; lra|]. unfold Rdiv. apply Rmult_le_compat_r; [|lra].
      left. now apply Rinv_0_lt_compat. }
    destruct (M a Ha), (M b Hb), (M c Hc).
    generalize dependent (T1 / a). generalize dependent (T1 / b). generalize dependent (T1 / c).
    generalize dependent (T2 / a). generalize dependent (T2 / b). generalize dependent (T2 / c). intros.
    generalize dependent PI. intros. repeat apply Rmult_le_compat; try lra; repeat apply Rmult_le_pos; lra.
Qed.

Lemma vib1_grows th T1 T2 : 0 < th -> 0 < T1 < T2 -> q_vib1 th T1 <= q_vib1 th T2.
Proof.
  intros H HT. destruct (quot_falls th T1 T2 H HT) as [X2 X1]. unfold q_vib1.
  apply Rinv_le_contravar; [pose proof (exp_neg_lt1 (th / T2) X2); lra|].
  assert (exp (- (th / T1)) < exp (- (th / T2))) by (apply exp_increasing; lra). lra.
Qed.

Lemma vib_grows vth T1 T2 : vth <> [] -> Forall (fun th => 0 < th) vth -> 0 < T1 < T2 ->
  ln (q_vib vth T1) <= ln (q_vib vth T2).
Proof.
  intros N F HT. pose proof (proj2 (vib_partition_ok vth T1 N F (proj1 HT))) as P1.
  apply ln_mono; [exact P1|]. clear P1.
  assert (K : forall l, Forall (fun th => 0 < th) l ->
    0 <= fold_right Rmult 1 (map (fun th => q_vib1 th T1) l) <= fold_right Rmult 1 (map (fun th => q_vib1 th T2) l)).
  { induction 1 as [|x l Hx Hl IH]; cbn [map fold_right]; [lra|].
    pose proof (q_vib1_pos x T1 Hx (proj1 HT)). pose proof (vib1_grows x T1 T2 Hx HT).
    split; [apply Rmult_le_pos; lra|apply Rmult_le_compat; lra]. }
  destruct vth as [|a [|b l]]; [congruence| |exact (proj2 (K _ F))].
  inversion F as [|? ? Ha _]; subst. cbn [q_vib].
  destruct (quot_falls a T1 T2 Ha HT) as [X2 X1]. pose proof (q_vib1_pos a T1 Ha (proj1 HT)).
  apply Rmult_le_compat; [left; apply exp_pos|lra| |now apply vib1_grows].
  left. apply exp_increasing. lra.
Qed.

Lemma warm_falls rot vib name f sigma rth vth q1 q2 m p T1 T2 g1 :
  parse_formula name = Ok f -> f_site f = L "g" ->
  dget rot (f_species_site f) = Some (sigma, rth) -> dget vib (f_species_site f) = Some vth ->
  0 < sigma -> 0 < T1 < T2 -> 0 < m -> 0 < p -> q_rot sigma rth T1 q1 -> q_rot sigma rth T2 q2 ->
  same_rotor rth T1 T2 -> vth <> [] -> Forall (fun th => 0 < th) vth ->
  entropy_correction_full rot vib name m p T1 = Ok g1 -> g1 <= 0 ->
  exists g2, entropy_correction_full rot vib name m p T2 = Ok g2 /\ g2 < g1.
Proof.
  intros P G Dr Dv Hs HT Hm Hp Q1 Q2 S N F E1 L1.
  rewrite (entropy_value rot vib name f sigma rth vth q1 m p T1) in E1 by (auto; lra). injection E1 as <-.
  eexists. split; [apply (entropy_value rot vib name f sigma rth vth q2 m p T2); auto; lra|].
  pose proof (trans_grows m p T1 T2 Hm Hp HT) as A1.
  pose proof (rot_grows _ _ _ _ _ _ Hs HT S Q1 Q2) as A2.
  pose proof (vib_grows vth T1 T2 N F HT) as A3.
  set (a := ln (q_trans m p T1) + ln q1 + ln (q_vib vth T1)) in *.
  assert (A : a < ln (q_trans m p T2) + ln q2 + ln (q_vib vth T2)) by (unfold a; lra). clear A1 A2 A3.
  set (b := ln (q_trans m p T2) + ln q2 + ln (q_vib vth T2)) in *. clearbody a b.
  unfold kT in *. pose proof kB_eV_pos as K.
  assert (0 < kB_eV * T1) by (apply Rmult_lt_0_compat; lra).
  assert (kB_eV * T1 < kB_eV * T2) by (apply Rmult_lt_compat_l; lra).
  assert (0 <= a) by nra. nra.
Qed.

(** The gases of the tables. *)
Lemma warm_tables n : In n entropy_gases -> n <> L "H2_g" -> n <> L "HCl_g" -> exists sigma rth vth,
  dget rotation_temperatures n = Some (sigma, rth) /\ dget vibration_temperatures n = Some vth /\ 0 < sigma /\
  vth <> [] /\ Forall (fun th => 0 < th) vth /\ (forall T, 300 <= T -> exists q, q_rot sigma rth T q) /\
  (forall th T, rth = [th] -> 300 <= T -> th / T <= 0.01).
Proof.
  intros H N1 N2.
  assert (LT : forall th T, th <= 3 -> 300 <= T -> th / T <= 0.01).
  { intros th T A B. apply (Rmult_le_reg_r T); [lra|]. unfold Rdiv. rewrite Rmult_assoc, Rinv_l by lra. lra. }
  repeat (destruct H as [<-|H]; [first [congruence|do 3 eexists; split; [reflexivity|]; split; [reflexivity|]; split; [lra|];
    split; [discriminate|]; split; [repeat constructor; lra|]; split;
    [intros T HT; first [apply linear_rot; lra|apply nonlinear_rot; lra]
    |intros th T E HT; first [discriminate E|injection E as <-; apply LT; lra]]]|]). destruct H.
Qed.

Lemma warm_gases name f m p T1 T2 g1 : parse_formula name = Ok f -> f_site f = L "g" ->
  In (f_species_site f) entropy_gases -> f_species_site f <> L "H2_g" -> f_species_site f <> L "HCl_g" ->
  0 < m -> 0 < p -> 300 <= T1 < T2 ->
  entropy_correction_full rotation_temperatures vibration_temperatures name m p T1 = Ok g1 -> g1 <= 0 ->
  exists g2, entropy_correction_full rotation_temperatures vibration_temperatures name m p T2 = Ok g2 /\ g2 < g1.
Proof.
  intros P G H N1 N2 Hm Hp HT E L1.
  destruct (warm_tables _ H N1 N2) as (sigma & rth & vth & D1 & D2 & Hs & V1 & V2 & Q & B).
  destruct (Q T1 ltac:(lra)) as [q1 Q1]. destruct (Q T2 ltac:(lra)) as [q2 Q2].
  apply (warm_falls _ _ name f sigma rth vth q1 q2 m p T1 T2 g1); auto; [lra|].
  intros th Eth. split; intros _; apply B; auto; lra.
Qed.

(** ** Carbon monoxide at 278 K: the formula changes *)
Lemma co_rot_278 : q_rot 1 [2.78] 278 (278 / (1 * 2.78)).
Proof.
  left. exists 2.78. split; [reflexivity|]. split; [lra|]. split; [lra|]. unfold q_linear.
  destruct (Rle_dec (2.78 / 278) 0.01) as [_|N]; [reflexivity|lra].
Qed.
Lemma co_rot_below : exists q, q_rot 1 [2.78] 277.999 q /\ 277.999 / (1 * 2.78) * 1.0033 <= q.
Proof.
  exists (277.999 / (1 * 2.78) * (1 + 2.78 / 277.999 / 3 + 2.78 / 277.999 * (2.78 / 277.999) / 15)).
  split.
  - left. exists 2.78. split; [reflexivity|]. split; [lra|]. split; [lra|]. unfold q_linear.
    destruct (Rle_dec (2.78 / 277.999) 0.01) as [L|_]; [lra|reflexivity].
  - apply Rmult_le_compat_l; lra.
Qed.

Lemma vib_278 : ln (q_vib [3120] 277.999) - ln (q_vib [3120] 278) >= - 0.001.
Proof.
  cbn [q_vib]. assert (A1 : 0 < 3120 / 277.999) by lra. assert (A2 : 0 < 3120 / 278) by lra.
  rewrite !ln_mult by (first [apply exp_pos|apply q_vib1_pos; lra]). rewrite !ln_exp. unfold q_vib1.
  set (x1 := 3120 / 277.999) in *. set (x2 := 3120 / 278) in *.
  assert (B1 : 0 < x1 - x2 < 0.0001) by (unfold x1, x2; lra).
  assert (B2 : 11 <= x2) by (unfold x2; lra). clearbody x1 x2.
  pose proof (exp_neg_lt1 x1 A1) as E1. pose proof (exp_neg_lt1 x2 A2) as E2.
  rewrite !ln_Rinv by lra.
  assert (C2 : exp (- x2) <= / 2).
  { rewrite exp_Ropp. apply Rinv_le_contravar; [lra|]. pose proof (exp_ineq1_le x2). lra. }
  assert (C1 : exp (- x2) - exp (- x1) <= 0.0001).
  { replace (- x1) with (- x2 + - (x1 - x2)) by ring. rewrite exp_plus.
    pose proof (exp_ineq1_le (- (x1 - x2))). pose proof (exp_pos (- x2)). nra. }
  pose proof (exp_pos (- x1)).
  assert (D : ln (1 - exp (- x1)) <= ln (1 - exp (- x2)) + 0.0002).
  { pose proof (ln_le_minus ((1 - exp (- x1)) / (1 - exp (- x2)))) as K.
    rewrite ln_quot in K by lra. 
    assert (M : (1 - exp (- x1)) / (1 - exp (- x2)) <= 1.0002).
    { apply (Rmult_le_reg_r (1 - exp (- x2))); [lra|]. unfold Rdiv. rewrite Rmult_assoc, Rinv_l by lra. lra. }
    specialize (K ltac:(apply Rdiv_lt_0_compat; lra)). lra. }
  lra.
Qed.

Lemma trans_278 m p : 0 < m -> 0 < p -> ln (q_trans m p 277.999) - ln (q_trans m p 278) >= - 0.0001.
Proof.
  intros Hm Hp. rewrite !ln_q_trans by lra. pose proof kB_J_pos as K. pose proof h_J_pos as J. pose proof PI_RGT_0 as HP.
  assert (E1 : forall T, 0 < T -> ln (kB_J * T) = ln kB_J + ln T) by (intros; rewrite ln_mult; auto).
  assert (E2 : forall T, 0 < T -> ln (2 * PI * m * kB_J * T / (h_J * h_J)) = ln (2 * PI * m * kB_J / (h_J * h_J)) + ln T).
  { intros T HT. rewrite <- ln_mult; auto; [f_equal; field; lra|].
    apply Rdiv_lt_0_compat; [now apply trans_factor|exact h_square]. }
  rewrite !E1, !E2 by lra.
  assert (ln 277.999 - ln 278 >= -0.00001).
  { rewrite <- ln_quot by lra. pose proof (ln_ge_minus (277.999 / 278) ltac:(lra)) as B.
    replace (/ (277.999 / 278)) with (278 / 277.999) in B by (field; lra). lra. }
  lra.
Qed.

Lemma co_warm_rises : exists m p T1 T2 g1 g2, 0 < m /\ 0 < p /\ 200 < T1 < T2 /\
  entropy_correction_full rotation_temperatures vibration_temperatures (L "CO_g") m p T1 = Ok g1 /\
  entropy_correction_full rotation_temperatures vibration_temperatures (L "CO_g") m p T2 = Ok g2 /\
  g1 < 0 /\ g1 < g2.
Proof.
  destruct co_formula as (f & P & G & S1 & _). destruct co_tables as [D1 D2].
  destruct co_rot_below as (q1 & Q1 & B1). pose proof co_rot_278 as Q2. set (q2 := 278 / (1 * 2.78)) in *.
  assert (Q2p : 0 < q2) by (unfold q2; lra).
  assert (Vp : 0 < q_vib [3120] 278).
  { refine (proj2 (vib_partition_ok [3120] 278 _ _ _)); [discriminate|repeat constructor; lra|lra]. }
  assert (Tp : 0 < q_trans 1 1 278) by (apply trans_partition_ok; lra).
  set (p := q_trans 1 1 278 * q2 * q_vib [3120] 278).
  assert (Hp : 0 < p) by (unfold p; apply Rmult_lt_0_compat; [now apply Rmult_lt_0_compat|exact Vp]).
  exists 1, p, 277.999, 278. do 2 eexists. split; [lra|]. split; [exact Hp|]. split; [lra|].
  split; [apply (entropy_value _ _ _ f 1 [2.78] [3120] q1); rewrite ?S1; auto; try lra;
          [discriminate|repeat constructor; lra]|].
  split; [apply (entropy_value _ _ _ f 1 [2.78] [3120] q2); rewrite ?S1; auto; try lra;
          [discriminate|repeat constructor; lra]|].
  assert (Z : ln (q_trans 1 p 278) + ln q2 + ln (q_vib [3120] 278) = 0).
  { rewrite ln_q_trans by lra. assert (Lp : ln p = ln (q_trans 1 1 278) + ln q2 + ln (q_vib [3120] 278)).
    { unfold p. rewrite !ln_mult; auto. now apply Rmult_lt_0_compat. }
    rewrite ln_q_trans in Lp by lra. rewrite ln_1 in Lp. lra. }
  pose proof (trans_278 1 p ltac:(lra) Hp) as A1. pose proof vib_278 as A3.
  assert (A2 : ln q1 - ln q2 >= 0.003).
  { assert (0 < 277.999 / (1 * 2.78) * 1.0033) by lra.
    pose proof (ln_mono _ _ H B1) as M.
    assert (ln (277.999 / (1 * 2.78) * 1.0033) - ln q2 >= 0.003); [|lra].
    rewrite <- ln_quot by auto.
    pose proof (ln_ge_minus (277.999 / (1 * 2.78) * 1.0033 / q2) ltac:(apply Rdiv_lt_0_compat; auto)) as W.
    assert (V : / (277.999 / (1 * 2.78) * 1.0033 / q2) = 278 / (277.999 * 1.0033)) by (unfold q2; field; lra).
    rewrite V in W. lra. }
  set (s1 := ln (q_trans 1 p 277.999) + ln q1 + ln (q_vib [3120] 277.999)) in *.
  assert (0 < s1) by (unfold s1; lra). clearbody s1. rewrite Z.
  unfold kT. pose proof kB_eV_pos. split; nra.
Qed.

(** Carbon monoxide of 28 g/mol at 300 K and one atmosphere is lowered. *)
Lemma co_cold : exists g,
  entropy_correction_full rotation_temperatures vibration_temperatures (L "CO_g") 4.65e-26 101325 300 = Ok g /\ g < 0.
Proof.
  destruct co_formula as (f & P & G & S1 & _). destruct co_tables as [D1 D2].
  pose proof (co_rot 300 ltac:(lra)) as Q.
  eexists. split; [apply (entropy_value _ _ _ f 1 [2.78] [3120] (300 / (1 * 2.78))); rewrite ?S1; auto; try lra;
          [discriminate|repeat constructor; lra]|].
  rewrite ln_q_trans by lra. unfold kT. pose proof kB_eV_pos.
  assert (B : 1e20 <= 2 * PI * 4.65e-26 * kB_J * 300 / (h_J * h_J)).
  { assert (PP : 2 <= PI) by (pose proof PI2_1; lra).
    assert (E : 2 * 2 * 4.65e-26 * kB_J * 300 / (h_J * h_J) <= 2 * PI * 4.65e-26 * kB_J * 300 / (h_J * h_J)).
    { unfold Rdiv. apply Rmult_le_compat_r; [left; apply Rinv_0_lt_compat, h_square|]. pose proof kB_J_pos. nra. }
    eapply Rle_trans; [|exact E]. unfold kB_J, h_J. lra. }
  apply ln_mono in B; [|lra].
  assert (V : - 6 <= ln (q_vib [3120] 300)).
  { cbn [q_vib]. rewrite ln_mult by (first [apply exp_pos|apply q_vib1_pos; lra]). rewrite ln_exp.
    assert (0 <= ln (q_vib1 3120 300)); [|lra]. rewrite <- ln_1. apply ln_mono; [lra|]. unfold q_vib1.
    rewrite <- Rinv_1 at 1. pose proof (exp_neg_lt1 (3120 / 300) ltac:(lra)). pose proof (exp_pos (- (3120 / 300))).
    apply Rinv_le_contravar; lra. }
  assert (T10 : 1 < ln 10).
  { apply exp_lt_inv. rewrite exp_ln by lra. pose proof exp_le_3. lra. }
  assert (P10 : forall n, ln (10 ^ n) = INR n * ln 10).
  { induction n as [|n IH]; [cbn; rewrite ln_1; lra|]. rewrite S_INR. cbn [pow].
    rewrite ln_mult by (try apply pow_lt; lra). lra. }
  assert (K1 : - (26 * ln 10) <= ln (kB_J * 300) - ln 101325).
  { pose proof kB_J_pos. rewrite <- ln_quot by lra.
    replace (26 * ln 10) with (ln (10 ^ 26)) by (rewrite P10; cbn [INR]; lra).
    rewrite <- ln_Rinv by (apply pow_lt; lra). apply ln_mono; [apply Rinv_0_lt_compat, pow_lt; lra|].
    unfold kB_J. lra. }
  assert (K2 : ln 1e20 = 20 * ln 10).
  { replace 1e20 with (10 ^ 20) by lra. rewrite P10. cbn [INR]. lra. }
  assert (K3 : 2 * ln 10 <= ln (300 / (1 * 2.78))).
  { replace (2 * ln 10) with (ln (10 ^ 2)) by (rewrite P10; cbn [INR]; lra). apply ln_mono; lra. }
  assert (K4 : 0 < ln (kB_J * 300) - ln 101325 + 3 / 2 * ln (2 * PI * 4.65e-26 * kB_J * 300 / (h_J * h_J)) +
               ln (300 / (1 * 2.78)) + ln (q_vib [3120] 300)) by lra.
  assert (K5 : 0 < kB_eV * 300) by lra. pose proof (Rmult_lt_0_compat _ _ K5 K4). lra.
Qed.
