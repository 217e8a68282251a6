(** Lemmas: the gases in the tables, and the Shomate correction from one row to the next. *)
From Coq Require Import String Ascii List ZArith QArith Qreals Bool Reals Lra Lia.
Import ListNotations.
From Verif Require Import PyBase PyBaseFacts Rxn_Model Rxn_Spec Mol_Model PyReal Energy_Model Energy_Spec
  Energy_Proofs Thermo_Model Rate_Spec RDeriv Thermo_Spec Thermo_Proofs Thermo_Entropy Thermo_Witness Thermo_More.
Open Scope list_scope.
Open Scope R_scope.

(** ** Gases with an entropy correction *)
Lemma linear_rot sigma th T : 0 < sigma -> 0 < th <= 89 -> 300 <= T -> exists q, q_rot sigma [th] T q.
Proof.
  intros Hs H HT. eexists. left. exists th. split; [reflexivity|]. split; [lra|]. split; [|reflexivity].
  apply (Rmult_lt_reg_r T); [lra|]. unfold Rdiv. rewrite Rmult_assoc, Rinv_l by lra. lra.
Qed.

Lemma nonlinear_rot sigma a b c T : 0 < a -> 0 < b -> 0 < c -> exists q, q_rot sigma [a; b; c] T q.
Proof. intros. eexists. right. exists a, b, c. split; [reflexivity|]. auto. Qed.

Lemma gas_tables n : In n entropy_gases -> exists sigma rth vth,
  dget rotation_temperatures n = Some (sigma, rth) /\ dget vibration_temperatures n = Some vth /\ 0 < sigma /\
  vth <> [] /\ Forall (fun th => 0 < th) vth /\ forall T, 300 <= T -> exists q, q_rot sigma rth T q.
Proof.
  intro H. repeat (destruct H as [<-|H]; [do 3 eexists; split; [reflexivity|]; split; [reflexivity|]; split; [lra|];
    split; [discriminate|]; split; [repeat constructor; lra|]; intros T HT;
    first [apply linear_rot; lra|apply nonlinear_rot; lra]|]). destruct H.
Qed.
Lemma gas_missing n : ~ In n entropy_gases -> dget rotation_temperatures n = None \/ dget vibration_temperatures n = None.
Proof.
  intro H. destruct (dget vibration_temperatures n) eqn:E; [|now right]. left.
  apply dget_None. intro K. cbn in K.
  assert (V : In n (keys vibration_temperatures)).
  { destruct (in_dec (list_eq_dec ascii_dec) n (keys vibration_temperatures)) as [I|I]; auto.
    apply dget_None in I. congruence. }
  cbn in V. apply H. cbn.
  repeat (destruct V as [<-|V]; [first [tauto|exfalso; repeat (destruct K as [K|K]; [discriminate K|]); exact K]|]). destruct V.
Qed.

Lemma entropy_gases_corrected name f : parse_formula name = Ok f -> f_site f = L "g" ->
  (In (f_species_site f) entropy_gases -> forall m p1 p2 T, 0 < m -> 0 < p1 -> 0 < p2 -> 300 <= T ->
     exists g1 g2, entropy_correction_full rotation_temperatures vibration_temperatures name m p1 T = Ok g1 /\
       entropy_correction_full rotation_temperatures vibration_temperatures name m p2 T = Ok g2 /\
       g2 - g1 = kT T * ln (p2 / p1)) /\
  (~ In (f_species_site f) entropy_gases -> forall m p T,
     entropy_correction_full rotation_temperatures vibration_temperatures name m p T = Ok 0).
Proof.
  intros P G. split.
  - intros H m p1 p2 T Hm H1 H2 HT. destruct (gas_tables _ H) as (sigma & rth & vth & R1 & R2 & S1 & V1 & V2 & Q).
    destruct (Q T HT) as [q Hq].
    apply (entropy_pressure_law _ _ _ f sigma rth vth q); auto. lra.
  - intros H m p T. apply (entropy_not_tabulated _ _ _ f); auto. right. now apply gas_missing.
Qed.

(** ** Gases with Shomate parameters *)
Lemma pick i gas T r : nth_error shomate_params i = Some r -> sh_gas r = gas ->
  (sh_min r <= T /\ T <= sh_max r \/ T < sh_min r /\ sh_min r < 300) ->
  exists r, In r shomate_params /\ sh_gas r = gas /\ ~ row_silent gas T r.
Proof.
  intros H G C. exists r. split; [eapply nth_error_In; eauto|]. split; auto.
  intros [N|[Q|Q]]; [congruence| |]; destruct C; lra.
Qed.
Lemma first_row i gas T r : nth_error shomate_params i = Some r -> sh_gas r = gas -> sh_min r < 300 -> T <= sh_max r ->
  exists r, In r shomate_params /\ sh_gas r = gas /\ ~ row_silent gas T r.
Proof. intros H G M C. apply (pick i gas T r H G). destruct (Rle_dec (sh_min r) T); [left; lra|right; lra]. Qed.

Ltac fst_row i := eapply (first_row i); [reflexivity|reflexivity|cbn [sh_min]; lra|cbn [sh_max]; lra].
Ltac nxt_row i := eapply (pick i); [reflexivity|reflexivity|cbn [sh_min sh_max]; left; lra].

Lemma shomate_rows_exist gas T hi : In (gas, hi) shomate_gases -> T <= hi ->
  exists r, In r shomate_params /\ sh_gas r = gas /\ ~ row_silent gas T r.
Proof.
  intros H Ht. unfold shomate_gases in H. cbn [In] in H.
  destruct H as [H|H]; [injection H as <- <-; destruct (Rle_dec T 1000); [fst_row 0%nat|destruct (Rle_dec T 2500); [nxt_row 1%nat|nxt_row 2%nat]]|].
  destruct H as [H|H]; [injection H as <- <-; destruct (Rle_dec T 1300); [fst_row 3%nat|nxt_row 4%nat]|].
  destruct H as [H|H]; [injection H as <- <-; destruct (Rle_dec T 1300); [fst_row 5%nat|nxt_row 6%nat]|].
  destruct H as [H|H]; [injection H as <- <-; destruct (Rle_dec T 500); [fst_row 7%nat|destruct (Rle_dec T 1700); [nxt_row 8%nat|nxt_row 9%nat]]|].
  destruct H as [H|H]; [injection H as <- <-; destruct (Rle_dec T 1200); [fst_row 10%nat|nxt_row 11%nat]|].
  destruct H as [H|H]; [injection H as <- <-; destruct (Rle_dec T 700); [fst_row 12%nat|destruct (Rle_dec T 2000); [nxt_row 13%nat|nxt_row 14%nat]]|].
  destruct H as [H|H]; [injection H as <- <-; fst_row 15%nat|].
  destruct H as [H|H]; [injection H as <- <-; destruct (Rle_dec T 500); [fst_row 16%nat|nxt_row 17%nat]|].
  destruct H as [H|H]; [injection H as <- <-; fst_row 18%nat|].
  destruct H as [H|H]; [injection H as <- <-; fst_row 19%nat|].
  destruct H as [H|H]; [injection H as <- <-; fst_row 20%nat|].
  destruct H as [H|H]; [injection H as <- <-; fst_row 21%nat|].
  destruct H as [H|H]; [injection H as <- <-; fst_row 22%nat|].
  destruct H as [H|H]; [injection H as <- <-; fst_row 23%nat|].
  destruct H as [H|H]; [injection H as <- <-; fst_row 24%nat|].
  destruct H as [H|H]; [injection H as <- <-; fst_row 25%nat|].
  destruct H as [H|H]; [injection H as <- <-; fst_row 26%nat|].
  destruct H as [H|H]; [injection H as <- <-; fst_row 27%nat|].
  destruct H as [H|H]; [injection H as <- <-; fst_row 28%nat|].
  destruct H as [H|[]]; injection H as <- <-; fst_row 29%nat.
Qed.

Lemma shomate_rows_listed r : In r shomate_params ->
  exists hi, In (sh_gas r, hi) shomate_gases /\ sh_max r <= hi /\ 0 < sh_min r <= sh_max r.
Proof.
  intro H. unfold shomate_params in H.
  repeat (destruct H as [<-|H]; [cbn [sh_gas sh_min sh_max]; eexists; split;
    [unfold shomate_gases; cbn [In]; repeat first [left; reflexivity|right]|lra]|]). destruct H.
Qed.

Lemma shomate_all_silent gas T : ~ (exists hi, In (gas, hi) shomate_gases /\ T <= hi) ->
  Forall (row_silent gas T) shomate_params.
Proof.
  intro H. apply Forall_forall. intros r Hr. destruct (shomate_rows_listed r Hr) as (hi & H1 & H2 & H3).
  destruct (str_eqb_spec (sh_gas r) gas) as [<-|N]; [|now left].
  right. left. assert (~ T <= hi) by (intro; apply H; eauto). lra.
Qed.

(** The first row that is not silent. *)
Lemma first_loud rows gas T : (exists r, In r rows /\ sh_gas r = gas /\ ~ row_silent gas T r) ->
  exists r, row_for rows gas T r /\ ~ row_silent gas T r.
Proof.
  induction rows as [|x rows IH]; intros (r & Hr & G & N); [destruct Hr|].
  assert (Dec : row_silent gas T x \/ ~ row_silent gas T x) by apply Classical_Prop.classic.
  destruct Dec as [Sx|Nx].
  - destruct Hr as [->|Hr]; [contradiction|]. destruct IH as (r' & (b & a & -> & G' & F) & N'); [eauto|].
    exists r'. split; auto. exists (x :: b), a. split; [reflexivity|]. split; auto.
  - exists x. split; auto. exists [], rows. split; [reflexivity|]. split; [|constructor].
    destruct (str_eqb_spec (sh_gas x) gas); auto. exfalso. apply Nx. now left.
Qed.

Lemma shomate_gases_corrected s f T : parse_formula s = Ok f -> f_site f = L "g" ->
  ((exists hi, In (s, hi) shomate_gases /\ T <= hi) ->
     exists r, row_for shomate_params s T r /\ (sh_min r <= T <= sh_max r \/ T < sh_min r < 300)) /\
  (~ (exists hi, In (s, hi) shomate_gases /\ T <= hi) -> shomate_correction shomate_params T s = Ok 0).
Proof.
  intros P G. split.
  - intros (hi & H & Ht). destruct (first_loud shomate_params s T) as (r & F & N); [eapply shomate_rows_exist; eauto|].
    exists r. split; auto. destruct F as (b & a & E & Gr & _).
    assert (Hr : In r shomate_params) by (rewrite E; apply in_or_app; right; now left).
    destruct (shomate_rows_listed r Hr) as (_ & _ & _ & M).
    destruct (Rle_dec (sh_min r) T).
    + left. split; auto. destruct (Rle_dec T (sh_max r)); auto. exfalso. apply N. right. left. lra.
    + right. split; [lra|]. destruct (Rlt_dec (sh_min r) 300); auto. exfalso. apply N. right. right. lra.
  - intro H. apply (shomate_no_row _ _ f); auto. now apply shomate_all_silent.
Qed.

(** ** From one row to the next *)
Lemma free_energy_continuous r T : 0 < T -> continuity_pt (shomate_free_energy r) T.
Proof.
  intro H. apply derivable_continuous_pt.
  exists (- (kJmol2eV / 1000 * shomate_entropy r T)).
  eapply (derivable_pt_lim_locally_ext (row_value r) _ T 0 (T + 1)); [lra| |].
  - intros z Hz. unfold row_value, shomate_free_energy. rewrite T_ref_value.
    rewrite <- !shomate_H_spec, <- shomate_S_spec, <- shomate_Cp_spec by lra. unfold kJmol2eV. field.
  - eapply d_eq; [|apply deriv_row; lra]. rewrite shomate_S_spec by lra. ring.
Qed.

Lemma shomate_step rows s f r1 r2 T hi : parse_formula s = Ok f -> f_site f = L "g" -> 0 < T < hi ->
  row_for rows s T r1 -> sh_min r1 <= T <= sh_max r1 ->
  (forall u, T < u < hi -> row_for rows s u r2 /\ sh_min r2 <= u <= sh_max r2) ->
  shomate_correction rows T s = Ok (shomate_free_energy r1 T) /\
  forall eps, 0 < eps -> exists d, 0 < d /\ forall u, T < u < T + d ->
    exists c, shomate_correction rows u s = Ok c /\ Rabs (c - shomate_free_energy r2 T) < eps.
Proof.
  intros P G HT F1 M1 F2. split; [now apply (shomate_inside rows s f r1 T)|].
  intros eps He. destruct (free_energy_continuous r2 T (proj1 HT) eps He) as (d & Hd & C).
  exists (Rmin d (hi - T)). split; [apply Rmin_glb_lt; lra|]. intros u Hu.
  pose proof (Rmin_l d (hi - T)). pose proof (Rmin_r d (hi - T)).
  destruct (F2 u ltac:(lra)) as [F2' M2]. exists (shomate_free_energy r2 u). split.
  - apply (shomate_inside rows s f r2 u); auto. lra.
  - apply (C u). split; [split; [exact Logic.I|lra]|]. cbn. unfold R_dist. rewrite Rabs_pos_eq; lra.
Qed.

(** Methane at 1300 K. *)
Lemma methane_formula : exists f, parse_formula (L "CH4_g") = Ok f /\ f_site f = L "g".
Proof. eexists. split; [vm_compute; reflexivity|reflexivity]. Qed.
Lemma methane_row1 : row_for shomate_params (L "CH4_g") 1300 (nth 3 shomate_params default_row).
Proof.
  exists (firstn 3 shomate_params), (skipn 4 shomate_params). split; [reflexivity|]. split; [reflexivity|].
  cbn [firstn shomate_params]. repeat (apply Forall_cons; [left; discriminate|]). constructor.
Qed.
Lemma methane_row2 u : 1300 < u < 1600 -> row_for shomate_params (L "CH4_g") u (nth 4 shomate_params default_row).
Proof.
  intro H. exists (firstn 4 shomate_params), (skipn 5 shomate_params). split; [reflexivity|]. split; [reflexivity|].
  cbn [firstn shomate_params]. do 3 (apply Forall_cons; [left; discriminate|]).
  apply Forall_cons; [|constructor]. right. left. cbn [sh_min sh_max]. lra.
Qed.
Lemma ln_13 : 3 / 13 <= ln 1.3 <= 0.3.
Proof.
  split.
  - replace 1.3 with (/ (10 / 13)) by lra. rewrite ln_Rinv by lra.
    assert (ln (10 / 13) <= 10 / 13 - 1); [|lra].
    destruct (Rle_dec (ln (10 / 13)) (10 / 13 - 1)) as [|N]; auto. exfalso.
    pose proof (exp_ineq1_le (ln (10 / 13))) as E. rewrite exp_ln in E by lra. lra.
  - pose proof (exp_ineq1_le (ln 1.3)) as E. rewrite exp_ln in E by lra. lra.
Qed.
Lemma methane_drop :
  shomate_free_energy (nth 4 shomate_params default_row) 1300 - shomate_free_energy (nth 3 shomate_params default_row) 1300 < - (1 + / 100).
Proof.
  cbn [nth shomate_params]. unfold shomate_free_energy, shomate_heat_capacity, shomate_enthalpy, shomate_entropy.
  cbn [sh_A sh_B sh_C sh_D sh_E sh_F sh_G sh_H]. cbv zeta.
  replace (1300 / 1000) with 1.3 by lra. pose proof ln_13 as B. set (x := ln 1.3) in *. clearbody x.
  replace (298.15 / 1000) with 0.29815 by lra. lra.
Qed.

Lemma shomate_inside_continuous rows s f r lo hi T : parse_formula s = Ok f -> f_site f = L "g" ->
  (forall u, lo < u < hi -> row_for rows s u r /\ sh_min r <= u <= sh_max r) -> 0 <= lo -> lo < T < hi ->
  exists c0, shomate_correction rows T s = Ok c0 /\ forall eps, 0 < eps -> exists d, 0 < d /\
    forall u, Rabs (u - T) < d -> exists c, shomate_correction rows u s = Ok c /\ Rabs (c - c0) < eps.
Proof.
  intros P G F L0 HT. exists (shomate_free_energy r T). destruct (F T HT) as [F0 M0].
  split; [apply (shomate_inside rows s f r T); auto; lra|]. intros eps He.
  destruct (free_energy_continuous r T ltac:(lra) eps He) as (d & Hd & C).
  exists (Rmin d (Rmin (hi - T) (T - lo))). split; [repeat apply Rmin_glb_lt; lra|]. intros u Hu.
  pose proof (Rmin_l d (Rmin (hi - T) (T - lo))). pose proof (Rmin_r d (Rmin (hi - T) (T - lo))).
  pose proof (Rmin_l (hi - T) (T - lo)). pose proof (Rmin_r (hi - T) (T - lo)).
  assert (B : lo < u < hi) by (apply Rabs_def2 in Hu; lra).
  destruct (F u B) as [Fu Mu]. exists (shomate_free_energy r u).
  split; [apply (shomate_inside rows s f r u); auto; lra|].
  destruct (Req_dec u T) as [->|Nu]; [rewrite Rminus_diag_eq by reflexivity; rewrite Rabs_R0; lra|].
  apply (C u). split; [split; [exact Logic.I|congruence]|]. cbn. unfold R_dist. lra.
Qed.

Lemma methane_jump : exists v, shomate_correction shomate_params 1300 (L "CH4_g") = Ok v /\
  exists d, 0 < d /\ forall u, 1300 < u < 1300 + d ->
    exists c, shomate_correction shomate_params u (L "CH4_g") = Ok c /\ c < v - 1.
Proof.
  destruct methane_formula as (f & P & G).
  destruct (shomate_step shomate_params (L "CH4_g") f (nth 3 shomate_params default_row) (nth 4 shomate_params default_row)
    1300 1600 P G ltac:(lra) methane_row1) as [E S].
  - cbn [nth shomate_params sh_min sh_max]. lra.
  - intros u Hu. split; [now apply methane_row2|]. cbn [nth shomate_params sh_min sh_max]. lra.
  - eexists. split; [exact E|]. destruct (S (/ 100) ltac:(lra)) as (d & Hd & C). exists d. split; [exact Hd|].
    intros u Hu. destruct (C u Hu) as (c & Ec & Hc). exists c. split; [exact Ec|].
    apply Rabs_def2 in Hc. pose proof methane_drop. lra.
Qed.
