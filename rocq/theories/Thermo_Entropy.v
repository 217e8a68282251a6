(** Proofs about [entropy_correction] and [shomate_correction]. *)
From Coq Require Import String Ascii List ZArith QArith Qreals Bool Arith Reals Lra Lia.
Import ListNotations.
From Verif Require Import PyBase PyBaseFacts Regex Rxn_Model Rxn_Spec Rxn_Proofs Rxn_Count Rxn_More
  Mol_Model PyReal Energy_Model Energy_Spec Energy_Proofs Thermo_Model Rate_Spec Rate_Model Rate_Proofs
  RDeriv Thermo_Spec Thermo_Proofs.
Open Scope list_scope.
Open Scope R_scope.

Lemma div_opp x y : - x / y = - (x / y).
Proof. unfold Rdiv. ring. Qed.

Lemma exp_neg_lt1 x : 0 < x -> exp (- x) < 1.
Proof. intro H. rewrite <- exp_0. apply exp_increasing. lra. Qed.

Lemma q_vib1_pos th T : 0 < th -> 0 < T -> 0 < q_vib1 th T.
Proof.
  intros A B. unfold q_vib1. apply Rinv_0_lt_compat.
  assert (0 < th / T) by now apply Rdiv_lt_0_compat. pose proof (exp_neg_lt1 (th / T)). lra.
Qed.

Lemma vib_factor_ok th T : 0 < th -> 0 < T -> vib_factor T th = Ok (q_vib1 th T).
Proof.
  intros A B. unfold vib_factor. rewrite pydiv_ok by lra. cbn [bind].
  assert (0 < th / T) by now apply Rdiv_lt_0_compat. pose proof (exp_neg_lt1 (th / T)).
  rewrite div_opp, pydiv_ok by lra. f_equal. unfold q_vib1, Rdiv. ring.
Qed.

Lemma vib_partition_ok thetas T : thetas <> [] -> Forall (fun th => 0 < th) thetas -> 0 < T ->
  vib_partition T thetas = Ok (q_vib thetas T) /\ 0 < q_vib thetas T.
Proof.
  intros N F H.
  assert (P : forall l, Forall (fun th => 0 < th) l -> 0 < fold_right Rmult 1 (map (fun th => q_vib1 th T) l)).
  { induction 1; cbn; [lra|]. apply Rmult_lt_0_compat; auto. now apply q_vib1_pos. }
  assert (M : forall l, Forall (fun th => 0 < th) l -> mapM (vib_factor T) l = Ok (map (fun th => q_vib1 th T) l)).
  { induction 1 as [|x l Hx Hl IH]; cbn [mapM map]; auto. rewrite vib_factor_ok by auto. cbn [bind].
    now rewrite IH. }
  destruct thetas as [|a [|b l]]; [congruence| |].
  - inversion F as [|? ? Ha _]; subst. cbn [vib_partition q_vib]. 
    assert (0 < a / T) by now apply Rdiv_lt_0_compat. pose proof (exp_neg_lt1 (a / T)).
    rewrite pydiv_ok by lra. cbn [bind]. rewrite pydiv_ok by lra. cbn [bind].
    rewrite div_opp, div_opp, pydiv_ok by lra. split.
    + f_equal. unfold q_vib1. replace (- (a / (2 * T))) with (- (a / T) / 2) by (field; lra).
      reflexivity.
    + apply Rmult_lt_0_compat; [apply exp_pos|]. now apply q_vib1_pos.
  - unfold vib_partition, q_vib. rewrite (M _ F). cbn [bind map]. rewrite fold_mult. split; auto.
    change (0 < fold_right Rmult 1 (map (fun th => q_vib1 th T) (a :: b :: l))). now apply P.
Qed.

Lemma rot_partition_ok sigma thetas T q : 0 < sigma -> 0 < T -> q_rot sigma thetas T q ->
  rot_partition T sigma thetas = Ok (Some q) /\ 0 < q.
Proof.
  intros Hs HT [(th & -> & Hth & R & ->)|(a & b & c & -> & (Ha & Hb & Hc) & ->)].
  - unfold rot_partition, q_linear. assert (0 < th / T) by now apply Rdiv_lt_0_compat.
    assert (0 < sigma * th) by now apply Rmult_lt_0_compat.
    rewrite pydiv_ok by lra. cbn [bind]. rewrite pydiv_ok by lra. cbn [bind].
    unfold Rleb. destruct (Rle_dec (th / T) 0.01) as [L|L].
    + split; auto. now apply Rdiv_lt_0_compat.
    + rewrite pydiv_ok by lra. cbn [bind]. rewrite pydiv_ok.
      2:{ apply Rgt_not_eq. apply Rmult_lt_0_compat; [lra|]. now apply pow_lt. }
      cbn [bind]. destruct (Rle_dec 0.3 (th / T)); [lra|]. split.
      * f_equal. f_equal. field. lra.
      * apply Rmult_lt_0_compat; [now apply Rdiv_lt_0_compat|].
        assert (0 < th / T * (th / T)) by now apply Rmult_lt_0_compat. lra.
  - unfold rot_partition, q_nonlinear. pose proof PI_RGT_0 as HP.
    assert (0 < a * b * c) by (repeat apply Rmult_lt_0_compat; auto).
    assert (0 < T ^ 3) by now apply pow_lt.
    assert (0 < T ^ 3 / (a * b * c)) by now apply Rdiv_lt_0_compat.
    rewrite pydiv_ok by lra. cbn [bind]. rewrite pydiv_ok by lra. cbn [bind].
    unfold pow_half. rewrite (proj2 (Rltb_false _ 0)) by lra. cbn [omul].
    replace (PI * (T / a) * (T / b) * (T / c)) with (PI * (T ^ 3 / (a * b * c))) by (field; lra).
    rewrite sqrt_mult by lra. split.
    + f_equal. f_equal. unfold Rdiv. ring.
    + apply Rdiv_lt_0_compat; auto. apply Rmult_lt_0_compat; now apply sqrt_lt_R0.
Qed.

Lemma pow_3_2_Rpower x : 0 < x -> pow_3_2 x = Some (Rpower x (3 / 2)).
Proof.
  intro H. unfold pow_3_2. rewrite (proj2 (Rltb_false x 0)) by lra. f_equal.
  replace (3 / 2) with (1 + / 2) by lra. rewrite Rpower_plus, Rpower_1, Rpower_sqrt; auto.
Qed.

Lemma trans_base_pos m T : 0 < m -> 0 < T -> 0 < 2 * PI * m * kB_J * T / (h_J * h_J).
Proof.
  intros A B. apply Rdiv_lt_0_compat; [now apply denom_pos|]. 
  pose proof h_J_pos. now apply Rmult_lt_0_compat.
Qed.

Lemma trans_partition_ok m p T : 0 < m -> 0 < p -> 0 < T ->
  trans_partition m p T = Ok (Some (q_trans m p T)) /\ 0 < q_trans m p T.
Proof.
  intros Hm Hp HT. unfold trans_partition, q_trans. rewrite pydiv_ok by lra. cbn [bind].
  replace (h_J ^ 2) with (h_J * h_J) by ring.
  rewrite pow_3_2_Rpower by now apply trans_base_pos. split; auto.
  apply Rmult_lt_0_compat; [|unfold Rpower; apply exp_pos].
  apply Rdiv_lt_0_compat; auto. apply Rmult_lt_0_compat; auto. apply kB_J_pos.
Qed.

Lemma free_energy_ok rot vib f sigma rth vth qr m p T :
  f_site f = L "g" ->
  dget rot (f_species_site f) = Some (sigma, rth) -> dget vib (f_species_site f) = Some vth ->
  0 < sigma -> 0 < T -> 0 < m -> 0 < p -> q_rot sigma rth T qr ->
  vth <> [] -> Forall (fun th => 0 < th) vth ->
  free_energy rot vib f (Ok (m, p)) T
  = Ok (- kT T * (ln (q_trans m p T) + ln qr + ln (q_vib vth T))).
Proof.
  intros G Dr Dv Hs HT Hm Hp Q N F. unfold free_energy.
  assert (formula_type f = Gas) as ->.
  { apply is_gas_iff in G. unfold is_gas in G. destruct (formula_type f); congruence. }
  rewrite Dr, Dv. cbn [bind].
  destruct (trans_partition_ok m p T Hm Hp HT) as [-> Pt]. cbn [bind].
  destruct (rot_partition_ok sigma rth T qr Hs HT Q) as [-> Pr]. cbn [bind].
  destruct (vib_partition_ok vth T N F HT) as [-> Pv]. cbn [bind omul].
  assert (0 < q_trans m p T * qr) by now apply Rmult_lt_0_compat.
  rewrite pylog_ok by now apply Rmult_lt_0_compat. cbn [bind].
  rewrite ln_mult, ln_mult by auto. f_equal. unfold kT. ring.
Qed.

Lemma entropy_value rot vib name f sigma rth vth qr m p T :
  parse_formula name = Ok f -> f_site f = L "g" ->
  dget rot (f_species_site f) = Some (sigma, rth) -> dget vib (f_species_site f) = Some vth ->
  0 < sigma -> 0 < T -> 0 < m -> 0 < p -> q_rot sigma rth T qr ->
  vth <> [] -> Forall (fun th => 0 < th) vth ->
  entropy_correction_full rot vib name m p T
  = Ok (- kT T * (ln (q_trans m p T) + ln qr + ln (q_vib vth T))).
Proof.
  intros P. unfold entropy_correction_full. rewrite P. cbn [bind]. apply free_energy_ok.
Qed.

Lemma ln_quot x y : 0 < x -> 0 < y -> ln (x / y) = ln x - ln y.
Proof.
  intros A B. unfold Rdiv. rewrite ln_mult by (auto using Rinv_0_lt_compat).
  rewrite ln_Rinv by auto. ring.
Qed.

Lemma ln_q_trans m p T : 0 < m -> 0 < p -> 0 < T ->
  ln (q_trans m p T) = ln (kB_J * T) - ln p + 3 / 2 * ln (2 * PI * m * kB_J * T / (h_J * h_J)).
Proof.
  intros Hm Hp HT. unfold q_trans. pose proof kB_J_pos as K.
  assert (0 < kB_J * T) by now apply Rmult_lt_0_compat.
  rewrite ln_mult; [|now apply Rdiv_lt_0_compat|unfold Rpower; apply exp_pos].
  unfold Rpower. rewrite ln_exp, ln_quot by auto. reflexivity.
Qed.

Lemma entropy_pressure_law rot vib name f sigma rth vth qr m p1 p2 T :
  parse_formula name = Ok f -> f_site f = L "g" ->
  dget rot (f_species_site f) = Some (sigma, rth) -> dget vib (f_species_site f) = Some vth ->
  0 < sigma -> 0 < T -> 0 < m -> 0 < p1 -> 0 < p2 -> q_rot sigma rth T qr ->
  vth <> [] -> Forall (fun th => 0 < th) vth ->
  exists g1 g2, entropy_correction_full rot vib name m p1 T = Ok g1 /\
    entropy_correction_full rot vib name m p2 T = Ok g2 /\ g2 - g1 = kT T * ln (p2 / p1).
Proof.
  intros P G Dr Dv Hs HT Hm H1 H2 Q N F. do 2 eexists.
  split; [eapply entropy_value; eauto|]. split; [eapply entropy_value; eauto|].
  rewrite !ln_q_trans, (ln_quot p2 p1) by auto. ring.
Qed.

Lemma entropy_zero_pressure rot vib name f sigma rth vth m T :
  parse_formula name = Ok f -> f_site f = L "g" ->
  dget rot (f_species_site f) = Some (sigma, rth) -> dget vib (f_species_site f) = Some vth ->
  entropy_correction_full rot vib name m 0 T = Err ZeroDivisionError.
Proof.
  intros P G Dr Dv. unfold entropy_correction_full, free_energy. rewrite P. cbn [bind].
  assert (formula_type f = Gas) as ->.
  { apply is_gas_iff in G. unfold is_gas in G. destruct (formula_type f); congruence. }
  rewrite Dr, Dv. cbn [bind]. unfold trans_partition. now rewrite pydiv_zero.
Qed.

(** Light linear molecules at low temperature. *)
Lemma entropy_logger rot vib name f sigma th vth m p T :
  parse_formula name = Ok f -> f_site f = L "g" ->
  dget rot (f_species_site f) = Some (sigma, [th]) -> dget vib (f_species_site f) = Some vth ->
  0 < sigma -> 0 < th -> 0 < T -> p <> 0 -> 0.3 <= th / T ->
  entropy_correction_full rot vib name m p T = Err AttributeError.
Proof.
  intros P G Dr Dv Hs Hth HT Hp R. unfold entropy_correction_full, free_energy. rewrite P. cbn [bind].
  assert (formula_type f = Gas) as ->.
  { apply is_gas_iff in G. unfold is_gas in G. destruct (formula_type f); congruence. }
  rewrite Dr, Dv. cbn [bind]. unfold trans_partition. rewrite pydiv_ok by auto. cbn [bind].
  unfold rot_partition. assert (0 < sigma * th) by now apply Rmult_lt_0_compat.
  rewrite pydiv_ok by lra. cbn [bind]. rewrite pydiv_ok by lra. cbn [bind].
  rewrite (proj2 (Rleb_false _ _)) by lra. rewrite pydiv_ok by lra. cbn [bind]. rewrite pydiv_ok.
  2:{ apply Rgt_not_eq. apply Rmult_lt_0_compat; [lra|]. now apply pow_lt. }
  cbn [bind]. now rewrite (proj2 (Rleb_true _ _)) by lra.
Qed.

Lemma entropy_not_tabulated rot vib name f m p T :
  parse_formula name = Ok f ->
  f_site f <> L "g" \/ dget rot (f_species_site f) = None \/ dget vib (f_species_site f) = None ->
  entropy_correction_full rot vib name m p T = Ok 0.
Proof.
  intros P H. unfold entropy_correction_full, free_energy. rewrite P. cbn [bind].
  destruct H as [H|[H|H]].
  - pose proof (not_gas_type f H). destruct (formula_type f); congruence.
  - rewrite H. destruct (formula_type f); auto.
  - rewrite H. destruct (formula_type f); auto. destruct (dget rot (f_species_site f)) as [[? ?]|]; auto.
Qed.

(** The default arguments are the mass of the species, the pressure of the model in Pa and
    its temperature. *)
Lemma entropy_defaults rot vib o name f m p :
  parse_formula name = Ok f ->
  molecular_mass (f_species f) true = Ok m ->
  dget (o_pressures o) (f_species_site f) = Some (Some p) ->
  entropy_correction rot vib o name = entropy_correction_full rot vib name (Q2R m) (P0 * p) (o_T o).
Proof.
  intros P M D. unfold entropy_correction, entropy_correction_full. rewrite P. cbn [bind].
  rewrite M. cbn [bind]. unfold pressure_of, dindex. rewrite D. reflexivity.
Qed.

(** ** Shomate *)
Lemma shomate_row_found rows gas T r :
  (exists before after, rows = before ++ r :: after /\ forall x, In x before -> sh_gas x <> gas) ->
  sh_gas r = gas -> sh_min r <= T <= sh_max r ->
  shomate_loop rows gas T
  = (T_ref * shomate_Cp T_ref r / 1000 + (shomate_H T r - shomate_H T_ref r)) * kJmol2eV
    - T * (shomate_S T r * (kJmol2eV / 1000)).
Proof.
  intros (before & after & -> & N) G [H1 H2].
  induction before as [|x before IH]; cbn [app shomate_loop].
  - rewrite (proj2 (str_eqb_eq _ _) G). cbn [negb].
    rewrite (proj2 (Rleb_true _ _) H1), (proj2 (Rleb_true _ _) H2). reflexivity.
  - rewrite (proj2 (str_eqb_neq _ _) (N x (or_introl eq_refl))). cbn [negb]. apply IH.
    intros y Hy. apply N. now right.
Qed.


Lemma shomate_row_below rows gas T r :
  (exists before after, rows = before ++ r :: after /\ forall x, In x before -> sh_gas x <> gas) ->
  sh_gas r = gas -> T < sh_min r -> sh_min r < 300 ->
  shomate_loop rows gas T
  = T * shomate_Cp (sh_min r) r / 1000 * kJmol2eV - T * (shomate_S (sh_min r) r * (kJmol2eV / 1000)).
Proof.
  intros (before & after & -> & N) G H1 H2.
  induction before as [|x before IH]; cbn [app shomate_loop].
  - rewrite (proj2 (str_eqb_eq _ _) G). cbn [negb].
    rewrite (proj2 (Rleb_false (sh_min r) T) H1). cbn [andb].
    rewrite (proj2 (Rltb_true _ _) H1), (proj2 (Rltb_true _ _) H2). reflexivity.
  - rewrite (proj2 (str_eqb_neq _ _) (N x (or_introl eq_refl))). cbn [negb]. apply IH.
    intros y Hy. apply N. now right.
Qed.

(** A gas without row, or a temperature outside all its rows. *)
Lemma shomate_outside rows gas T :
  (forall r, In r rows -> sh_gas r = gas ->
     (sh_max r < T /\ sh_min r <= T) \/ (T < sh_min r /\ 300 <= sh_min r)) ->
  shomate_loop rows gas T = 0.
Proof.
  induction rows as [|r rows IH]; intro H; cbn [shomate_loop]; auto.
  assert (I : shomate_loop rows gas T = 0) by (apply IH; intros x Hx; apply H; now right).
  destruct (str_eqb_spec (sh_gas r) gas) as [G|N]; cbn [negb]; auto.
  destruct (H r (or_introl eq_refl) G) as [[A B]|[A B]].
  - rewrite (proj2 (Rleb_false T (sh_max r)) A), andb_false_r.
    now rewrite (proj2 (Rltb_false T (sh_min r)) B).
  - rewrite (proj2 (Rleb_false (sh_min r) T) A). cbn [andb].
    now rewrite (proj2 (Rltb_false (sh_min r) 300) B), andb_false_r.
Qed.

Lemma d_scale T : derivable_pt_lim (fun T => T / 1000) T (/ 1000).
Proof.
  apply (d_ext (fun u => / 1000 * u)); [intro; unfold Rdiv; ring|].
  apply (d_eq _ _ (/ 1000 * 1)); [ring|]. apply d_scal, d_id.
Qed.

Lemma deriv_H r T : 0 < T ->
  derivable_pt_lim (fun T => shomate_H T r) T (shomate_Cp T r / 1000).
Proof.
  intro H. assert (Ht : 0 < T / 1000) by lra.
  pose (F := fun u => sh_A r * u + sh_B r / 2 * u ^ 2 + sh_C r / 3 * u ^ 3 + sh_D r / 4 * u ^ 4
     - sh_E r * / u + sh_F r - sh_H r).
  apply (d_ext (fun T => F (T / 1000))); [reflexivity|].
  eapply d_eq; [|eapply d_comp; [apply d_scale|]].
  2:{ unfold F. apply d_minus; [|apply d_const]. apply d_plus; [|apply d_const].
      apply d_minus; [|apply d_scal, d_inv; lra].
      repeat (apply d_plus; [|apply d_scal, d_pow]). apply d_scal, d_id. }
  unfold shomate_Cp. cbn [INR pred pow]. field. lra.
Qed.

Lemma deriv_S r T : 0 < T ->
  derivable_pt_lim (fun T => shomate_S T r) T (shomate_Cp T r / T).
Proof.
  intro H. assert (Ht : 0 < T / 1000) by lra.
  pose (F := fun u => sh_A r * ln u + sh_B r * u + sh_C r / 2 * u ^ 2 + sh_D r / 3 * u ^ 3
     - sh_E r / 2 * / (u ^ 2) + sh_G r).
  apply (derivable_pt_lim_locally_ext (fun T => F (T / 1000)) _ T 0 (T + 1)); [lra| |].
  { intros z Hz. unfold F, shomate_S. unfold Rdiv. field. lra. }
  eapply d_eq; [|eapply d_comp; [apply d_scale|]].
  2:{ unfold F. apply d_plus; [|apply d_const].
      apply d_minus.
      - repeat (apply d_plus; [|apply d_scal, d_pow]).
        apply d_plus; [|apply d_scal, d_id]. apply d_scal, d_ln; auto.
      - apply d_scal. apply (d_comp (fun u => u ^ 2) (fun v => / v)); [apply d_pow|].
        apply d_inv. apply Rgt_not_eq. now apply pow_lt. }
  unfold shomate_Cp. cbn [INR pred pow]. field. lra.
Qed.

(** Inside the range of its row the correction is a Gibbs energy: its temperature
    derivative is minus the entropy. *)
Definition row_value (r : shomate_row) (T : R) : R :=
  (T_ref * shomate_Cp T_ref r / 1000 + (shomate_H T r - shomate_H T_ref r)) * kJmol2eV
    - T * (shomate_S T r * (kJmol2eV / 1000)).

Lemma deriv_row r T : 0 < T ->
  derivable_pt_lim (row_value r) T (- (shomate_S T r * (kJmol2eV / 1000))).
Proof.
  intro H. unfold row_value.
  eapply d_eq; [|apply d_minus].
  2:{ apply (d_ext (fun T => kJmol2eV * (T_ref * shomate_Cp T_ref r / 1000 + (shomate_H T r - shomate_H T_ref r)))).
      - intro; ring.
      - apply d_scal. apply d_plus; [apply d_const|]. apply d_minus; [|apply d_const]. now apply deriv_H. }
  2:{ apply (d_mult (fun T => T)); [apply d_id|].
      apply (d_ext (fun T => kJmol2eV / 1000 * shomate_S T r)); [intro; ring|].
      apply d_scal. now apply deriv_S. }
  unfold shomate_Cp. cbn [pow]. field. lra.
Qed.

(** A gas without vibrations in the table: [reduce] of an empty list. *)
Lemma entropy_no_vibrations rot vib name f sigma rth qr m p T :
  parse_formula name = Ok f -> f_site f = L "g" ->
  dget rot (f_species_site f) = Some (sigma, rth) -> dget vib (f_species_site f) = Some [] ->
  0 < sigma -> 0 < T -> p <> 0 -> q_rot sigma rth T qr ->
  entropy_correction_full rot vib name m p T = Err TypeError.
Proof.
  intros P G Dr Dv Hs HT Hp Q. unfold entropy_correction_full, free_energy. rewrite P. cbn [bind].
  assert (formula_type f = Gas) as ->.
  { apply is_gas_iff in G. unfold is_gas in G. destruct (formula_type f); congruence. }
  rewrite Dr, Dv. cbn [bind]. unfold trans_partition. rewrite pydiv_ok by auto. cbn [bind].
  destruct (rot_partition_ok sigma rth T qr Hs HT Q) as [-> _]. reflexivity.
Qed.
