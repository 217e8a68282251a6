(** Lemmas: rate constants at different temperatures (C106) and for both directions of writing (C107). *)
From Coq Require Import String Ascii List ZArith QArith Qreals Bool Arith Reals Lra Lia.
Import ListNotations.
From Verif Require Import PyBase PyBaseFacts Rxn_Model Rxn_Spec Rxn_Proofs Rxn_Count Rxn_More
  Mol_Model PyReal Energy_Model Energy_Spec Energy_Proofs Thermo_Model Rate_Model Rate_Spec Rate_Proofs Rate_Witness RDeriv.
Open Scope list_scope.
Open Scope R_scope.

Lemma exp_shift g u1 u2 : 0 < u1 -> 0 < u2 -> exp (- g / u2) = exp (- g / u1) * exp (g * (/ u1 - / u2)).
Proof. intros A B. rewrite <- exp_plus. f_equal. field. lra. Qed.

Lemma arr_up g u1 u2 : 0 < u1 -> u1 < u2 -> - g <= u1 -> u1 * exp (- g / u1) < u2 * exp (- g / u2).
Proof.
  intros A B C. assert (D : 0 < u2) by lra. rewrite (exp_shift g u1 u2) by auto.
  pose proof (exp_pos (- g / u1)) as P.
  assert (I : 0 < / u1 - / u2) by (pose proof (Rinv_lt_contravar u1 u2 ltac:(nra) B); lra).
  assert (K : u1 < u2 * exp (g * (/ u1 - / u2))); [|nra].
  assert (L : u1 / u2 - 1 <= g * (/ u1 - / u2)).
  { replace (u1 / u2 - 1) with (- u1 * (/ u1 - / u2)) by (field; lra). apply Rmult_le_compat_r; lra. }
  assert (N : u1 / u2 - 1 <> 0).
  { intro Z. assert (u1 = u2); [|lra]. apply (f_equal (fun x => x * u2)) in Z. field_simplify in Z; lra. }
  pose proof (exp_ineq1 _ N) as M.
  assert (W : u1 / u2 < exp (g * (/ u1 - / u2))).
  { destruct L as [L|L]; [apply exp_increasing in L; lra|rewrite <- L; lra]. }
  apply (Rmult_lt_compat_l u2) in W; auto. replace (u2 * (u1 / u2)) with u1 in W by (field; lra). exact W.
Qed.

Lemma arr_down g u1 u2 : 0 < u1 -> u1 < u2 -> u2 <= - g -> u2 * exp (- g / u2) < u1 * exp (- g / u1).
Proof.
  intros A B C. assert (D : 0 < u2) by lra. rewrite (exp_shift g u2 u1) by auto.
  pose proof (exp_pos (- g / u2)) as P.
  assert (I : / u2 - / u1 < 0) by (pose proof (Rinv_lt_contravar u1 u2 ltac:(nra) B); lra).
  assert (K : u2 < u1 * exp (g * (/ u2 - / u1))); [|nra].
  assert (L : u2 / u1 - 1 <= g * (/ u2 - / u1)).
  { replace (u2 / u1 - 1) with (- u2 * (/ u2 - / u1)) by (field; lra). nra. }
  assert (N : u2 / u1 - 1 <> 0).
  { intro Z. assert (u1 = u2); [|lra]. apply (f_equal (fun x => x * u1)) in Z. field_simplify in Z; lra. }
  pose proof (exp_ineq1 _ N) as M.
  assert (W : u2 / u1 < exp (g * (/ u2 - / u1))).
  { destruct L as [L|L]; [apply exp_increasing in L; lra|rewrite <- L; lra]. }
  apply (Rmult_lt_compat_l u1) in W; auto. replace (u1 * (u2 / u1)) with u2 in W by (field; lra). exact W.
Qed.

Lemma kT_lt T1 T2 : T1 < T2 -> kT T1 < kT T2.
Proof. intro H. unfold kT. apply Rmult_lt_compat_l; auto. apply kB_eV_pos. Qed.

Lemma tst_heating Ga T1 T2 : 0 < T1 -> T1 < T2 -> exists k1 k2, kTST Ga T1 = Ok k1 /\ kTST Ga T2 = Ok k2 /\
  (- Ga <= kT T1 -> k1 < k2) /\ (kT T2 <= - Ga -> k2 < k1).
Proof.
  intros A B. pose proof (kT_pos T1 A) as K1. pose proof (kT_lt _ _ B) as K2. pose proof h_eV_pos as Hh.
  do 2 eexists. split; [now apply kTST_value|]. split; [apply kTST_value; lra|].
  assert (E : forall T, frequency T * exp (- Ga / kT T) = / h_eV * (kT T * exp (- Ga / kT T))).
  { intro T. unfold frequency, Rdiv. ring. }
  rewrite !E. pose proof (Rinv_0_lt_compat _ Hh).
  split; intro C; (apply Rmult_lt_compat_l; [auto|]); [now apply arr_up|now apply arr_down].
Qed.

Lemma tst_attempts Ga T : 0 < T -> exists k, kTST Ga T = Ok k /\ (k <= kB_eV * T / h_eV <-> 0 <= Ga).
Proof.
  intro A. pose proof (kT_pos T A) as K. pose proof (frequency_pos T A) as F.
  eexists. split; [now apply kTST_value|]. change (kB_eV * T / h_eV) with (frequency T).
  assert (E : frequency T * exp (- Ga / kT T) <= frequency T <-> exp (- Ga / kT T) <= 1).
  { split; intro H; [apply (Rmult_le_reg_l (frequency T)); lra|nra]. }
  rewrite E. rewrite <- exp_0. split; intro H.
  - destruct (Rlt_dec Ga 0) as [N|N]; [|lra]. exfalso.
    assert (0 < - Ga / kT T) by (apply Rdiv_lt_0_compat; lra). pose proof (exp_increasing _ _ H0). lra.
  - destruct H as [H|<-].
    + left. apply exp_increasing. unfold Rdiv. pose proof (Rinv_0_lt_compat _ K). nra.
    + right. f_equal. unfold Rdiv. ring.
Qed.

Lemma tst_apparent Ga T k : 0 < T -> (forall t, 0 < t -> kTST Ga t = Ok (k t)) ->
  derivable_pt_lim k T (k T * ((Ga + kT T) / (kT T * T))).
Proof.
  intros A E. pose proof (kT_pos T A) as K. pose proof h_eV_pos as Hh. pose proof kB_eV_pos as Kb.
  assert (V : forall t, 0 < t -> k t = frequency t * exp (- Ga / kT t)).
  { intros t Ht. specialize (E t Ht). rewrite kTST_value in E by auto. congruence. }
  assert (D : derivable_pt_lim (fun t => (kB_eV / h_eV) * t * exp ((- Ga / kB_eV) * / t)) T
                (k T * ((Ga + kT T) / (kT T * T)))).
  { rewrite (V T A). eapply d_eq; [|apply d_mult; [apply d_scal, d_id|]].
    2: { apply (d_comp (fun t => (- Ga / kB_eV) * / t) exp); [apply d_scal, d_inv; lra|apply derivable_pt_lim_exp]. }
    cbv beta. replace (- Ga / kB_eV * / T) with (- Ga / kT T) by (unfold kT; field; lra).
    generalize (exp (- Ga / kT T)). intro ex. unfold frequency, kT. field. lra. }
  intros eps He. destruct (D eps He) as [d Hd].
  assert (M : 0 < Rmin d (T / 2)) by (apply Rmin_pos; [apply cond_pos|lra]).
  exists (mkposreal _ M). intros h Hh0 Hl. cbn in Hl.
  assert (L1 : Rabs h < d) by (eapply Rlt_le_trans; [exact Hl|apply Rmin_l]).
  assert (L2 : Rabs h < T / 2) by (eapply Rlt_le_trans; [exact Hl|apply Rmin_r]).
  apply Rabs_def2 in L2. specialize (Hd h Hh0 L1).
  assert (W : forall t, 0 < t -> (kB_eV / h_eV) * t * exp ((- Ga / kB_eV) * / t) = k t).
  { intros t Ht. rewrite V by auto. unfold frequency, kT. f_equal; [field; lra|f_equal; field; lra]. }
  rewrite (W T A), (W (T + h)) in Hd by lra. exact Hd.
Qed.

Lemma vant_hoff o e r gaf gar dg T1 T2 : 0 < T1 -> T1 < T2 -> energies_of o r e gaf gar dg -> gaf - gar = dg ->
  exists f1 r1 f2 r2, rates_TST (heated o T1) e r false = Ok (f1, r1) /\
    rates_TST (heated o T2) e r false = Ok (f2, r2) /\
    (f1 / r1 < f2 / r2 <-> 0 < dg) /\ (f1 / r1 = f2 / r2 <-> dg = 0).
Proof.
  intros A B E C.
  destruct (detailed_balance (heated o T1) e r gaf gar dg A E C) as (f1 & r1 & R1 & F1 & P1 & Q1).
  destruct (detailed_balance (heated o T2) e r gaf gar dg ltac:(cbn [o_T heated]; lra) E C) as (f2 & r2 & R2 & F2 & P2 & Q2).
  exists f1, r1, f2, r2. split; [exact R1|]. split; [exact R2|]. rewrite Q1, Q2. cbn [o_T heated].
  pose proof (kT_pos T1 A) as K1. pose proof (kT_lt _ _ B) as K2.
  pose proof (Rinv_lt_contravar (kT T1) (kT T2) ltac:(nra) K2) as I. unfold Rdiv. split; split; intro H.
  - apply exp_lt_inv in H. nra.
  - apply exp_increasing. nra.
  - apply exp_inv in H. nra.
  - subst dg. rewrite H. f_equal. ring.
Qed.

(** Collision theory: as the root of [u exp (2 E / u)], in the denominator. *)
Lemma ct_form Ea A ar m T p f : 0 < T -> 0 < m -> ar <= 1 -> f <= 1 ->
  kCT Ea A ar m T p f =
  Ok (f * ar * (p * A) / sqrt (2 * PI * m * kB_J / kB_eV * (kT T * exp (- (- (2 * Ea)) / kT T)))).
Proof.
  intros HT Hm Ha Hf. rewrite kCT_value by auto. f_equal.
  pose proof (kT_pos T HT) as K. pose proof kB_J_pos as KJ. pose proof kB_eV_pos as KE. pose proof PI_RGT_0 as PI0.
  assert (C : 0 < 2 * PI * m * kB_J * T).
  { apply Rmult_lt_0_compat; [|auto]. apply Rmult_lt_0_compat; [|auto]. apply Rmult_lt_0_compat; [lra|auto]. }
  assert (E : 2 * PI * m * kB_J / kB_eV * (kT T * exp (- - (2 * Ea) / kT T))
              = 2 * PI * m * kB_J * T * (exp (Ea / kT T) * exp (Ea / kT T))).
  { rewrite <- exp_plus. replace (- - (2 * Ea) / kT T) with (Ea / kT T + Ea / kT T) by (field; lra).
    unfold kT. field. lra. }
  rewrite E, (sqrt_mult_alt (2 * PI * m * kB_J * T)) by (left; exact C). rewrite sqrt_square by (left; apply exp_pos).
  replace (exp (- Ea / kT T)) with (/ exp (Ea / kT T)).
  2: { rewrite <- exp_Ropp. f_equal. field. lra. }
  pose proof (exp_pos (Ea / kT T)). pose proof (sqrt_lt_R0 _ C). field. lra.
Qed.

Lemma ct_heating Ea A ar m p f T1 T2 : 0 < T1 -> T1 < T2 -> 0 < m -> 0 < ar <= 1 -> 0 < f <= 1 -> 0 < p -> 0 < A ->
  exists k1 k2, kCT Ea A ar m T1 p f = Ok k1 /\ kCT Ea A ar m T2 p f = Ok k2 /\
    (2 * Ea <= kT T1 -> k2 < k1) /\ (kT T2 <= 2 * Ea -> k1 < k2).
Proof.
  intros H1 H2 Hm Ha Hf Hp HA. do 2 eexists.
  split; [apply ct_form; lra|]. split; [apply ct_form; lra|].
  pose proof (kT_pos T1 H1) as K1. pose proof (kT_lt _ _ H2) as K2.
  pose proof kB_J_pos as KJ. pose proof kB_eV_pos as KE. pose proof PI_RGT_0 as PI0.
  assert (C : 0 < 2 * PI * m * kB_J / kB_eV).
  { apply Rdiv_lt_0_compat; [|auto]. apply Rmult_lt_0_compat; [|auto]. apply Rmult_lt_0_compat; [lra|auto]. }
  assert (N : 0 < f * ar * (p * A)).
  { apply Rmult_lt_0_compat; apply Rmult_lt_0_compat; lra. }
  assert (G : forall a b, 0 < a -> a < b -> f * ar * (p * A) / sqrt (2 * PI * m * kB_J / kB_eV * b)
                                         < f * ar * (p * A) / sqrt (2 * PI * m * kB_J / kB_eV * a)).
  { intros a b P L. apply Rmult_lt_compat_l; auto.
    assert (X : 0 < 2 * PI * m * kB_J / kB_eV * a) by now apply Rmult_lt_0_compat.
    assert (Y : 2 * PI * m * kB_J / kB_eV * a < 2 * PI * m * kB_J / kB_eV * b) by now apply Rmult_lt_compat_l.
    apply Rinv_lt_contravar.
    - apply Rmult_lt_0_compat; apply sqrt_lt_R0; lra.
    - apply sqrt_lt_1; lra. }
  split; intro Q; apply G.
  - apply Rmult_lt_0_compat; [auto|apply exp_pos].
  - apply arr_up; lra.
  - apply Rmult_lt_0_compat; [lra|apply exp_pos].
  - apply arr_down; lra.
Qed.

(** ** Both directions of writing, collision theory *)
Lemma ct_directions ec o e1 e2 r1 r2 first last mid g m p c gaf gar incl :
  0 < o_T o -> 0 < o_Auc o -> o_corrector_str o = false -> 0 < o_act_ratio o <= 1 ->
  energies_of o r1 e1 gaf gar (gaf - gar) -> energies_of o r2 e2 gar gaf (gar - gaf) ->
  rxn_formula_list e1 = Ok (first :: mid ++ [last]) -> rxn_formula_list e2 = Ok (last :: mid ++ [first]) ->
  first_gas first = Some g -> first_gas last = None -> molecular_mass (f_species g) true = Ok m -> 0 < Q2R m ->
  gas_pressure o incl (f_text g) = Ok p -> 0 < p -> ec (f_text g) (Q2R m) p (o_T o) = Ok c ->
  exists f1 b1 f2 b2, rates_CT ec o e1 r1 incl = Ok (f1, b1) /\ rates_CT ec o e2 r2 incl = Ok (f2, b2) /\
    0 < f1 /\ 0 < b1 /\ 0 < f2 /\ 0 < b2 /\
    b2 / f2 <= f1 / b1 /\
    (f1 / b1 = b2 / f2 <-> f1 * f2 <= frequency (o_T o) * b2).
Proof.
  intros HT HA HC Ha E1 E2 L1 L2 G1 G2 M Mp P Pp EC.
  assert (LL : forall x : list formula, llast (x :: mid ++ [last]) = Ok last /\ llast (x :: mid ++ [first]) = Ok first).
  { intro x. split.
    - change (x :: mid ++ [last]) with ((x :: mid) ++ [last]). apply llast_app.
    - change (x :: mid ++ [first]) with ((x :: mid) ++ [first]). apply llast_app. }
  destruct (rates_CT_adsorption ec o e1 r1 _ first last g m p c gaf gar (gaf - gar) incl HT HA HC Ha E1 L1 eq_refl
    (proj1 (LL first)) G1 M Mp P Pp EC) as (f1 & b1 & R1 & _ & F1 & B1).
  destruct (rates_CT_desorption ec o e2 r2 _ last first g m p c gar gaf (gar - gaf) incl HT HA HC E2 L2 eq_refl
    (proj2 (LL last)) G2 G1 M P EC) as (f2 & b2 & R2 & F2 & B2 & Q).
  rewrite kTST_value in F2, B2 by auto. injection F2 as F2. injection B2 as B2.
  pose proof (frequency_pos _ HT) as Fr. pose proof (kT_pos _ HT) as K.
  assert (F2p : 0 < f2) by (rewrite <- F2; apply Rmult_lt_0_compat; [auto|apply exp_pos]).
  assert (B2p : 0 < b2) by (rewrite <- B2; apply Rmult_lt_0_compat; [auto|apply exp_pos]).
  exists f1, b1, f2, b2. split; [exact R1|]. split; [exact R2|]. split; [exact F1|].
  assert (X : exp ((gaf - gar - IZR (f_stoich g) * c) / kT (o_T o)) = f2 / b2).
  { rewrite Q. f_equal. field. lra. }
  rewrite X in B1.
  assert (Y : 0 < f1 * (f2 / b2)) by (apply Rmult_lt_0_compat; [auto|now apply Rdiv_lt_0_compat]).
  assert (B1p : 0 < b1) by (rewrite B1; apply Rmin_pos; lra).
  split; [exact B1p|]. split; [exact F2p|]. split; [exact B2p|].
  assert (Z : forall x, 0 < x -> (f1 / x = b2 / f2 <-> x = f1 * (f2 / b2))).
  { intros x Hx. split; intro H.
    - assert (J : f1 = b2 / f2 * x) by (rewrite <- H; field; lra). rewrite J. field. lra.
    - rewrite H. field. lra. }
  assert (W : f1 * f2 <= frequency (o_T o) * b2 <-> f1 * (f2 / b2) <= frequency (o_T o)).
  { replace (f1 * (f2 / b2)) with (f1 * f2 / b2) by (field; lra). split; intro H.
    - apply (Rmult_le_reg_r b2); auto. replace (f1 * f2 / b2 * b2) with (f1 * f2) by (field; lra). exact H.
    - apply (Rmult_le_compat_r b2) in H; [|lra]. replace (f1 * f2 / b2 * b2) with (f1 * f2) in H by (field; lra). exact H. }
  split.
  - assert (L : b1 <= f1 * (f2 / b2)) by (rewrite B1; apply Rmin_r).
    replace (b2 / f2) with (f1 / (f1 * (f2 / b2))) by (field; lra).
    apply Rmult_le_compat_l; [lra|]. now apply Rinv_le_contravar.
  - rewrite W, Z by auto. rewrite B1. unfold Rmin. destruct (Rle_dec _ _); split; intro H; lra.
Qed.

Definition two_owner : owner :=
  {| o_T := 300; o_pressures := []; o_rxns := [co_rxn; L "CO_s -> CO_g + *_s"];
     o_rxns_list := []; o_Auc := 9e-20; o_act_ratio := 1; o_corrector_str := false |}.
Definition two_energies (dg : R) : rel_energies :=
  {| r_Gaf := [0; - dg]; r_Gar := [- dg; 0]; r_dG := [dg; - dg] |}.

Lemma two_parsed : exists a b c m,
  rxn_formula_list co_rxn = Ok ([a; b] :: [] ++ [[c]]) /\
  rxn_formula_list (L "CO_s -> CO_g + *_s") = Ok ([c] :: [] ++ [[a; b]]) /\
  first_gas [a; b] = Some a /\ first_gas [c] = None /\ f_stoich a = 1%Z /\
  molecular_mass (f_species a) true = Ok m /\
  (1 # 100000000000000000000000000 < m)%Q /\ (m < 1 # 10000000000000000000000000)%Q.
Proof. do 4 eexists. split; [vm_compute; reflexivity|]. split; [vm_compute; reflexivity|].
  split; [reflexivity|]. split; [reflexivity|]. split; [reflexivity|]. split; [vm_compute; reflexivity|].
  split; reflexivity. Qed.

Lemma two_bounds m : 1e-26 < m -> m < 1e-25 -> exists F, kCT 0 9e-20 1 m 300 P0 1 = Ok F /\ 5e7 < F /\ F < 1e9.
Proof.
  intros A B. eexists. split; [apply kCT_value; lra|].
  replace (- 0 / kT 300) with 0 by (unfold kT; field; pose proof kB_eV_pos; lra). rewrite exp_0.
  assert (X : 2 * PI * m * kB_J * 300 = m * (600 * PI * kB_J)) by ring.
  pose proof PI_RGT_0 as P0'. pose proof PI_4 as P4. pose proof PI2_3_2 as P3.
  assert (L : 1.5e-23 < sqrt (2 * PI * m * kB_J * 300) < 1.5e-22).
  { split.
    - rewrite <- (sqrt_square 1.5e-23) by lra. apply sqrt_lt_1; [lra| |]; rewrite X; unfold kB_J in *; [nra|].
      apply Rlt_trans with (1e-26 * (600 * PI * 1.38064852e-23)); [lra|]. apply Rmult_lt_compat_r; lra.
    - rewrite <- (sqrt_square 1.5e-22) by lra. apply sqrt_lt_1; [|lra|]; rewrite X; unfold kB_J in *; [nra|].
      apply Rlt_trans with (1e-25 * (600 * PI * 1.38064852e-23)); [apply Rmult_lt_compat_r; lra|lra]. }
  remember (sqrt (2 * PI * m * kB_J * 300)) as q. destruct L as [L1 L2]. unfold P0.
  split.
  - apply Rmult_lt_reg_r with q; [lra|]. replace (1 * 1 * 1 * (101325 * 9e-20) / q * q) with (101325 * 9e-20) by (field; lra). lra.
  - apply Rmult_lt_reg_r with q; [lra|]. replace (1 * 1 * 1 * (101325 * 9e-20) / q * q) with (101325 * 9e-20) by (field; lra). lra.
Qed.

Lemma two_energies_of dg : energies_of two_owner (two_energies dg) co_rxn 0 (- dg) (0 - - dg) /\
  energies_of two_owner (two_energies dg) (L "CO_s -> CO_g + *_s") (- dg) 0 (- dg - 0).
Proof.
  split.
  - exists 0%nat. split; [reflexivity|]. split; [intros; lia|]. repeat split. cbn. f_equal. ring.
  - exists 1%nat. split; [reflexivity|]. split; [intros j Hj; assert (j = 0)%nat as -> by lia; discriminate|].
    repeat split. cbn. f_equal. ring.
Qed.

Lemma two_rates c : exists f1 b1 f2 b2,
  rates_CT (fun _ _ _ _ => Ok c) two_owner co_rxn (two_energies 0) false = Ok (f1, b1) /\
  rates_CT (fun _ _ _ _ => Ok c) two_owner (L "CO_s -> CO_g + *_s") (two_energies 0) false = Ok (f2, b2) /\
  0 < f1 /\ 0 < b1 /\ 0 < f2 /\ 0 < b2 /\ b2 / f2 <= f1 / b1 /\
  (f1 / b1 = b2 / f2 <-> f1 * f2 <= frequency 300 * b2) /\ 5e7 < f1 < 1e9 /\
  f2 = frequency 300 /\ b2 = frequency 300 * exp (c / kT 300).
Proof.
  destruct two_parsed as (a & b & x & m & L1 & L2 & G1 & G2 & N & M & M1 & M2).
  destruct (two_energies_of 0) as [E1 E2].
  apply Qlt_Rlt in M1. apply Qlt_Rlt in M2. 
  assert (Q1 : Q2R (1 # 100000000000000000000000000) = 1e-26) by (unfold Q2R; cbn [Qnum Qden]; lra).
  assert (Q2 : Q2R (1 # 10000000000000000000000000) = 1e-25) by (unfold Q2R; cbn [Qnum Qden]; lra).
  rewrite Q1 in M1. rewrite Q2 in M2.
  assert (MM : 0 < Q2R m) by lra.
  destruct (ct_directions (fun _ _ _ _ => Ok c) two_owner co_rxn (L "CO_s -> CO_g + *_s") (two_energies 0) (two_energies 0)
    [a; b] [x] [] a m P0 c 0 (- 0) false ltac:(cbn [o_T o_Auc o_act_ratio two_owner]; lra) ltac:(cbn [o_T o_Auc o_act_ratio two_owner]; lra) eq_refl ltac:(cbn [o_T o_Auc o_act_ratio two_owner]; lra) E1 E2 L1 L2 G1 G2 M
    MM eq_refl P0_pos eq_refl) as (f1 & b1 & f2 & b2 & R1 & R2 & F1 & B1 & F2 & B2 & Le & Iff).
  destruct (rates_CT_adsorption (fun _ _ _ _ => Ok c) two_owner co_rxn (two_energies 0) _ [a; b] [x] a m P0 c 0 (- 0) (0 - - 0) false
    ltac:(cbn [o_T o_Auc o_act_ratio two_owner]; lra) ltac:(cbn [o_T o_Auc o_act_ratio two_owner]; lra) eq_refl ltac:(cbn [o_T o_Auc o_act_ratio two_owner]; lra) E1 L1 eq_refl eq_refl G1 M MM eq_refl P0_pos eq_refl)
    as (f1' & b1' & R1' & K1 & _).
  destruct (rates_CT_desorption (fun _ _ _ _ => Ok c) two_owner (L "CO_s -> CO_g + *_s") (two_energies 0) _ [x] [a; b] a m P0 c (- 0) 0 (- 0 - 0) false
    ltac:(cbn [o_T o_Auc o_act_ratio two_owner]; lra) ltac:(cbn [o_T o_Auc o_act_ratio two_owner]; lra) eq_refl E2 L2 eq_refl eq_refl G2 G1 M eq_refl eq_refl)
    as (f2' & b2' & R2' & K2 & K3 & _).
  rewrite R1 in R1'. injection R1' as <- <-. rewrite R2 in R2'. injection R2' as <- <-.
  exists f1, b1, f2, b2. repeat (split; [assumption|]).
  destruct (two_bounds (Q2R m) M1 M2) as (F & K4 & K5 & K6). cbn [o_Auc o_act_ratio o_T two_owner] in *.
  rewrite K4 in K1. injection K1 as ->. split; [lra|].
  rewrite kTST_value in K2, K3 by lra. injection K2 as <-. injection K3 as <-. rewrite N.
  split.
  - replace (- - 0 / kT 300) with 0 by (unfold kT; field; pose proof kB_eV_pos; lra). rewrite exp_0. ring.
  - f_equal. f_equal. unfold Rdiv. ring.
Qed.

Lemma frequency_300 : 6e12 < frequency 300 < 7e12.
Proof. unfold frequency, kT, kB_eV, h_eV. split; lra. Qed.

Lemma constants_differ : exists ec o e1 e2 r f1 b1 f2 b2,
  rates_CT ec o e1 r false = Ok (f1, b1) /\ rates_CT ec o e2 r false = Ok (f2, b2) /\
  e1 = co_rxn /\ e2 = L "CO_s -> CO_g + *_s" /\ f1 / b1 = b2 / f2 /\ 1000 * f1 < b2.
Proof.
  destruct (two_rates 0) as (f1 & b1 & f2 & b2 & R1 & R2 & F1 & B1 & F2 & B2 & Le & Iff & Bd & V1 & V2).
  exists (fun _ _ _ _ => Ok 0), two_owner, co_rxn, (L "CO_s -> CO_g + *_s"), (two_energies 0), f1, b1, f2, b2.
  repeat (split; [first [assumption|reflexivity]|]). pose proof frequency_300 as Fr.
  replace (0 / kT 300) with 0 in V2 by (unfold kT; field; pose proof kB_eV_pos; lra). rewrite exp_0, Rmult_1_r in V2.
  split; [apply Iff; rewrite V1, V2; nra|lra].
Qed.

Lemma cap_breaks : exists ec o e1 e2 r f1 b1 f2 b2,
  rates_CT ec o e1 r false = Ok (f1, b1) /\ rates_CT ec o e2 r false = Ok (f2, b2) /\
  e1 = co_rxn /\ e2 = L "CO_s -> CO_g + *_s" /\ f1 / b1 <> b2 / f2.
Proof.
  destruct (two_rates (-1)) as (f1 & b1 & f2 & b2 & R1 & R2 & F1 & B1 & F2 & B2 & Le & Iff & Bd & V1 & V2).
  exists (fun _ _ _ _ => Ok (-1)), two_owner, co_rxn, (L "CO_s -> CO_g + *_s"), (two_energies 0), f1, b1, f2, b2.
  repeat (split; [first [assumption|reflexivity]|]). pose proof frequency_300 as Fr.
  intro H. apply Iff in H. rewrite V1, V2 in H.
  assert (E : exp (-1 / kT 300) < 1e-6).
  { replace (-1 / kT 300) with (- (1 / kT 300)) by (unfold kT; field; pose proof kB_eV_pos; lra).
    rewrite exp_Ropp. rewrite <- (Rinv_involutive 1e-6) by lra. apply Rinv_lt_contravar.
    - apply Rmult_lt_0_compat; [lra|apply exp_pos].
    - assert (G : 38 < 1 / kT 300) by (unfold kT, kB_eV; lra). apply exp_increasing in G.
      eapply Rlt_trans; [|exact G].
      replace 38 with (4.75 + 4.75 + 4.75 + 4.75 + 4.75 + 4.75 + 4.75 + 4.75) by lra. rewrite !exp_plus.
      pose proof (exp_ineq1 4.75 ltac:(lra)) as X. set (y := exp 4.75) in *.
      assert (X2 : 33 < y * y) by nra. assert (X4 : 1089 < (y * y) * (y * y)) by nra.
      assert (X8 : 1185921 < ((y * y) * (y * y)) * ((y * y) * (y * y))) by nra.
      replace (y * y * y * y * y * y * y * y) with (((y * y) * (y * y)) * ((y * y) * (y * y))) by ring. lra. }
  assert (f1 <= frequency 300 * exp (-1 / kT 300)); [|pose proof (exp_pos (-1 / kT 300)); nra].
  apply Rmult_le_reg_r with (frequency 300); [lra|]. rewrite (Rmult_comm _ (frequency 300)) at 1.
  nra.
Qed.

Lemma tst_directions o e1 e2 r1 r2 gaf gar : 0 < o_T o ->
  energies_of o r1 e1 gaf gar (gaf - gar) -> energies_of o r2 e2 gar gaf (gar - gaf) ->
  exists f b, rates_TST o e1 r1 false = Ok (f, b) /\ rates_TST o e2 r2 false = Ok (b, f).
Proof. intros HT E1 E2. do 2 eexists. split; eapply rates_TST_plain; eauto. Qed.

Lemma two_example : exists a b c m,
  rxn_formula_list co_rxn = Ok ([a; b] :: [] ++ [[c]]) /\
  rxn_formula_list (L "CO_s -> CO_g + *_s") = Ok ([c] :: [] ++ [[a; b]]) /\
  first_gas [a; b] = Some a /\ first_gas [c] = None /\ molecular_mass (f_species a) true = Ok m /\ 0 < Q2R m /\
  energies_of two_owner (two_energies 1) co_rxn 0 (- (1)) (0 - - (1)) /\
  energies_of two_owner (two_energies 1) (L "CO_s -> CO_g + *_s") (- (1)) 0 (- (1) - 0).
Proof.
  destruct two_parsed as (a & b & x & m & L1 & L2 & G1 & G2 & N & M & M1 & M2).
  exists a, b, x, m. repeat (split; [assumption|]). split; [|apply two_energies_of].
  apply Qlt_Rlt in M1. assert (0 < Q2R (1 # 100000000000000000000000000)) by (unfold Q2R; cbn [Qnum Qden]; lra). lra.
Qed.
