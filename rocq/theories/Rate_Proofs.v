From Coq Require Import String Ascii List ZArith QArith Qreals Bool Arith Reals Lra Lia.
Import ListNotations.
From Verif Require Import PyBase PyBaseFacts Rxn_Model Rxn_Spec Rxn_Proofs Rxn_Count Rxn_More
  Mol_Model PyReal Energy_Model Energy_Spec Energy_Proofs Thermo_Model Rate_Model Rate_Spec.
Open Scope list_scope.
Open Scope R_scope.

Lemma kB_eV_pos : 0 < kB_eV. Proof. unfold kB_eV. lra. Qed.
Lemma h_eV_pos : 0 < h_eV. Proof. unfold h_eV. lra. Qed.
Lemma kB_J_pos : 0 < kB_J. Proof. unfold kB_J. lra. Qed.
Lemma h_J_pos : 0 < h_J. Proof. unfold h_J. lra. Qed.
Lemma P0_pos : 0 < P0. Proof. unfold P0. lra. Qed.
Lemma kT_pos T : 0 < T -> 0 < kT T.
Proof. intro H. unfold kT. apply Rmult_lt_0_compat; auto. apply kB_eV_pos. Qed.
Lemma frequency_pos T : 0 < T -> 0 < frequency T.
Proof. intro H. unfold frequency. apply Rdiv_lt_0_compat; [now apply kT_pos|apply h_eV_pos]. Qed.

Lemma pydiv_ok x y : y <> 0 -> pydiv x y = Ok (x / y).
Proof. intro H. unfold pydiv. apply Reqb_false in H. now rewrite H. Qed.
Lemma pydiv_zero x : pydiv x 0 = Err ZeroDivisionError.
Proof. unfold pydiv. now rewrite (proj2 (Reqb_true 0 0) eq_refl). Qed.
Lemma pylog_ok x : 0 < x -> pylog x = Ok (ln x).
Proof. intro H. unfold pylog. apply Rleb_false in H. now rewrite H. Qed.
Lemma pylog_err x : x <= 0 -> pylog x = Err ValueError.
Proof. intro H. unfold pylog. apply Rleb_true in H. now rewrite H. Qed.
Lemma pysqrt_ok x : 0 <= x -> pysqrt x = Ok (sqrt x).
Proof. intro H. unfold pysqrt. apply Rltb_false in H. now rewrite H. Qed.

Lemma kTST_value Ga T : 0 < T -> kTST Ga T = Ok (frequency T * exp (- Ga / kT T)).
Proof.
  intro H. pose proof (kT_pos T H). pose proof h_eV_pos. unfold kTST.
  rewrite pydiv_ok by lra. cbn [bind]. rewrite pydiv_ok by (unfold kT in *; lra). reflexivity.
Qed.

Lemma kTST_zero Ga : kTST Ga 0 = Err ZeroDivisionError.
Proof.
  pose proof h_eV_pos. unfold kTST. rewrite pydiv_ok by lra. cbn [bind].
  rewrite Rmult_0_r, pydiv_zero. reflexivity.
Qed.

Lemma kTST_decreasing g1 g2 T : 0 < T ->
  exists k1 k2, kTST g1 T = Ok k1 /\ kTST g2 T = Ok k2 /\ 0 < k1 /\ 0 < k2 /\ (g1 < g2 <-> k2 < k1).
Proof.
  intro H. exists (frequency T * exp (- g1 / kT T)), (frequency T * exp (- g2 / kT T)).
  pose proof (kT_pos T H) as K. pose proof (frequency_pos T H) as F.
  assert (E : forall g, 0 < frequency T * exp (- g / kT T)).
  { intro g. apply Rmult_lt_0_compat; auto. apply exp_pos. }
  repeat split; auto using kTST_value.
  - intro L. apply Rmult_lt_compat_l; auto. apply exp_increasing.
    unfold Rdiv. apply Rmult_lt_compat_r; [now apply Rinv_0_lt_compat|lra].
  - intro L. apply Rmult_lt_reg_l in L; auto. apply exp_lt_inv in L.
    unfold Rdiv in L. apply Rmult_lt_reg_r in L; [lra|now apply Rinv_0_lt_compat].
Qed.

Lemma barrier_value k T : 0 < T -> 0 < k ->
  barrier_from_CT k T = Ok (- ln (k / frequency T) * kT T).
Proof.
  intros H K. pose proof (kT_pos T H). pose proof h_eV_pos. unfold barrier_from_CT.
  rewrite pydiv_ok by (unfold kT in *; lra). cbn [bind]. rewrite pylog_ok.
  - cbn [bind]. replace (k / frequency T) with (k * h_eV / (kB_eV * T)); auto.
    unfold frequency, kT in *. pose proof kB_eV_pos. field. repeat split; lra.
  - apply Rdiv_lt_0_compat; auto. apply Rmult_lt_0_compat; auto.
Qed.

Lemma barrier_nonpos k T : 0 < T -> k <= 0 -> barrier_from_CT k T = Err ValueError.
Proof.
  intros H K. pose proof (kT_pos T H) as P. pose proof h_eV_pos. unfold barrier_from_CT.
  rewrite pydiv_ok by (unfold kT in *; lra). cbn [bind]. rewrite pylog_err; auto.
  unfold kT in P. unfold Rdiv.
  assert (I : 0 < / (kB_eV * T)) by now apply Rinv_0_lt_compat.
  assert (J : k * h_eV <= 0) by (rewrite <- (Rmult_0_l h_eV); apply Rmult_le_compat_r; lra).
  rewrite <- (Rmult_0_l (/ (kB_eV * T))). apply Rmult_le_compat_r; lra.
Qed.

Lemma barrier_of_kTST Ga T : 0 < T ->
  exists k, kTST Ga T = Ok k /\ barrier_from_CT k T = Ok Ga.
Proof.
  intro H. pose proof (kT_pos T H) as K. pose proof (frequency_pos T H) as F.
  eexists. split; [now apply kTST_value|]. rewrite barrier_value; auto.
  - f_equal. replace (frequency T * exp (- Ga / kT T) / frequency T) with (exp (- Ga / kT T)) by (field; lra).
    rewrite ln_exp. field. lra.
  - apply Rmult_lt_0_compat; auto. apply exp_pos.
Qed.

Lemma kTST_of_barrier k T : 0 < T -> 0 < k ->
  exists Ga, barrier_from_CT k T = Ok Ga /\ kTST Ga T = Ok k.
Proof.
  intros H K. pose proof (kT_pos T H) as P. pose proof (frequency_pos T H) as F.
  eexists. split; [now apply barrier_value|]. rewrite kTST_value; auto. f_equal.
  replace (- (- ln (k / frequency T) * kT T) / kT T) with (ln (k / frequency T)) by (field; lra).
  rewrite exp_ln; [field; lra|]. now apply Rdiv_lt_0_compat.
Qed.

(** ** Energies of one reaction *)
Lemma rel_get_entry r i a b c : rel_get r i = Ok (a, b, c) <-> entry r i a b c.
Proof.
  unfold rel_get, entry, lindex. split.
  - destruct (nth_error (r_Gaf r) i) as [x|]; cbn [bind]; [|discriminate].
    destruct (nth_error (r_Gar r) i) as [y|]; cbn [bind]; [|discriminate].
    destruct (nth_error (r_dG r) i) as [z|]; cbn [bind]; [|discriminate]. intro H. injection H as <- <- <-. auto.
  - intros (-> & -> & ->). reflexivity.
Qed.

Lemma index_of_first e l i : index_of e l = Some i <->
  nth_error l i = Some e /\ forall j, (j < i)%nat -> nth_error l j <> Some e.
Proof.
  revert i. induction l as [|y l IH]; intro i; cbn [index_of].
  - split; [discriminate|]. intros [H _]. destruct i; discriminate.
  - destruct (str_eqb_spec e y) as [->|N].
    + split.
      * intro H; injection H as <-. split; [reflexivity|]. intros j Hj; lia.
      * intros [H1 H2]. destruct i; auto. exfalso. apply (H2 0%nat); [lia|reflexivity].
    + destruct (index_of e l) as [k|]; split.
      * intro H; injection H as <-. destruct (proj1 (IH k) eq_refl) as [A B]. split; auto.
        intros [|j] Hj; cbn; [congruence|]. apply B. lia.
      * intros [H1 H2]. destruct i as [|i]; cbn in H1; [congruence|].
        f_equal. f_equal. cut (Some k = Some i); [congruence|]. apply IH. split; auto. intros j Hj.
        apply (H2 (S j)). lia.
      * discriminate.
      * intros [H1 H2]. destruct i as [|i]; cbn in H1; [congruence|].
        cut (None = Some i); [congruence|]. apply IH. split; auto. intros j Hj. apply (H2 (S j)). lia.
Qed.

Lemma rxn_energies_iff o r e a b c :
  rxn_energies o r e = Ok (a, b, c) <-> energies_of o r e a b c.
Proof.
  unfold rxn_energies, energies_of. destruct (index_of e (o_rxns o)) as [i|] eqn:E.
  - rewrite rel_get_entry. pose proof (proj1 (index_of_first _ _ _) E) as [E1 E2]. split.
    + intro H. exists i. auto.
    + intros (j & J1 & J2 & H).
      assert (index_of e (o_rxns o) = Some j) by (apply index_of_first; auto).
      congruence.
  - split; [discriminate|]. intros (j & J1 & J2 & H).
    assert (index_of e (o_rxns o) = Some j) by (apply index_of_first; auto). congruence.
Qed.

Lemma rates_TST_plain o e r a b c : 0 < o_T o -> energies_of o r e a b c ->
  rates_TST o e r false
  = Ok (frequency (o_T o) * exp (- a / kT (o_T o)), frequency (o_T o) * exp (- b / kT (o_T o))).
Proof.
  intros H E. apply rxn_energies_iff in E. unfold rates_TST. rewrite E. cbn [bind].
  rewrite !kTST_value by auto. reflexivity.
Qed.

Lemma exp_ratio F a b t : 0 < F -> t <> 0 ->
  F * exp (- a / t) / (F * exp (- b / t)) = exp (- (a - b) / t).
Proof.
  intros HF Ht. replace (- (a - b) / t) with (- a / t - (- b / t)) by (field; auto).
  unfold Rminus. rewrite exp_plus, exp_Ropp. field. split; [apply Rgt_not_eq, exp_pos|lra].
Qed.

Lemma detailed_balance o e r a b c : 0 < o_T o -> energies_of o r e a b c -> a - b = c ->
  exists rf rr, rates_TST o e r false = Ok (rf, rr) /\ 0 < rf /\ 0 < rr /\
    rf / rr = exp (- c / kT (o_T o)).
Proof.
  intros H E D. pose proof (kT_pos _ H). pose proof (frequency_pos _ H).
  do 2 eexists. split; [eapply rates_TST_plain; eauto|].
  split; [|split].
  1,2: apply Rmult_lt_0_compat; auto; apply exp_pos.
  rewrite exp_ratio by lra. now rewrite D.
Qed.

Lemma entry_fun r i a b c a' b' c' : entry r i a b c -> entry r i a' b' c' -> a = a' /\ b = b' /\ c = c'.
Proof. unfold entry. intros (A & B & C) (A' & B' & C'). repeat split; congruence. Qed.

(** From absolute energies. *)
Lemma balance_absolute o ed r e a b c : 0 < o_T o ->
  relative_from_absolute true ed (o_rxns o) = Ok r ->
  energies_of o r e a b c ->
  exists rf rr, rates_TST o e r false = Ok (rf, rr) /\ 0 < rf /\ 0 < rr /\
    rf / rr = exp (- c / kT (o_T o)).
Proof.
  intros H A E. apply (detailed_balance _ _ _ _ _ _ H E).
  destruct E as (i & I & _ & En). destruct (relative_from_absolute_entries _ _ _ _ A) as [_ X].
  apply (X i e a b c I) in En. now apply single_consistent in En.
Qed.

(** From relative energies. *)
Lemma balance_relative o file setup st st' r e a b c : 0 < o_T o ->
  rel_parse_data file setup (length (o_rxns o)) st = (st', Ok tt) -> es_rel st' = Some r ->
  energies_of o r e a b c ->
  exists rf rr, rates_TST o e r false = Ok (rf, rr) /\ 0 < rf /\ 0 < rr /\
    rf / rr = exp (- c / kT (o_T o)).
Proof.
  intros H P Hr E. apply (detailed_balance _ _ _ _ _ _ H E).
  destruct E as (i & I & _ & En).
  assert (X : exists d ga dg, (match file with Some f => Some f | None => setup end) = Some d /\
    d_Ga d = Some ga /\ d_dG d = Some dg /\ length ga = length (o_rxns o) /\ length dg = length (o_rxns o)).
  { pose proof (rel_outcome_errors file setup (length (o_rxns o)) st) as Y. rewrite P in Y. cbn [snd] in Y.
    assert (Z : forall d, Ok tt = (if wrong_length (d_Ga d) (length (o_rxns o))
        || wrong_length (d_dG d) (length (o_rxns o)) then Err ValueError
        else match d_Ga d, d_dG d with Some _, Some _ => Ok tt | _, _ => Err KeyError end) ->
      exists ga dg, d_Ga d = Some ga /\ d_dG d = Some dg /\
        length ga = length (o_rxns o) /\ length dg = length (o_rxns o)).
    { intros d. unfold wrong_length. destruct (d_Ga d) as [ga|], (d_dG d) as [dg|]; cbn [orb]; intro Q.
      2,3,4: try discriminate; match type of Q with _ = (if ?c then _ else _) => destruct c end; discriminate.
      exists ga, dg. destruct (Nat.eqb_spec (length ga) (length (o_rxns o)));
      destruct (Nat.eqb_spec (length dg) (length (o_rxns o))); cbn in Q; try discriminate; auto. }
    destruct file as [d|]; [|destruct setup as [d|]]; try discriminate; exists d;
      destruct (Z d Y) as (ga & dg & ?); exists ga, dg; tauto. }
  destruct X as (d & ga & dg & Hd & Hga & Hdg & L1 & L2).
  destruct (rel_outcome file setup _ st ga dg d Hd Hga Hdg L1 L2) as (r' & P' & _ & _ & X).
  rewrite P in P'. injection P' as ->. cbn in Hr. injection Hr as ->.
  assert (Li : (i < length (o_rxns o))%nat) by (apply nth_error_Some; congruence).
  destruct (nth_error ga i) as [g|] eqn:Eg; [|apply nth_error_None in Eg; lia].
  destruct (nth_error dg i) as [x|] eqn:Ex; [|apply nth_error_None in Ex; lia].
  destruct (X i g x Eg Ex) as [X1 X2].
  destruct (Rlt_dec (Rabs g) (1e-10)) as [Q1|Q1]; [destruct (Rlt_dec 0 x) as [Q2|Q2]|].
  - destruct (entry_fun _ _ _ _ _ _ _ _ En (X1 (conj Q1 Q2))) as (-> & -> & ->). lra.
  - destruct (entry_fun _ _ _ _ _ _ _ _ En (X2 ltac:(tauto))) as (-> & -> & ->). lra.
  - destruct (entry_fun _ _ _ _ _ _ _ _ En (X2 ltac:(tauto))) as (-> & -> & ->). lra.
Qed.

(** ** Pressures *)
Lemma gases_filter fs : filter is_gas fs = gases fs.
Proof.
  unfold gases. apply filter_ext. intro f.
  destruct (is_gas f) eqn:E; symmetry.
  - apply str_eqb_eq. now apply is_gas_iff.
  - apply str_eqb_neq. intro X. apply is_gas_iff in X. congruence.
Qed.

Lemma fold_mult l : forall x, fold_left Rmult l x = x * fold_right Rmult 1 l.
Proof.
  induction l as [|y l IH]; intro x; cbn; [ring|]. rewrite IH. ring.
Qed.
Lemma product_fold l : product l = fold_right Rmult 1 l.
Proof. destruct l; cbn; auto. now rewrite fold_mult. Qed.

Lemma pressures_ok o P fs :
  (forall f, In f (gases fs) -> unnumbered f /\
     dget (o_pressures o) (f_species_site f) = Some (Some (P (f_species_site f)))) ->
  exists ps, mapM (fun g => pressure_of o (f_text g)) (filter is_gas fs) = Ok ps /\
    product ps = pressure_factor P fs.
Proof.
  rewrite gases_filter. unfold gases.
  induction fs as [|f fs IH]; cbn [filter pressure_factor]; intro H.
  - exists []. auto.
  - destruct (str_eqb (f_site f) (L "g")) eqn:E.
    + destruct IH as (ps & I1 & I2). { intros g Hg. apply H. now right. }
      destruct (H f (or_introl eq_refl)) as [[U1 U2] D].
      exists (P (f_species_site f) :: ps). cbn [mapM]. split.
      * unfold pressure_of at 1. unfold dindex. rewrite U1, D. cbn [bind]. now rewrite I1.
      * rewrite product_fold in *. cbn [fold_right]. rewrite I2, U2. now rewrite powerRZ_1.
    + now apply IH.
Qed.

Lemma ads_gases e fls f0 : rxn_formula_list e = Ok fls -> lfirst fls = Ok f0 ->
  rxn_adsorption_gases e = Ok (filter is_gas f0).
Proof. intros A B. unfold rxn_adsorption_gases. rewrite A. cbn [bind]. now rewrite B. Qed.
Lemma des_gases e fls f0 : rxn_formula_list e = Ok fls -> llast fls = Ok f0 ->
  rxn_desorption_gases e = Ok (filter is_gas f0).
Proof. intros A B. unfold rxn_desorption_gases. rewrite A. cbn [bind]. now rewrite B. Qed.

Lemma rates_TST_pressure o e r fls f0 f1 P rf rr :
  rates_TST o e r false = Ok (rf, rr) ->
  rxn_formula_list e = Ok fls -> lfirst fls = Ok f0 -> llast fls = Ok f1 ->
  Forall unnumbered (gases f0 ++ gases f1) -> knows_pressures o P [f0; f1] ->
  rates_TST o e r true = Ok (pressure_factor P f0 * rf, pressure_factor P f1 * rr).
Proof.
  intros H F F0 F1 U K. unfold rates_TST in *.
  destruct (rxn_energies o r e) as [[[a b] c]|]; cbn [bind] in *; [|discriminate].
  destruct (kTST a (o_T o)) as [x|]; cbn [bind] in *; [|discriminate].
  destruct (kTST b (o_T o)) as [y|]; cbn [bind] in *; [|discriminate].
  injection H as -> ->.
  rewrite (ads_gases e fls f0 F F0), (des_gases e fls f1 F F1). cbn [bind].
  rewrite Forall_forall in U.
  destruct (pressures_ok o P f0) as (ps & P1 & P2).
  { intros f Hf. split; [apply U, in_or_app; auto|]. apply (K f0); cbn; auto. }
  destruct (pressures_ok o P f1) as (qs & Q1 & Q2).
  { intros f Hf. split; [apply U, in_or_app; auto|]. apply (K f1); cbn; auto. }
  rewrite P1, Q1. cbn [bind]. now rewrite P2, Q2.
Qed.

Lemma mapM_pressure_err o fs f :
  In f fs -> dget (o_pressures o) (f_text f) = None ->
  mapM (fun g => pressure_of o (f_text g)) fs = Err KeyError.
Proof.
  induction fs as [|g fs IH]; intros Hin D; [destruct Hin|]. cbn [mapM].
  destruct Hin as [->|Hin].
  - unfold pressure_of at 1, dindex. rewrite D. reflexivity.
  - unfold pressure_of at 1, dindex. destruct (dget (o_pressures o) (f_text g)) as [[p|]|]; cbn [bind]; auto.
    now rewrite IH.
Qed.

Lemma mapM_pressure_only_key o fs er :
  mapM (fun g => pressure_of o (f_text g)) fs = Err er -> er = KeyError.
Proof.
  induction fs as [|g fs IH]; cbn [mapM]; [discriminate|].
  unfold pressure_of at 1, dindex. destruct (dget (o_pressures o) (f_text g)) as [[p|]|]; cbn [bind]; try congruence.
  destruct (mapM _ fs); cbn [bind] in *; [discriminate|]. intro H. apply IH. congruence.
Qed.

Lemma rates_TST_unknown o e r fls f0 f1 f rf rr :
  rates_TST o e r false = Ok (rf, rr) ->
  rxn_formula_list e = Ok fls -> lfirst fls = Ok f0 -> llast fls = Ok f1 ->
  In f (gases f0 ++ gases f1) -> dget (o_pressures o) (f_text f) = None ->
  rates_TST o e r true = Err KeyError.
Proof.
  intros H F F0 F1 I D. unfold rates_TST in *.
  destruct (rxn_energies o r e) as [[[a b] c]|]; cbn [bind] in *; [|discriminate].
  destruct (kTST a (o_T o)) as [x|]; cbn [bind] in *; [|discriminate].
  destruct (kTST b (o_T o)) as [y|]; cbn [bind] in *; [|discriminate].
  rewrite (ads_gases e fls f0 F F0), (des_gases e fls f1 F F1). cbn [bind].
  rewrite !gases_filter.
  destruct (mapM _ (gases f0)) as [ps|er] eqn:E0; cbn [bind].
  - apply in_app_or in I as [I|I].
    + rewrite (mapM_pressure_err o _ f I D) in E0. discriminate.
    + now rewrite (mapM_pressure_err o _ f I D).
  - now apply mapM_pressure_only_key in E0 as ->.
Qed.

(** ** Collision theory *)
Lemma denom_pos m T : 0 < m -> 0 < T -> 0 < 2 * PI * m * kB_J * T.
Proof.
  intros Hm HT. apply Rmult_lt_0_compat; auto. apply Rmult_lt_0_compat; [|apply kB_J_pos].
  apply Rmult_lt_0_compat; auto. pose proof PI_RGT_0. lra.
Qed.

Lemma kCT_value Ea A ar m T p f : 0 < T -> 0 < m -> ar <= 1 -> f <= 1 ->
  kCT Ea A ar m T p f
  = Ok (f * ar * exp (- Ea / kT T) * (p * A) / sqrt (2 * PI * m * kB_J * T)).
Proof.
  intros HT Hm Ha Hf. unfold kCT.
  rewrite (proj2 (Rltb_false 1 ar)), (proj2 (Rltb_false 1 f)) by auto.
  pose proof (kT_pos T HT). pose proof kB_J_pos. pose proof PI_RGT_0.
  rewrite pydiv_ok by (unfold kT in *; lra). cbn [bind].
  assert (0 < 2 * PI * m * kB_J * T) by (apply denom_pos; lra).
  rewrite pysqrt_ok by lra. cbn [bind]. rewrite pydiv_ok; auto.
  apply Rgt_not_eq. now apply sqrt_lt_R0.
Qed.

Lemma kCT_unphysical Ea A ar m T p f : ar <= 1 -> f <= 1 ->
  (T = 0 -> kCT Ea A ar m T p f = Err ZeroDivisionError) /\
  (T <> 0 -> m = 0 -> kCT Ea A ar m T p f = Err ZeroDivisionError) /\
  (m * T < 0 -> kCT Ea A ar m T p f = Err ValueError).
Proof.
  intros Ha Hf. unfold kCT.
  rewrite (proj2 (Rltb_false 1 ar)), (proj2 (Rltb_false 1 f)) by auto.
  pose proof kB_J_pos. pose proof PI_RGT_0.
  assert (K : 0 < kB_eV) by (unfold kB_eV; lra).
  assert (N : T <> 0 -> kB_eV * T <> 0) by (intros HT; apply Rmult_integral_contrapositive; split; lra).
  split; [|split].
  - intros ->. unfold pydiv at 1. rewrite Rmult_0_r. unfold Reqb. destruct (Req_EM_T 0 0); [reflexivity|lra].
  - intros HT ->. rewrite pydiv_ok by auto. cbn [bind].
    replace (2 * PI * 0 * kB_J * T) with 0 by ring. rewrite pysqrt_ok by lra. rewrite sqrt_0. cbn [bind].
    unfold pydiv, Reqb. destruct (Req_EM_T 0 0); [reflexivity|lra].
  - intros HmT. assert (T <> 0) by (intros ->; lra). rewrite pydiv_ok by auto. cbn [bind].
    unfold pysqrt. rewrite (proj2 (Rltb_true _ 0)); [reflexivity|].
    replace (2 * PI * m * kB_J * T) with (- ((2 * PI * kB_J) * (- (m * T)))) by ring.
    apply Ropp_lt_gt_0_contravar. apply Rmult_lt_0_compat; [|lra]. apply Rmult_lt_0_compat; lra.
Qed.

Lemma kCT_reject Ea A ar m T p f : 1 < ar \/ 1 < f -> kCT Ea A ar m T p f = Err ParameterError.
Proof.
  intros [H|H]; unfold kCT; apply Rltb_true in H; rewrite H; auto. destruct (Rltb 1 ar); auto.
Qed.

Lemma kCT_nonneg Ea A ar m T p f : 0 < T -> 0 < m -> 0 <= ar <= 1 -> 0 <= f <= 1 -> 0 <= p -> 0 <= A ->
  exists k, kCT Ea A ar m T p f = Ok k /\ 0 <= k.
Proof.
  intros HT Hm Ha Hf Hp HA. eexists. split; [apply kCT_value; lra|].
  pose proof kB_J_pos. pose proof PI_RGT_0.
  assert (0 < 2 * PI * m * kB_J * T) by (apply denom_pos; lra).
  assert (0 < sqrt (2 * PI * m * kB_J * T)) by now apply sqrt_lt_R0.
  unfold Rdiv. apply Rmult_le_pos; [|apply Rlt_le; now apply Rinv_0_lt_compat].
  pose proof (exp_pos (- Ea / kT T)).
  repeat apply Rmult_le_pos; lra.
Qed.

Lemma kCT_scale Ea A ar m T p f k a b c d : 0 < T -> 0 < m -> ar <= 1 -> f <= 1 ->
  b * ar <= 1 -> c * f <= 1 ->
  kCT Ea A ar m T p f = Ok k ->
  kCT Ea (d * A) (b * ar) m T (a * p) (c * f) = Ok (a * b * c * d * k).
Proof.
  intros HT Hm Ha Hf Hb Hc H. rewrite kCT_value in H by auto. injection H as <-.
  rewrite kCT_value by auto. f_equal. unfold Rdiv. ring.
Qed.

Lemma kTST_max Ga T k : 0 < T -> 0 <= Ga -> kTST Ga T = Ok k -> k <= frequency T.
Proof.
  intros HT Hg H. rewrite kTST_value in H by auto. injection H as <-.
  pose proof (frequency_pos T HT). pose proof (kT_pos T HT).
  assert (exp (- Ga / kT T) <= 1).
  { rewrite <- exp_0. destruct (Rle_lt_or_eq_dec 0 Ga Hg) as [L|<-].
    - left. apply exp_increasing. unfold Rdiv.
      rewrite <- (Rmult_0_l (/ kT T)). apply Rmult_lt_compat_r; [now apply Rinv_0_lt_compat|lra].
    - right. f_equal. unfold Rdiv. ring. }
  rewrite <- (Rmult_1_r (frequency T)) at 2. apply Rmult_le_compat_l; lra.
Qed.

Lemma first_gas_iff fs f : first_gas fs = Some f <->
  exists before after, fs = before ++ f :: after /\ f_site f = L "g" /\
    forall g, In g before -> f_site g <> L "g".
Proof.
  induction fs as [|x fs IH]; cbn [first_gas].
  - split; [discriminate|]. intros ([|? ?] & after & H & _); discriminate.
  - destruct (is_gas x) eqn:E.
    + split.
      * intro H; injection H as <-. exists [], fs. split; auto. split; [now apply is_gas_iff|]. intros g [].
      * intros ([|y before] & after & H & G & N); injection H as -> ->; auto.
        exfalso. apply is_gas_iff in E. exact (N y (or_introl eq_refl) E).
    + rewrite IH. split.
      * intros (before & after & -> & G & N). exists (x :: before), after. split; auto. split; auto.
        intros g [<-|Hg]; auto. intro X. apply is_gas_iff in X. congruence.
      * intros ([|y before] & after & H & G & N); injection H as -> ->.
        -- exfalso. apply is_gas_iff in G. congruence.
        -- exists before, after. split; auto. split; auto. intros g Hg. apply N. now right.
Qed.

Lemma first_gas_none fs : first_gas fs = None <-> forall f, In f fs -> f_site f <> L "g".
Proof.
  induction fs as [|x fs IH]; cbn [first_gas].
  - split; auto.
  - destruct (is_gas x) eqn:E.
    + split; [discriminate|]. intro H. apply is_gas_iff in E. exfalso. exact (H x (or_introl eq_refl) E).
    + rewrite IH. split.
      * intros H f [<-|Hf]; auto. intro X. apply is_gas_iff in X. congruence.
      * intros H f Hf. apply H. now right.
Qed.

Section CT.
Variable ec : str -> R -> R -> R -> res R.

(** Adsorption: the forward rate is the collision rate, the reverse rate satisfies
    detailed balance unless it is capped at kT/h. *)
Lemma rates_CT_adsorption o e r fls f0 f1 g m p c gaf gar dg incl :
  0 < o_T o -> 0 < o_Auc o -> o_corrector_str o = false -> 0 < o_act_ratio o <= 1 ->
  energies_of o r e gaf gar dg ->
  rxn_formula_list e = Ok fls -> lfirst fls = Ok f0 -> llast fls = Ok f1 ->
  first_gas f0 = Some g -> molecular_mass (f_species g) true = Ok m -> 0 < Q2R m ->
  gas_pressure o incl (f_text g) = Ok p -> 0 < p ->
  ec (f_text g) (Q2R m) p (o_T o) = Ok c ->
  exists rf rr, rates_CT ec o e r incl = Ok (rf, rr) /\
    kCT gaf (o_Auc o) (o_act_ratio o) (Q2R m) (o_T o) p 1 = Ok rf /\ 0 < rf /\
    rr = Rmin (frequency (o_T o)) (rf * exp ((dg - IZR (f_stoich g) * c) / kT (o_T o))).
Proof.
  intros HT HA HC [Hr0 Hr1] E F F0 F1 G M Mp P Pp C. apply rxn_energies_iff in E.
  unfold rates_CT. rewrite E. cbn [bind]. rewrite F. cbn [bind]. rewrite F0, F1. cbn [bind].
  rewrite (proj2 (Rltb_true 0 (o_Auc o)) HA). cbn [negb]. rewrite HC, G, M. cbn [bind].
  rewrite P. cbn [bind].
  pose proof (kCT_value gaf (o_Auc o) (o_act_ratio o) (Q2R m) (o_T o) p 1 HT Mp Hr1 ltac:(lra)) as K.
  set (rf := 1 * o_act_ratio o * exp (- gaf / kT (o_T o)) * (p * o_Auc o) / sqrt (2 * PI * Q2R m * kB_J * o_T o)) in *.
  assert (Rp : 0 < rf).
  { unfold rf. pose proof kB_J_pos. pose proof PI_RGT_0.
    assert (0 < 2 * PI * Q2R m * kB_J * o_T o) by (apply denom_pos; lra).
    apply Rdiv_lt_0_compat; [|now apply sqrt_lt_R0].
    pose proof (exp_pos (- gaf / kT (o_T o))). repeat apply Rmult_lt_0_compat; lra. }
  rewrite K. cbn [bind]. rewrite barrier_value by auto. cbn [bind]. rewrite C. cbn [bind].
  pose proof (kT_pos _ HT) as KT. pose proof (frequency_pos _ HT) as FR.
  set (d := dg - IZR (f_stoich g) * c).
  set (b := - ln (rf / frequency (o_T o)) * kT (o_T o)).
  assert (Eq : forall x, frequency (o_T o) * exp (- (b - x) / kT (o_T o)) = rf * exp (x / kT (o_T o))).
  { intro x. unfold b.
    replace (- (- ln (rf / frequency (o_T o)) * kT (o_T o) - x) / kT (o_T o))
      with (ln (rf / frequency (o_T o)) + x / kT (o_T o)) by (field; lra).
    rewrite exp_plus, exp_ln by (now apply Rdiv_lt_0_compat). field. lra. }
  destruct (Rltb (b - d) 0) eqn:B.
  - apply Rltb_true in B. rewrite kTST_value by auto. cbn [bind].
    exists rf. eexists. split; [reflexivity|]. split; auto. split; auto.
    rewrite <- Eq. replace (- 0 / kT (o_T o)) with 0 by (unfold Rdiv; ring). rewrite exp_0, Rmult_1_r.
    symmetry. apply Rmin_left. rewrite <- (Rmult_1_r (frequency (o_T o))) at 1.
    apply Rmult_le_compat_l; [lra|]. rewrite <- exp_0. left. apply exp_increasing.
    apply Rdiv_lt_0_compat; lra.
  - apply Rltb_false in B. rewrite kTST_value by auto. cbn [bind].
    exists rf. eexists. split; [reflexivity|]. split; auto. split; auto.
    rewrite <- Eq. symmetry. apply Rmin_right.
    apply (kTST_max (b - d) (o_T o)); auto. now apply kTST_value.
Qed.

Lemma rates_CT_desorption o e r fls f0 f1 g m p c gaf gar dg incl :
  0 < o_T o -> 0 < o_Auc o -> o_corrector_str o = false ->
  energies_of o r e gaf gar dg ->
  rxn_formula_list e = Ok fls -> lfirst fls = Ok f0 -> llast fls = Ok f1 ->
  first_gas f0 = None -> first_gas f1 = Some g -> molecular_mass (f_species g) true = Ok m ->
  gas_pressure o incl (f_text g) = Ok p ->
  ec (f_text g) (Q2R m) p (o_T o) = Ok c ->
  exists rf rr, rates_CT ec o e r incl = Ok (rf, rr) /\
    kTST gaf (o_T o) = Ok rf /\ kTST (gar - IZR (f_stoich g) * c) (o_T o) = Ok rr /\
    rf / rr = exp (- ((gaf - gar) + IZR (f_stoich g) * c) / kT (o_T o)).
Proof.
  intros HT HA HC E F F0 F1 G0 G M P C. apply rxn_energies_iff in E.
  unfold rates_CT. rewrite E. cbn [bind]. rewrite F. cbn [bind]. rewrite F0, F1. cbn [bind].
  rewrite (proj2 (Rltb_true 0 (o_Auc o)) HA). cbn [negb]. rewrite HC, G0, G, P. cbn [bind].
  rewrite M. cbn [bind]. rewrite C. cbn [bind].
  rewrite !kTST_value by auto. cbn [bind]. do 2 eexists. split; [reflexivity|]. split; auto. split; auto.
  pose proof (kT_pos _ HT). pose proof (frequency_pos _ HT).
  rewrite exp_ratio by lra. f_equal. f_equal. ring.
Qed.

Lemma rates_CT_surface o e r fls f0 f1 incl :
  0 < o_Auc o -> o_corrector_str o = false ->
  rxn_formula_list e = Ok fls -> lfirst fls = Ok f0 -> llast fls = Ok f1 ->
  first_gas f0 = None -> first_gas f1 = None ->
  rates_CT ec o e r incl = rates_TST o e r false.
Proof.
  intros HA HC F F0 F1 G0 G1. unfold rates_CT, rates_TST.
  destruct (rxn_energies o r e) as [[[a b] c]|]; cbn [bind]; auto.
  rewrite F. cbn [bind]. rewrite F0, F1. cbn [bind].
  rewrite (proj2 (Rltb_true 0 (o_Auc o)) HA). cbn [negb]. rewrite HC, G0, G1. reflexivity.
Qed.

Lemma rates_CT_reject o e r fls f0 f1 gaf gar dg incl :
  energies_of o r e gaf gar dg ->
  rxn_formula_list e = Ok fls -> lfirst fls = Ok f0 -> llast fls = Ok f1 ->
  (o_Auc o <= 0 -> rates_CT ec o e r incl = Err AttributeError) /\
  (0 < o_Auc o -> o_corrector_str o = true -> rates_CT ec o e r incl = Err SetupError).
Proof.
  intros E F F0 F1. apply rxn_energies_iff in E.
  unfold rates_CT. rewrite E. cbn [bind]. rewrite F. cbn [bind]. rewrite F0, F1. cbn [bind]. split.
  - intro HA. now rewrite (proj2 (Rltb_false 0 (o_Auc o)) HA).
  - intros HA HC. now rewrite (proj2 (Rltb_true 0 (o_Auc o)) HA), HC.
Qed.
End CT.

(** A reaction the model does not have. *)
Lemma rates_unknown ec o e r incl : ~ In e (o_rxns o) ->
  rates_TST o e r incl = Err ValueError /\ rates_CT ec o e r incl = Err ValueError.
Proof.
  intro H. apply index_of_None in H. unfold rates_TST, rates_CT, rxn_energies. now rewrite H.
Qed.
