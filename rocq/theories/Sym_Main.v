(** Proofs about the symbolic evaluation: the methods ending in [_by_sym] and their numeric
    counterparts. *)
From Coq Require Import String Ascii List ZArith NArith Bool Arith Reals Lia Lra.
Import ListNotations.
From Verif Require Import PyBase PyBaseFacts Rxn_Model Rxn_Spec Rxn_Proofs Species_Model Species_Spec
  Species_Proofs Species_Matrix PyReal Energy_Model Energy_Spec Thermo_Model Rate_Model Rate_Spec Rate_Proofs
  MF_Model MF_Spec MF_Cover MF_Rate MF_More Archive_Proofs Sym_Model Sym_Spec Sym_Proofs Sym_Eval Sym_Rates.
Local Open Scope nat_scope.
Local Open Scope list_scope.

Lemma symbolic_inv s y data : prepared s -> symbolic s y data ->
  y = the_symbols s /\
  data = (tab (value (s_pressure s)) (l_gas (s_lists s)), tab (value (s_conc s)) (l_liq (s_lists s))).
Proof.
  intros P (cl & C & D & G). rewrite (classify_ok s P) in C. injection C as <-.
  rewrite (symbols_ok s P) in D. rewrite (get_data_ok s P) in G. split; congruence.
Qed.

Lemma symbolic_exists s : prepared s -> exists y data, symbolic s y data.
Proof.
  intro P. exists (the_symbols s). eexists. eexists. split; [apply classify_ok; exact P|].
  split; [apply symbols_ok; exact P|]. apply get_data_ok. exact P.
Qed.

Section Main.
  Variable s : setup.
  Variables (y : symbols) (data : dict R * dict R) (T : R) (r : rel_energies).
  Hypothesis SY : symbolic s y data.
  Hypothesis NL : l_liq (s_lists s) = [].
  Hypothesis HT : (0 < T)%R.
  Hypothesis ER : energies_ready s r.

  Section Constants.
  Hypothesis P : prepared s.

  Lemma mapM_nth {A B} (f : A -> res B) l ys : length l = length ys ->
    (forall i x z, nth_error l i = Some x -> nth_error ys i = Some z -> f x = Ok z) -> mapM f l = Ok ys.
  Proof.
    revert ys. induction l as [|a l IH]; intros [|b ys] Len H; try discriminate; auto.
    cbn [mapM]. rewrite (H 0 a b eq_refl eq_refl). cbn [bind]. rewrite (IH ys); auto.
    intros i x z H1 H2. apply (H (S i) x z H1 H2).
  Qed.

  Lemma constant_at names theta d i : substitution s T r names theta d -> i < length (s_exprs s) ->
    exists a b, nth_error (r_Gaf r) i = Some a /\ nth_error (r_dG r) i = Some b /\
      sev d (SSym (L "Ga_" ++ dec (N.of_nat i))) = Ok a /\ sev d (SSym (L "dG_" ++ dec (N.of_nat i))) = Ok b.
  Proof.
    intros SB H. destruct (nth_error_lt (r_Gaf r) i _ (proj1 ER) H) as [a Ea].
    destruct (nth_error_lt (r_dG r) i _ (proj2 ER) H) as [b Eb]. exists a, b. cbn [sev].
    rewrite (sub_Ga _ _ _ _ _ _ SB i a H Ea), (sub_dG _ _ _ _ _ _ SB i b H Eb). auto.
  Qed.

  Lemma tst_value' names theta d g x : substitution s T r names theta d -> sev d g = Ok x -> sev d (tst_sym g) = Ok (tst T x).
  Proof.
    intros SB E. unfold tst_sym, kB_sym, T_sym, h_sym. cbn [sev].
    rewrite E, (sub_kB _ _ _ _ _ _ SB), (sub_T _ _ _ _ _ _ SB), (sub_h _ _ _ _ _ _ SB).
    cbn [bind]. pose proof kB_eV_pos. pose proof h_eV_pos.
    assert (kB_eV * T <> 0)%R by (apply Rgt_not_eq; now apply Rmult_lt_0_compat).
    unfold Reqb. destruct (Req_EM_T h_eV 0); [lra|]. cbn [bind].
    destruct (Req_EM_T (kB_eV * T) 0); [contradiction|]. reflexivity.
  Qed.

  Lemma tst_pos x : (0 < tst T x)%R.
  Proof. unfold tst. apply Rmult_lt_0_compat; [now apply frequency_pos|apply exp_pos]. Qed.

  Lemma combine_syms i p :
    nth_error (combine (y_Ga (the_symbols s)) (y_dG (the_symbols s))) i = Some p ->
    i < length (s_exprs s) /\ p = (SSym (L "Ga_" ++ dec (N.of_nat i)), SSym (L "dG_" ++ dec (N.of_nat i))).
  Proof.
    intro H. assert (Hi : i < length (s_exprs s)).
    { assert (X : i < length (combine (y_Ga (the_symbols s)) (y_dG (the_symbols s)))) by (apply nth_error_Some; congruence).
      rewrite combine_length in X. cbn [y_Ga y_dG the_symbols] in X. rewrite !indexed_length in X. lia. }
    split; auto.
    pose proof (nth_error_combine _ _ i _ _ (nth_indexed (L "Ga_") _ i Hi) (nth_indexed (L "dG_") _ i Hi)) as C.
    change (nth_error (combine (y_Ga (the_symbols s)) (y_dG (the_symbols s))) i
      = Some (SSym (L "Ga_" ++ dec (N.of_nat i)), SSym (L "dG_" ++ dec (N.of_nat i)))) in C.
    rewrite C in H. now injection H.
  Qed.

  Lemma constants_value names theta d : substitution s T r names theta d ->
    mapM (sev d) (fst (rate_constant_syms (the_symbols s))) = Ok (kf_list T r) /\
    mapM (sev d) (snd (rate_constant_syms (the_symbols s))) = Ok (kr_list T r).
  Proof.
    intro SB. unfold rate_constant_syms. cbn [fst snd].
    assert (LC : length (combine (y_Ga (the_symbols s)) (y_dG (the_symbols s))) = length (s_exprs s)).
    { rewrite combine_length. cbn [y_Ga y_dG the_symbols]. rewrite !indexed_length. lia. }
    split; apply mapM_nth.
    - rewrite map_length, LC. unfold kf_list. rewrite map_length. symmetry. apply ER.
    - intros i e z H1 H2. rewrite nth_error_map in H1.
      destruct (nth_error (combine _ _) i) as [p|] eqn:C; [|discriminate]. injection H1 as <-.
      apply combine_syms in C as [Hi ->]. destruct (constant_at names theta d i SB Hi) as (a & b & Ea & Eb & V1 & V2).
      unfold kf_list in H2. rewrite (map_nth_error _ _ _ Ea) in H2. injection H2 as <-. cbn [fst].
      eapply tst_value'; eauto.
    - rewrite map_length, LC. unfold kr_list. rewrite map_length, combine_length. destruct ER as [-> ->]. lia.
    - intros i e z H1 H2. rewrite nth_error_map in H1.
      destruct (nth_error (combine (y_Ga _) _) i) as [p|] eqn:C; [|discriminate]. injection H1 as <-.
      apply combine_syms in C as [Hi ->]. destruct (constant_at names theta d i SB Hi) as (a & b & Ea & Eb & V1 & V2).
      unfold kr_list in H2. rewrite (map_nth_error _ _ _ (nth_error_combine _ _ _ _ _ Ea Eb)) in H2. injection H2 as <-.
      cbn [fst snd]. eapply tst_value'; eauto. cbn [sev] in *. rewrite V1, V2. reflexivity.
  Qed.

  Lemma equilibrium_value names theta d : substitution s T r names theta d ->
    mapM (sev d) (equilibrium_syms (the_symbols s)) = Ok (map (fun g => exp (- g / kT T)) (r_dG r)).
  Proof.
    intro SB. unfold equilibrium_syms, rate_constant_syms.
    assert (LC : length (combine (y_Ga (the_symbols s)) (y_dG (the_symbols s))) = length (s_exprs s)).
    { rewrite combine_length. cbn [y_Ga y_dG the_symbols]. rewrite !indexed_length. lia. }
    apply mapM_nth.
    - rewrite !map_length, combine_length, !map_length, LC. rewrite (proj2 ER). lia.
    - intros i e z H1 H2. rewrite nth_error_map in H1.
      destruct (nth_error (combine (map _ _) _) i) as [[u v]|] eqn:C0; [|discriminate]. injection H1 as <-.
      assert (Hi : i < length (s_exprs s)).
      { assert (i < length (combine (map (fun p => tst_sym (fst p)) (combine (y_Ga (the_symbols s)) (y_dG (the_symbols s))))
          (map (fun p => tst_sym (SSub (fst p) (snd p))) (combine (y_Ga (the_symbols s)) (y_dG (the_symbols s))))))
          by (apply nth_error_Some; congruence).
        rewrite combine_length, !map_length, LC in H. lia. }
      destruct (nth_error_lt _ i _ LC Hi) as [p C].
      rewrite (nth_error_combine _ _ i _ _ (map_nth_error _ _ _ C) (map_nth_error _ _ _ C)) in C0. injection C0 as <- <-.
      apply combine_syms in C as [_ ->]. destruct (constant_at names theta d i SB Hi) as (a & b & Ea & Eb & V1 & V2).
      rewrite (map_nth_error _ _ _ Eb) in H2. injection H2 as <-. cbn [fst snd].
      change (sev d (SDiv ?u ?v)) with (do x <- sev d u; do y <- sev d v; if Reqb y 0 then Err Unsupported else Ok (x / y)%R).
      rewrite (tst_value' names theta d _ a SB V1).
      rewrite (tst_value' names theta d _ (a - b)%R SB) by (cbn [sev] in *; rewrite V1, V2; reflexivity). cbn [bind].
      pose proof (tst_pos (a - b)). unfold Reqb. destruct (Req_EM_T (tst T (a - b)) 0); [lra|]. f_equal.
      unfold tst. pose proof (frequency_pos T HT). pose proof (kT_pos T HT).
      replace (- a / kT T)%R with (- (a - b) / kT T + - b / kT T)%R by (field; lra). rewrite exp_plus. field.
      split; [|lra]. pose proof (exp_pos (- (a - b) / kT T)). lra.
  Qed.

  Lemma constants_by_sym_ok : rate_constants_by_sym s y T r (Some data) = Ok (kf_list T r, kr_list T r).
  Proof.
    destruct (symbolic_inv s y data P SY) as [-> ->]. unfold rate_constants_by_sym.
    destruct (rate_constant_syms (the_symbols s)) as [kf kr] eqn:E.
    destruct (subs_dict_ok s P NL T r None (fun _ => 0%R)) as (d & Ed & SB); [discriminate|].
    rewrite Ed. cbn [bind]. destruct (constants_value _ _ d SB) as [A B]. rewrite E in A, B. cbn [fst snd] in A, B.
    rewrite A. cbn [bind]. rewrite B. reflexivity.
  Qed.
  End Constants.

  Hypothesis U : usable_setup s.
  Hypothesis PS : plain_sites s.
  Variable cvgs : list R.
  Hypothesis Len : length cvgs = length (ads s).

  Lemma the_subs : exists d, subs_dict s (the_symbols s) T r (Some data) (Some cvgs) = Ok d /\
    substitution s T r (ads s) (coverage s cvgs) d.
  Proof.
    destruct (symbolic_inv s y data (proj1 U) SY) as [_ ->].
    apply (subs_dict_ok s (proj1 U) NL T r (Some cvgs) (coverage s cvgs)).
    intros c E. injection E as <-. auto.
  Qed.

  Lemma all_rates : exists d rf rr rfs rrs,
    subs_dict s (the_symbols s) T r (Some data) (Some cvgs) = Ok d /\
    substitution s T r (ads s) (coverage s cvgs) d /\
    rate_syms s (the_symbols s) = Ok (rf, rr) /\ mapM (sev d) rf = Ok rfs /\ mapM (sev d) rr = Ok rrs /\
    length rfs = length (s_exprs s) /\ length rrs = length (s_exprs s) /\
    rates s (Ok (kf_list T r, kr_list T r)) (Some data) cvgs = Ok (rfs, rrs).
  Proof.
    destruct the_subs as (d & Ed & SB).
    destruct (numeric_rates s U T r cvgs d HT ER Len PS NL SB) as (rf & rr & rfs & rrs & data' & A & B & C & L1 & L2 & D & E).
    assert (data' = data) by (destruct SY as (cl & _ & _ & G); congruence). subst.
    exists d, rf, rr, rfs, rrs. auto 10.
  Qed.

  Lemma rates_by_sym_ok : exists rfs rrs, rates_by_sym s y T r (Some data) cvgs = Ok (rfs, rrs) /\
    length rfs = length (s_exprs s) /\ length rrs = length (s_exprs s) /\
    rates s (Ok (kf_list T r, kr_list T r)) (Some data) cvgs = Ok (rfs, rrs).
  Proof.
    destruct all_rates as (d & rf & rr & rfs & rrs & Ed & SB & A & B & C & L1 & L2 & D).
    destruct (symbolic_inv s y data (proj1 U) SY) as [-> _]. exists rfs, rrs. split; [|auto].
    unfold rates_by_sym. rewrite A. cbn [bind]. rewrite Ed. cbn [bind]. rewrite B. cbn [bind]. rewrite C. reflexivity.
  Qed.

  Lemma minus_value d rf : forall rr rfs rrs, mapM (sev d) rf = Ok rfs -> mapM (sev d) rr = Ok rrs ->
    mapM (sev d) (map (fun p => SSub (fst p) (snd p)) (combine rf rr))
    = Ok (map (fun p => (fst p - snd p)%R) (combine rfs rrs)).
  Proof.
    induction rf as [|a rf IH]; intros [|b rr] rfs rrs A B; cbn [mapM] in A, B.
    - injection A as <-. injection B as <-. reflexivity.
    - injection A as <-. reflexivity.
    - injection B as <-. destruct rfs; reflexivity.
    - destruct (sev d a) as [x|] eqn:Ea; [|discriminate]. cbn [bind] in A.
      destruct (mapM (sev d) rf) as [xs|] eqn:Er; [|discriminate]. injection A as <-.
      destruct (sev d b) as [z|] eqn:Eb; [|discriminate]. cbn [bind] in B.
      destruct (mapM (sev d) rr) as [zs|] eqn:Es; [|discriminate]. injection B as <-.
      cbn [combine map mapM fst snd sev]. rewrite Ea, Eb. cbn [bind]. rewrite (IH rr xs zs); auto.
  Qed.

  Lemma net_by_sym_ok : exists nets, net_rates_by_sym s y T r (Some data) cvgs = Ok nets /\
    length nets = length (s_exprs s) /\
    net_rates s (Ok (kf_list T r, kr_list T r)) (Some data) cvgs = Ok nets.
  Proof.
    destruct all_rates as (d & rf & rr & rfs & rrs & Ed & SB & A & B & C & L1 & L2 & D).
    destruct (symbolic_inv s y data (proj1 U) SY) as [-> _].
    exists (map (fun p => (fst p - snd p)%R) (combine rfs rrs)). split; [|split].
    - unfold net_rates_by_sym, net_rate_syms. rewrite A. cbn [bind]. rewrite Ed. cbn [bind]. now apply minus_value.
    - rewrite map_length, combine_length. lia.
    - unfold net_rates. rewrite D. reflexivity.
  Qed.

  Lemma sym_sum_value d l : forall acc x xs, sev d acc = Ok x -> mapM (sev d) l = Ok xs ->
    sev d (fold_left SAdd l acc) = Ok (x + Rsum xs)%R.
  Proof.
    induction l as [|e l IH]; intros acc x xs A B; cbn [mapM] in B.
    - injection B as <-. cbn [fold_left Rsum]. rewrite A. f_equal. ring.
    - destruct (sev d e) as [z|] eqn:Ee; [|discriminate]. cbn [bind] in B.
      destruct (mapM (sev d) l) as [zs|] eqn:Er; [|discriminate]. injection B as <-. cbn [fold_left Rsum].
      rewrite (IH (SAdd acc e) (x + z)%R zs); auto; [f_equal; ring|]. cbn [sev]. now rewrite A, Ee.
  Qed.

  Lemma tof_by_sym_ok : exists l, tof_by_sym s y T r (Some data) cvgs = Ok l /\
    tofs s (Ok (kf_list T r, kr_list T r)) (Some data) cvgs = Ok l.
  Proof.
    destruct all_rates as (d & rf & rr & rfs & rrs & Ed & SB & A & B & C & L1 & L2 & D).
    destruct (symbolic_inv s y data (proj1 U) SY) as [-> _].
    set (nets := map (fun p => (fst p - snd p)%R) (combine rfs rrs)).
    assert (LN : length nets = length (s_exprs s)) by (unfold nets; rewrite map_length, combine_length; lia).
    pose proof (minus_value d rf rr rfs rrs B C) as M. fold nets in M.
    unfold tof_by_sym, tof_syms, tofs, net_rates, net_rate_syms. rewrite D. cbn [bind]. fold nets.
    destruct (matrices_net (s_exprs s) (s_lists s) (proj1 (proj1 U))) as (m1 & m2 & ES & _ & LM & _).
    rewrite ES. cbn [bind]. rewrite A. cbn [bind].
    assert (LS : length (map (fun p => SSub (fst p) (snd p)) (combine rf rr)) = length (s_exprs s)).
    { apply mapM_length in M. congruence. }
    rewrite LS, LM, Nat.eqb_refl. cbn [negb bind]. rewrite Ed. cbn [bind].
    eexists. split; [|unfold vec_mat; rewrite map_length, LN, LM, Nat.eqb_refl; reflexivity].
    apply mapM_nth; [now rewrite !map_length|].
    intros j e z H1 H2. rewrite nth_error_map in H1, H2.
    destruct (nth_error (seq 0 _) j) as [k|]; [|discriminate]. injection H1 as <-. injection H2 as <-.
    unfold sym_sum. rewrite (sym_sum_value d _ (SNum 0) 0 (map (fun p => (fst p * IZR (nth k (snd p) 0%Z))%R)
      (combine nets (map (map (fun z : Z => (z * -1)%Z)) m2)))); [f_equal; ring|reflexivity|].
    clearbody nets. clear - M. revert nets M. generalize (map (fun p => SSub (fst p) (snd p)) (combine rf rr)) as l. intro l. revert m2.
    induction l as [|a l IH]; intros m2 nets M; cbn [mapM] in M.
    - injection M as <-. reflexivity.
    - destruct (sev d a) as [x|] eqn:Ea; [|discriminate]. cbn [bind] in M.
      destruct (mapM (sev d) l) as [xs|] eqn:Er; [|discriminate]. injection M as <-.
      destruct m2 as [|row m2]; [reflexivity|]. cbn [combine map mapM fst snd sev]. rewrite Ea. cbn [bind].
      rewrite (IH m2 xs eq_refl). cbn [bind]. do 2 f_equal.
      rewrite (map_nth (fun z : Z => (z * -1)%Z) row 0%Z k : nth k (map _ row) 0%Z = _), mult_IZR. ring.
  Qed.
End Main.
