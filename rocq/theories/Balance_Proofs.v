(** Proofs about the balances of reported steady states and the free energy of a mechanism at work. *)
From Coq Require Import String Ascii List ZArith NArith Bool Arith Reals Lia Lra Permutation.
Import ListNotations.
From Verif Require Import PyBase PyBaseFacts Rxn_Model Rxn_Spec Rxn_Proofs Rxn_Count Species_Model Species_Spec
  Species_Proofs Species_Matrix PyReal Energy_Model Energy_Spec Energy_Proofs Thermo_Model Rate_Model Rate_Spec
  Rate_Proofs PyExpr_Model PyExpr_Proofs MF_Model MF_Spec MF_Cover MF_Rate MF_More MF_Witness Whole_Spec Whole_Energy
  Whole_Rates Whole_Bound Newton_Spec Steady_Model Steady_Spec Steady_Properties Balance_Spec.
Local Open Scope list_scope.
Local Open Scope R_scope.

(** ** Balances within a tolerance *)
Lemma leading_digits_digits t : forallb is_digit (leading_digits t) = true.
Proof. induction t as [|c t IH]; cbn; auto. destruct (is_digit c) eqn:E; cbn; auto. now rewrite E. Qed.
Lemma letter_count_nonneg x sp : (0 <= letter_count x sp)%Z.
Proof.
  induction sp as [|c t IH]; cbn [letter_count]; [lia|]. destruct (Ascii.eqb c x); [|lia].
  unfold leading_number. match goal with |- (0 <= ?a + _)%Z => assert (0 <= a)%Z end; [|lia].
  pose proof (leading_digits_digits t). destruct (leading_digits t); [cbn; lia|now apply int_of_nonneg].
Qed.
Lemma name_atoms_nonneg x n : (0 <= name_atoms x n)%Z.
Proof.
  unfold name_atoms, atoms_in_species. destruct (str_eqb _ _); [lia|]. destruct (element_letter x); [|lia].
  apply letter_count_nonneg.
Qed.

Lemma weighted_sum_bound w names F b : (forall n, (0 <= w n)%Z) -> (forall y, In y F -> Rabs y <= b) -> 0 <= b ->
  Rabs (weighted_sum w names F) <= b * IZR (sum_Z (map w names)).
Proof.
  intros W. revert F. induction names as [|n ns IH]; intros F H B.
  - cbn. rewrite Rabs_R0. lra.
  - assert (P : forall l, (0 <= sum_Z (map w l))%Z).
    { clear -W. induction l as [|m l IH]; cbn [map sum_Z]; [lia|]. specialize (W m). lia. }
    destruct F as [|y F].
    { cbn [weighted_sum]. rewrite Rabs_R0. apply Rmult_le_pos; auto. apply IZR_le, P. }
    cbn [weighted_sum map sum_Z]. rewrite plus_IZR.
    assert (H1 : Rabs (weighted_sum w ns F) <= b * IZR (sum_Z (map w ns))) by (apply IH; auto; intros; apply H; now right).
    assert (H2 : Rabs (IZR (w n) * y) <= b * IZR (w n)).
    { rewrite Rabs_mult, (Rabs_pos_eq (IZR (w n))) by (apply IZR_le, W). rewrite Rmult_comm.
      apply Rmult_le_compat_r; [apply IZR_le, W|]. apply H. now left. }
    pose proof (Rabs_triang (IZR (w n) * y) (weighted_sum w ns F)). lra.
Qed.

Lemma balanced_within s cvgs kf kr x data F b : usable_setup s -> length cvgs = length (ads s) ->
  length kf = length (s_exprs s) -> length kr = length (s_exprs s) ->
  (forall name fls, In name (ads s) -> In fls (l_rxns (s_lists s)) -> plain_in name fls) ->
  get_data s = Ok data -> steady_state_function s (Ok (kf, kr)) (Some data) cvgs = Ok F ->
  F <> [] -> (forall y, In y F -> Rabs y <= b) ->
  exists tof, tofs s (Ok (kf, kr)) (Some data) cvgs = Ok tof /\ length tof = length (outside s) /\
    Rabs (weighted_sum (name_atoms x) (outside s) tof) <= b * atoms_adsorbed s x.
Proof.
  intros U Len Lf Lr Pl E1 E2 Ne H.
  destruct (conservation s cvgs kf kr x U Len Lf Lr Pl) as (data' & F' & tof & E1' & E2' & E3 & B).
  assert (data' = data) by congruence. subst data'. rewrite E2 in E2'. injection E2' as <-.
  exists tof. split; [exact E3|]. split.
  { destruct (rates_indexed s U cvgs kf kr Len Lf Lr) as (data' & rfs & rrs & D & R & L1 & L2 & _).
    assert (data' = data) by congruence. subst data'.
    destruct (net_rates_ok s _ _ _ _ _ R) as (nets & E4 & L4 & _); [congruence|].
    rewrite (tofs_ok s _ _ _ _ (proj1 U) E4) in E3 by congruence. injection E3 as <-. now rewrite map_length. }
  unfold outside. replace (weighted_sum (name_atoms x) (l_gas (s_lists s) ++ l_liq (s_lists s)) tof)
    with (- weighted_sum (name_atoms x) (ads s) F) by lra.
  rewrite Rabs_Ropp. apply weighted_sum_bound; auto; [apply name_atoms_nonneg|].
  destruct F as [|y F]; [congruence|]. pose proof (H y (or_introl eq_refl)). pose proof (Rabs_pos y). lra.
Qed.

Lemma reported_balance {I} (q : search I) s kf kr data x fuel c0 a st : usable_setup s ->
  length kf = length (s_exprs s) -> length kr = length (s_exprs s) ->
  (forall name fls, In name (ads s) -> In fls (l_rxns (s_lists s)) -> plain_in name fls) ->
  get_data s = Ok data -> (forall c, q_f q c = steady_state_function s (Ok (kf, kr)) (Some data) c) ->
  get_steady_state_cvgs q fuel c0 = (Ok (Some a), st) ->
  exists cvgs, a_coverages a = Some cvgs /\ (length cvgs = length (ads s) ->
    exists tof, tofs s (Ok (kf, kr)) (Some data) cvgs = Ok tof /\ length tof = length (outside s) /\
      Rabs (weighted_sum (name_atoms x) (outside s) tof) <= q_tolerance q * atoms_adsorbed s x).
Proof.
  intros U Lf Lr Pl D Q H. destruct (C34_converged I q fuel c0 a st H) as (cvgs & E & F & E2 & Ne & B).
  exists cvgs. split; [exact E|]. intro Len. rewrite Q in E2. now apply (balanced_within s cvgs kf kr x data F).
Qed.

(** ** Free energies of reactions from chemical potentials *)
Lemma dot_maps {A} (f g : A -> R) l : dot (map f l) (map g l) = Rsum (map (fun x => f x * g x) l).
Proof. unfold dot. induction l as [|x l IH]; cbn; auto. now rewrite IH. Qed.

Section Potentials.
  Variable s : setup.
  Hypothesis U : usable_setup s.
  Variable cvgs : list R.
  Hypothesis Len : length cvgs = length (ads s).

  Lemma site_tag_site t : forallb is_site_char t = true -> t <> [] -> site_tag (L "*_" ++ t) = L "*_" ++ t.
  Proof.
    intros C N. unfold site_tag. f_equal. change (L "*_" ++ t) with (L "*" ++ "_"%char :: [] ++ t).
    destruct (last_underscore_split (L "*") ([] ++ t)) as [_ ->]; [now apply no_underscore_digits_site|].
    now destruct (after_digits_site [] t eq_refl C N) as [-> _].
  Qed.

  Lemma outside_tag n : In n (outside s) -> site_tag n = L "*_g" \/ site_tag n = L "*_l".
  Proof.
    destruct (parse_rxns_facts _ _ (proj1 (proj1 U))) as (M & _ & _ & _ & _ & _ & G & Q & _).
    intro H. apply in_app_or in H as [H|H]; [apply G in H as (f & O & R & ->)|apply Q in H as (f & O & R & ->)];
      destruct (site_of_known f (occurs_readable _ _ f M O)) as [_ ->]; rewrite R; auto.
  Qed.
  Lemma surface_tag n : In n (sites s ++ ads s) -> exists t, site_tag n = L "*_" ++ t /\ surface_site t.
  Proof.
    destruct (parse_rxns_facts _ _ (proj1 (proj1 U))) as (M & _ & _ & _ & _ & _ & _ & _ & _ & A & S).
    intro H. apply in_app_or in H as [H|H].
    - apply S in H as (f & O & R & ->). pose proof (occurs_readable _ _ f M O) as Rd.
      destruct (readable_name f Rd) as (_ & _ & _ & _ & _ & _ & Ne & Ch). exists (f_site f).
      split; auto. now apply site_tag_site.
    - apply A in H as (f & O & (R & _) & ->). 
      destruct (site_of_known f (occurs_readable _ _ f M O)) as [_ ->]. eauto.
  Qed.
  Lemma outside_surface n : In n (outside s) -> In n (sites s ++ ads s) -> False.
  Proof.
    intros H1 H2. destruct (surface_tag n H2) as (t & E & [S1 S2]).
    destruct (outside_tag n H1) as [Q|Q]; rewrite E in Q; cbn in Q; injection Q as Q; subst; [now apply S1|now apply S2].
  Qed.

  Lemma all_NoDup : NoDup (outside s ++ (sites s ++ ads s)).
  Proof.
    pose proof (site_columns_NoDup _ _ (proj1 (proj1 U))) as N1. pose proof (reapro_columns_NoDup _ _ (proj1 (proj1 U))) as N2.
    fold (outside s) in N2. pose proof outside_surface as D. revert N2 D. generalize (outside s). intros l N2 D.
    induction l as [|n l IH]; [exact N1|]. inversion N2; subst. cbn. constructor.
    - intro H. apply in_app_or in H as [H|H]; [contradiction|]. apply (D n); [now left|exact H].
    - apply IH; auto. intros m Hm. apply D. now right.
  Qed.

  Lemma end_known st f : end_state s st -> In f st -> In (f_species_site f) (outside s ++ (sites s ++ ads s)).
  Proof.
    intros H I. destruct (end_state_In s U st H) as (fls & H1 & H2 & [T _]).
    destruct (formula_columns _ _ (proj1 (proj1 U)) fls st f H1 H2 I) as (C1 & _ & _ & C4). apply in_or_app.
    destruct (surface_dec (f_site f)) as [S|S].
    - right. apply C4; auto.
    - left. apply C1. unfold gas_formula, liquid_formula, surface_site in *.
      destruct (list_eq_dec ascii_dec (f_site f) (L "g")); [now left|].
      destruct (list_eq_dec ascii_dec (f_site f) (L "l")); [now right|]. exfalso. now apply S.
  Qed.

  Lemma end_amount st f : end_state s st -> In f st -> amount s cvgs (f_species_site f) = activity s cvgs f.
  Proof.
    intros H I. destruct (end_state_In s U st H) as (fls & H1 & H2 & _).
    destruct (parse_rxns_facts _ _ (proj1 (proj1 U))) as (M & _ & _ & _ & _ & _ & G & Q & _).
    assert (O : occurs f (l_rxns (s_lists s))) by (exists fls, st; auto).
    pose proof (occurs_readable _ _ f M O) as Rd.
    destruct (readable_name_parts f Rd) as (_ & Es & _).
    assert (T : forall n, n = f_species_site f -> In n (l_gas (s_lists s)) -> f_site f = L "g").
    { intros n En Hn. apply G in Hn as (g & Og & Rg & E). rewrite En in E.
      destruct (readable_name_parts g (occurs_readable _ _ g M Og)) as (_ & Eg & _). rewrite <- Rg, <- Eg, <- E. auto. }
    assert (T' : forall n, n = f_species_site f -> In n (l_liq (s_lists s)) -> f_site f = L "l").
    { intros n En Hn. apply Q in Hn as (g & Og & Rg & E). rewrite En in E.
      destruct (readable_name_parts g (occurs_readable _ _ g M Og)) as (_ & Eg & _). rewrite <- Rg, <- Eg, <- E. auto. }
    unfold amount, activity. destruct (in_dec (list_eq_dec ascii_dec) _ (l_gas (s_lists s))) as [Hg|Hg].
    - rewrite (T _ eq_refl Hg). reflexivity.
    - destruct (str_eqb (f_site f) (L "g")) eqn:E1.
      { exfalso. apply Hg. apply G. exists f. split; auto. split; auto. now apply str_eqb_eq. }
      destruct (in_dec (list_eq_dec ascii_dec) _ (l_liq (s_lists s))) as [Hl|Hl]; [now rewrite (T' _ eq_refl Hl)|].
      destruct (str_eqb (f_site f) (L "l")) eqn:E2; auto.
      exfalso. apply Hl. apply Q. exists f. split; auto. split; auto. now apply str_eqb_eq.
  Qed.

  Lemma end_table st f : end_state s st -> In f st -> energy_name f = table_name (f_species_site f).
  Proof.
    intros H I. unfold energy_name, table_name. destruct (in_dec ascii_dec _ _); auto.
    destruct (site_of_known f (end_readable s U st f H I)) as [_ ->]. reflexivity.
  Qed.

  Variables (T : R) (ed : dict R).
  Hypothesis HT : 0 < T.
  Hypothesis Pos : all_present s cvgs.
  Let mu := potential s cvgs T ed.

  Lemma state_potential st : end_state s st ->
    state_sum (fun f => mu (f_species_site f)) st
    = state_sum (fun f => Whole_Energy.tab ed (energy_name f)) st + kT T * ln (activities s cvgs st).
  Proof.
    intro H.
    assert (A : activities s cvgs st = exp (state_sum (fun f => ln (activity s cvgs f)) st)).
    { apply activities_exp. intros f I. split; [apply readable_stoich; eapply end_readable; eauto|].
      rewrite exp_ln; auto. eapply Pos; eauto. }
    rewrite A, ln_exp. unfold state_sum.
    rewrite <- Rsum_mul, <- Rsum_add. apply Rsum_ext. intros f I. unfold mu, potential.
    rewrite (end_amount st f H I), <- (end_table st f H I).
    change (Whole_Energy.tab ed (energy_name f)) with (value ed (energy_name f)). ring.
  Qed.

  Lemma state_grouped st : end_state s st ->
    state_sum (fun f => mu (f_species_site f)) st
    = Rsum (map (fun k => mu k * IZR (total_of_species k st)) (outside s ++ (sites s ++ ads s))).
  Proof.
    intro H. unfold state_sum. rewrite (grouped f_species_site f_stoich mu _ st all_NoDup) by (intros; eapply end_known; eauto).
    reflexivity.
  Qed.

  Lemma reaction_potential fls dg : In fls (l_rxns (s_lists s)) ->
    dg = state_sum (fun f => Whole_Energy.tab ed (energy_name f)) (ends fls)
         - state_sum (fun f => Whole_Energy.tab ed (energy_name f)) (begins fls) ->
    free_energy s cvgs T dg fls
    = Rsum (map (fun k => mu k * - IZR (consumption fls k)) (outside s ++ (sites s ++ ads s))).
  Proof.
    intros H ->. assert (S1 : end_state s (begins fls)) by (exists fls; auto).
    assert (S2 : end_state s (ends fls)) by (exists fls; auto).
    assert (P : forall st, end_state s st -> 0 < activities s cvgs st).
    { intros st Hs. rewrite (activities_exp s cvgs (fun f => ln (activity s cvgs f))); [apply exp_pos|].
      intros f I. split; [apply readable_stoich; eapply end_readable; eauto|]. rewrite exp_ln; auto. eapply Pos; eauto. }
    unfold free_energy. unfold Rdiv. rewrite ln_mult, ln_Rinv by (auto; apply Rinv_0_lt_compat; auto).
    pose proof (state_potential _ S1) as Q1. pose proof (state_potential _ S2) as Q2.
    rewrite state_grouped in Q1, Q2 by auto.
    match type of Q2 with ?x = _ => match type of Q1 with ?y = _ =>
      transitivity (x - y) end end; [lra|].
    unfold Rminus. rewrite <- (Rmult_1_l (Rsum (map (fun k => mu k * IZR (total_of_species k (begins fls))) _))),
      <- Ropp_mult_distr_l_reverse, <- Rsum_mul, <- Rsum_add.
    apply Rsum_ext. intros k _. rewrite consumption_ends by now apply (rxn_nonempty s U).
    unfold net_consumption. rewrite minus_IZR. ring.
  Qed.

  (** The sum over the reactions. *)
  Variables kf kr : list R.
  Hypothesis Lf : length kf = length (s_exprs s).
  Hypothesis Lr : length kr = length (s_exprs s).
  Hypothesis Pl : forall name fls, In name (ads s) -> In fls (l_rxns (s_lists s)) -> plain_in name fls.
  Let X := reactions s kf kr.
  Let net x := fwd s cvgs x - bwd s cvgs x.

  Lemma ads_derivative n : In n (ads s) -> derivative s cvgs X n = turnover s cvgs X n.
  Proof.
    intro Hn. unfold derivative, turnover. apply Rsum_ext. intros x Hx. destruct (reactions_In _ _ _ _ Hx) as (A & _).
    pose proof (rxn_nonempty s U _ A) as Nn. rewrite consumption_ends by auto.
    apply (plain_change n (fst x) _ _ _ (Pl _ _ Hn A) (counted_is n (fst x) _ _)); [now apply begins_first|now apply ends_last].
  Qed.

  Lemma site_turnover site : In site (sites s) ->
    turnover s cvgs X site
    = Rsum (map (fun n => - ((if str_eqb (site_tag n) site then IZR (leading_number (after_last_underscore n)) else 0)
                             * turnover s cvgs X n)) (ads s)).
  Proof.
    intro Hs.
    assert (exists t, site = L "*_" ++ t /\ surface_site t) as (t & -> & St).
    { destruct (parse_rxns_facts _ _ (proj1 (proj1 U))) as (_ & _ & _ & _ & _ & _ & _ & _ & _ & _ & S0).
      apply S0 in Hs as (f & _ & Sf & ->). eauto. }
    assert (Oc : forall n, (if str_eqb (site_tag n) (L "*_" ++ t) then IZR (leading_number (after_last_underscore n)) else 0)
                 = IZR (name_occupies t n)).
    { intro n. unfold site_tag, name_occupies. 
      destruct (str_eqb (after_digits (after_last_underscore n)) t) eqn:Q.
      - apply str_eqb_eq in Q. rewrite Q, str_eqb_refl. reflexivity.
      - destruct (str_eqb (L "*_" ++ after_digits (after_last_underscore n)) (L "*_" ++ t)) eqn:Q2; auto.
        apply str_eqb_eq in Q2. cbn in Q2. injection Q2 as Q2. rewrite Q2, str_eqb_refl in Q. discriminate. }
    rewrite (Rsum_ext _ (fun n => Rsum (map (fun x => IZR (name_occupies t n * consumption (fst x) n) * net x) X))).
    2:{ intros n _. rewrite Oc. unfold turnover. rewrite <- Rsum_mul.
        match goal with |- - ?a = _ => replace (- a) with (-1 * a) by ring end. rewrite <- Rsum_mul. apply Rsum_ext.
        intros x _. rewrite mult_IZR. unfold net. ring. }
    rewrite Rsum_swap. unfold turnover. apply Rsum_ext. intros x Hx. destruct (reactions_In _ _ _ _ Hx) as (A & _).
    pose proof (sites_balance s (fst x) t U A St Hs) as Bl.
    rewrite (Rsum_ext _ (fun n => net x * IZR (name_occupies t n * consumption (fst x) n))) by (intros; ring).
    rewrite Rsum_mul, Rsum_IZR. unfold net.
    assert (sum_Z (map (fun n => (name_occupies t n * consumption (fst x) n)%Z) (ads s)) = (- consumption (fst x) (L "*_" ++ t))%Z) as -> by lia.
    rewrite opp_IZR. ring.
  Qed.

  Lemma pick_site (g : str -> R) n : In n (ads s) ->
    Rsum (map (fun site => if str_eqb (site_tag n) site then g site else 0) (sites s)) = g (site_tag n).
  Proof.
    intro Hn. destruct (ads_site s (proj1 U) n Hn) as [_ I]. pose proof (NoDup_sites s (proj1 U)) as N.
    revert I N. generalize (site_tag n) as k. generalize (sites s) as l. clear. intros l k I N.
    induction l as [|m l IH]; [destruct I|]. inversion N; subst. cbn [map Rsum]. destruct I as [->|I].
    - rewrite str_eqb_refl. rewrite Rsum_zero; [ring|]. intros y Hy. destruct (str_eqb k y) eqn:Q; auto.
      apply str_eqb_eq in Q. subst. contradiction.
    - rewrite IH by auto. destruct (str_eqb k m) eqn:Q; [apply str_eqb_eq in Q; subst; contradiction|ring].
  Qed.

  Lemma total_work :
    Rsum (map (fun x => net x * Rsum (map (fun k => mu k * - IZR (consumption (fst x) k)) (outside s ++ (sites s ++ ads s)))) X)
    = Rsum (map (fun k => mu k * turnover s cvgs X k) (outside s))
      + Rsum (map (fun n => in_exchange s cvgs T ed n * turnover s cvgs X n) (ads s)).
  Proof.
    transitivity (Rsum (map (fun k => mu k * turnover s cvgs X k) (outside s ++ (sites s ++ ads s)))).
    - rewrite (Rsum_ext _ (fun x => Rsum (map (fun k => mu k * (- IZR (consumption (fst x) k) * net x)) (outside s ++ (sites s ++ ads s))))).
      + rewrite Rsum_swap. apply Rsum_ext. intros k _. rewrite Rsum_mul. reflexivity.
      + intros x _. rewrite <- Rsum_mul. apply Rsum_ext. intros. ring.
    - rewrite !map_app, !Rsum_app. f_equal.
      rewrite (Rsum_ext (fun k => mu k * turnover s cvgs X k)
        (fun site => Rsum (map (fun n => if str_eqb (site_tag n) site
            then mu site * (- (IZR (leading_number (after_last_underscore n)) * turnover s cvgs X n)) else 0) (ads s))) (sites s)).
      2:{ intros site Hs. rewrite (site_turnover site Hs), <- Rsum_mul. apply Rsum_ext. intros n _.
          destruct (str_eqb (site_tag n) site); ring. }
      rewrite Rsum_swap, <- Rsum_add. apply Rsum_ext. intros n Hn.
      rewrite (pick_site (fun site => mu site * - (IZR (leading_number (after_last_underscore n)) * turnover s cvgs X n)) n Hn).
      unfold in_exchange. fold mu. change (potential s cvgs T ed) with mu. ring.
  Qed.
End Potentials.

(** ** Net rates run downhill *)
Lemma Rsum_nonpos {A} (f : A -> R) l : (forall x, In x l -> f x <= 0) -> Rsum (map f l) <= 0 /\
  (Rsum (map f l) = 0 <-> forall x, In x l -> f x = 0).
Proof.
  induction l as [|x l IH]; intro H; cbn; [split; [lra|]; split; [intros _ y []|auto]|].
  destruct IH as [I1 I2]; [intros; apply H; now right|]. pose proof (H x (or_introl eq_refl)).
  split; [lra|]. split.
  - intros E y [<-|Hy]; [lra|]. apply I2; auto. lra.
  - intro E. rewrite (E x (or_introl eq_refl)). assert (Rsum (map f l) = 0) as -> by (apply I2; intros; apply E; now right). ring.
Qed.

Lemma dissipation_terms ec o own s r cvgs : usable_setup s -> NoDup (s_exprs s) -> o_rxns o = s_exprs s -> 0 < o_T o ->
  consistent r (length (s_exprs s)) -> length cvgs = length (ads s) -> all_present s cvgs ->
  exists data kf kr, get_data s = Ok data /\ rate_constants ec o (L "TST") (Some r) own = Ok (kf, kr) /\
    length kf = length (s_exprs s) /\ length kr = length (s_exprs s) /\
    net_rates s (Ok (kf, kr)) (Some data) cvgs
      = Ok (map (fun x => fwd s cvgs x - bwd s cvgs x) (reactions s kf kr)) /\
    steady_state_function s (Ok (kf, kr)) (Some data) cvgs = Ok (map (derivative s cvgs (reactions s kf kr)) (ads s)) /\
    tofs s (Ok (kf, kr)) (Some data) cvgs = Ok (map (turnover s cvgs (reactions s kf kr)) (outside s)) /\
    forall i x dg, nth_error (reactions s kf kr) i = Some x -> nth_error (r_dG r) i = Some dg ->
      let n := fwd s cvgs x - bwd s cvgs x in let G := free_energy s cvgs (o_T o) dg (fst x) in
      n * G <= 0 /\ (n * G = 0 <-> n = 0).
Proof.
  intros U ND EO HT C Len Pos. rewrite <- EO in C. assert (ND' : NoDup (o_rxns o)) by now rewrite EO.
  destruct (constants_of ec o r own HT ND' C) as (kf & kr & E & L1 & L2 & V). rewrite EO in L1, L2.
  destruct (explicit s U ND cvgs kf kr Len L1 L2) as (data & E1 & E2 & E3 & E4 & E5).
  exists data, kf, kr. do 6 (split; [assumption|]). split; [exact E5|]. intros i x dg Hx Hd. cbn zeta.
  destruct (reactions_inv _ _ _ _ _ Hx) as (R1 & R2 & R3). destruct (V i dg Hd) as (a & b & Ha & Hb & Pa & Pb & Q).
  assert (a = fst (snd x)) by congruence. assert (b = snd (snd x)) by congruence. subst a b.
  assert (P : forall st, end_state s st -> 0 < activities s cvgs st).
  { intros st Hs. rewrite (activities_exp s cvgs (fun f => ln (activity s cvgs f))); [apply exp_pos|].
    intros f I. split; [apply readable_stoich; eapply end_readable; eauto|]. rewrite exp_ln; auto. eapply Pos; eauto. }
  pose proof (nth_error_In _ _ R1) as I1.
  assert (S1 : end_state s (begins (fst x))) by (exists (fst x); auto).
  assert (S2 : end_state s (ends (fst x))) by (exists (fst x); auto).
  destruct (downhill_rate _ _ _ _ dg _ HT Pa Pb Q (P _ S1) (P _ S2)) as (D1 & D2 & D3).
  unfold fwd, bwd, free_energy. rewrite !mass_action_scale.
  set (n := fst (snd x) * _ - _) in *. set (G := dg + _) in *. clearbody n G.
  destruct (Rtotal_order n 0) as [Hn|[->|Hn]].
  - apply D3 in Hn as HG. assert (0 < (- n) * G) by (apply Rmult_lt_0_compat; lra). split; [nra|]. split; nra.
  - split; [lra|]. split; intro; lra.
  - apply D1 in Hn as HG. assert (0 < n * (- G)) by (apply Rmult_lt_0_compat; lra). split; [nra|]. split; nra.
Qed.

Lemma dot_terms {A} (n : A -> R) (X : list A) (G : list R) : length G = length X ->
  dot (map n X) G = Rsum (map (fun p => n (fst p) * snd p) (combine X G)).
Proof.
  revert G. unfold dot. induction X as [|x X IH]; intros [|g G] L0; cbn in *; try lia; auto. now rewrite IH by lia.
Qed.

Lemma combine_nth {A B} (l : list A) (m : list B) p : In p (combine l m) ->
  exists i, nth_error l i = Some (fst p) /\ nth_error m i = Some (snd p).
Proof.
  revert m. induction l as [|a l IH]; intros [|b m] H; cbn in H; try tauto. destruct H as [<-|H].
  - now exists 0%nat.
  - destruct (IH m H) as (i & ?). now exists (S i).
Qed.

Lemma free_energies_nth s cvgs T dGs i fls d : nth_error (l_rxns (s_lists s)) i = Some fls -> nth_error dGs i = Some d ->
  nth_error (free_energies s cvgs T dGs) i = Some (free_energy s cvgs T d fls).
Proof.
  intros H1 H2. unfold free_energies. now rewrite (map_nth_error _ _ _ (nth_error_combine _ _ _ _ _ H1 H2)).
Qed.

Lemma dissipation_sum s kf kr r cvgs T : usable_setup s -> length kf = length (s_exprs s) -> length kr = length (s_exprs s) ->
  length (r_dG r) = length (s_exprs s) ->
  (forall i x dg, nth_error (reactions s kf kr) i = Some x -> nth_error (r_dG r) i = Some dg ->
      let n := fwd s cvgs x - bwd s cvgs x in let G := free_energy s cvgs T dg (fst x) in
      n * G <= 0 /\ (n * G = 0 <-> n = 0)) ->
  let nets := map (fun x => fwd s cvgs x - bwd s cvgs x) (reactions s kf kr) in
  let G := free_energies s cvgs T (r_dG r) in
  dot nets G <= 0 /\ (dot nets G = 0 <-> forall y, In y nets -> y = 0).
Proof.
  intros U L1 L2 L3 H. cbn zeta. pose proof (num_rxns s U) as NR.
  assert (LX : length (reactions s kf kr) = length (s_exprs s)) by now apply reactions_length.
  assert (LG : length (free_energies s cvgs T (r_dG r)) = length (reactions s kf kr)).
  { unfold free_energies. rewrite map_length, combine_length. lia. }
  rewrite dot_terms by exact LG.
  set (X := reactions s kf kr) in *. set (G := free_energies s cvgs T (r_dG r)) in *.
  assert (At : forall p, In p (combine X G) -> exists i dg, nth_error X i = Some (fst p) /\ nth_error (r_dG r) i = Some dg /\
     snd p = free_energy s cvgs T dg (fst (fst p))).
  { intros p Hp. apply combine_nth in Hp as (i & Hi & Hg).
    assert (Hl : (i < length (s_exprs s))%nat) by (rewrite <- LX; apply nth_error_Some; congruence).
    destruct (nth_error_lt (r_dG r) i _ L3 Hl) as [dg Hd]. exists i, dg. split; auto. split; auto.
    destruct (reactions_inv _ _ _ _ _ Hi) as (R1 & _). unfold G in Hg.
    rewrite (free_energies_nth s cvgs T _ i _ _ R1 Hd) in Hg. now injection Hg as <-. }
  destruct (Rsum_nonpos (fun p : rxn * R => (fwd s cvgs (fst p) - bwd s cvgs (fst p)) * snd p) (combine X G)) as [S1 S2].
  { intros p Hp. destruct (At p Hp) as (i & dg & Hi & Hd & ->). now apply (H i (fst p) dg). }
  split; [exact S1|]. rewrite S2. split.
  - intros Z y Hy. apply in_map_iff in Hy as (x & <- & Hx). apply In_nth_error in Hx as [i Hi].
    assert (Hl : (i < length G)%nat) by (rewrite LG; apply nth_error_Some; congruence).
    destruct (nth_error_lt G i _ eq_refl Hl) as [g Hg].
    pose proof (nth_error_combine _ _ _ _ _ Hi Hg) as Hc. apply nth_error_In in Hc.
    specialize (Z _ Hc). cbn [fst snd] in Z. destruct (At _ Hc) as (j & dg & Hj & Hd & Eg). cbn [fst snd] in Hj, Eg.
    subst g. now apply (H j x dg).
  - intros Z p Hp. rewrite (Z (fwd s cvgs (fst p) - bwd s cvgs (fst p))); [ring|]. apply in_map_iff. exists (fst p). split; auto.
    destruct p as [x g]. eapply in_combine_l; eauto.
Qed.

Lemma dissipation ec o own s r cvgs : usable_setup s -> NoDup (s_exprs s) -> o_rxns o = s_exprs s -> 0 < o_T o ->
  consistent r (length (s_exprs s)) -> length cvgs = length (ads s) -> all_present s cvgs ->
  exists data kf kr nets, get_data s = Ok data /\ rate_constants ec o (L "TST") (Some r) own = Ok (kf, kr) /\
    net_rates s (Ok (kf, kr)) (Some data) cvgs = Ok nets /\ length nets = length (s_exprs s) /\
    let G := free_energies s cvgs (o_T o) (r_dG r) in
    dot nets G <= 0 /\ (dot nets G = 0 <-> forall y, In y nets -> y = 0).
Proof.
  intros U ND EO HT C Len Pos.
  destruct (dissipation_terms ec o own s r cvgs U ND EO HT C Len Pos) as (data & kf & kr & E1 & E & L1 & L2 & E3 & E4 & E5 & V).
  exists data, kf, kr. eexists. split; [exact E1|]. split; [exact E|]. split; [exact E3|].
  split; [rewrite map_length; apply reactions_length; auto; apply (num_rxns s U)|].
  apply dissipation_sum; auto. now destruct C as [(_ & _ & ?) _].
Qed.

(** ** The second law *)
Lemma from_table_consistent ed s r : usable_setup s -> relative_from_absolute true ed (s_exprs s) = Ok r ->
  consistent r (length (s_exprs s)) /\
  forall i fls dg, nth_error (l_rxns (s_lists s)) i = Some fls -> nth_error (r_dG r) i = Some dg ->
    dg = state_sum (fun f => Whole_Energy.tab ed (energy_name f)) (ends fls)
         - state_sum (fun f => Whole_Energy.tab ed (energy_name f)) (begins fls).
Proof.
  intros U Er. destruct (relative_from_absolute_entries _ _ _ _ Er) as [En Q]. split.
  - split; [exact En|].
    intros i gaf gar dg E. assert (Hl : (i < length (s_exprs s))%nat).
    { destruct En as (_ & _ & L3). rewrite <- L3. destruct E as (_ & _ & E). apply nth_error_Some. congruence. }
    destruct (nth_error_lt (s_exprs s) i _ eq_refl Hl) as [e He].
    apply (single_consistent ed e gaf gar dg). now apply (Q i e).
  - intros i fls dg Hf Hd. assert (Hl : (i < length (s_exprs s))%nat).
    { destruct En as (_ & _ & L3). rewrite <- L3. apply nth_error_Some. congruence. }
    destruct (nth_error_lt (s_exprs s) i _ eq_refl Hl) as [e He].
    assert (Ef : rxn_formula_list e = Ok fls).
    { pose proof (proj1 (proj1 U)) as Pp. apply parse_rxns_iff in Pp as [_ (rxns & M & Eq)].
      rewrite Eq in Hf. cbn [l_rxns] in Hf. apply mapM_ok_iff in M.
      clear -M He Hf. revert i He Hf. induction M; intros [|i] He Hf; cbn in *; try discriminate; [congruence|eauto]. }
    destruct En as (L1 & L2 & L3). destruct (nth_error_lt _ i _ L1 Hl) as [a Ha]. destruct (nth_error_lt _ i _ L2 Hl) as [b Hb'].
    apply (single_energy ed e fls a b dg Ef). apply (Q i e); auto. repeat split; auto.
Qed.

Lemma free_energy_falls ec o own s ed r cvgs : usable_setup s -> NoDup (s_exprs s) -> o_rxns o = s_exprs s -> 0 < o_T o ->
  relative_from_absolute true ed (s_exprs s) = Ok r -> length cvgs = length (ads s) -> all_present s cvgs ->
  (forall name fls, In name (ads s) -> In fls (l_rxns (s_lists s)) -> plain_in name fls) ->
  exists data kf kr nets F tof, get_data s = Ok data /\ rate_constants ec o (L "TST") (Some r) own = Ok (kf, kr) /\
    net_rates s (Ok (kf, kr)) (Some data) cvgs = Ok nets /\
    steady_state_function s (Ok (kf, kr)) (Some data) cvgs = Ok F /\ length F = length (ads s) /\
    tofs s (Ok (kf, kr)) (Some data) cvgs = Ok tof /\ length tof = length (outside s) /\
    let work := dot (map (potential s cvgs (o_T o) ed) (outside s)) tof
                + dot (map (in_exchange s cvgs (o_T o) ed) (ads s)) F in
    work = dot nets (free_energies s cvgs (o_T o) (r_dG r)) /\ work <= 0 /\
    (work = 0 <-> forall y, In y nets -> y = 0).
Proof.
  intros U ND EO HT Er Len Pos Pl. destruct (from_table_consistent ed s r U Er) as [C Dg].
  destruct (dissipation_terms ec o own s r cvgs U ND EO HT C Len Pos) as (data & kf & kr & E1 & E & L1 & L2 & E3 & E4 & E5 & V).
  exists data, kf, kr. do 3 eexists. split; [exact E1|]. split; [exact E|]. split; [exact E3|]. split; [exact E4|].
  split; [now rewrite map_length|]. split; [exact E5|]. split; [now rewrite map_length|]. cbn zeta.
  assert (L3 : length (r_dG r) = length (s_exprs s)) by now destruct C as [(_ & _ & ?) _].
  pose proof (dissipation_sum s kf kr r cvgs (o_T o) U L1 L2 L3 V) as D. cbn zeta in D.
  match goal with |- ?w = _ /\ _ => assert (W : w = dot (map (fun x => fwd s cvgs x - bwd s cvgs x) (reactions s kf kr))
     (free_energies s cvgs (o_T o) (r_dG r))) end.
  - rewrite !dot_maps.
    rewrite (Rsum_ext (fun x => in_exchange s cvgs (o_T o) ed x * derivative s cvgs (reactions s kf kr) x)
      (fun x => in_exchange s cvgs (o_T o) ed x * turnover s cvgs (reactions s kf kr) x)).
    2:{ intros n Hn. f_equal. now apply ads_derivative. }
    rewrite <- (total_work s U cvgs Len (o_T o) ed kf kr L1 L2). symmetry.
    assert (LX : length (reactions s kf kr) = length (s_exprs s)) by (apply reactions_length; auto; apply (num_rxns s U)).
    assert (EG : free_energies s cvgs (o_T o) (r_dG r)
      = map (fun x : rxn => Rsum (map (fun k => potential s cvgs (o_T o) ed k * - IZR (consumption (fst x) k)) (outside s ++ (sites s ++ ads s)))) (reactions s kf kr)).
    { apply list_ext.
      - unfold free_energies. rewrite !map_length, combine_length. pose proof (num_rxns s U). rewrite LX, L3, H. apply Nat.min_id.
      - intros i y Hy. rewrite nth_error_map in Hy. destruct (nth_error (reactions s kf kr) i) as [x|] eqn:Hx; [|discriminate].
        cbn in Hy. injection Hy as <-. destruct (reactions_inv _ _ _ _ _ Hx) as (R1 & _).
        assert (Hl : (i < length (s_exprs s))%nat) by (rewrite <- LX; apply nth_error_Some; congruence).
        destruct (nth_error_lt (r_dG r) i _ L3 Hl) as [dg Hd].
        rewrite (free_energies_nth s cvgs _ _ i _ _ R1 Hd). f_equal.
        apply (reaction_potential s U cvgs (o_T o) ed Pos); [now apply nth_error_In in R1|now apply (Dg i)]. }
    rewrite EG, dot_maps. reflexivity.
  - rewrite W. split; [reflexivity|]. exact D.
Qed.

Lemma dot_zeros c x : (forall y, In y x -> y = 0) -> dot c x = 0.
Proof.
  revert x. unfold dot. induction c as [|a c IH]; intros [|y x] H; cbn; auto.
  rewrite (H y) by now left. rewrite IH by (intros; apply H; now right). ring.
Qed.

Lemma second_law ec o own s ed r cvgs : usable_setup s -> NoDup (s_exprs s) -> o_rxns o = s_exprs s -> 0 < o_T o ->
  relative_from_absolute true ed (s_exprs s) = Ok r -> length cvgs = length (ads s) -> all_present s cvgs ->
  (forall name fls, In name (ads s) -> In fls (l_rxns (s_lists s)) -> plain_in name fls) ->
  forall data kf kr F, get_data s = Ok data -> rate_constants ec o (L "TST") (Some r) own = Ok (kf, kr) ->
  steady_state_function s (Ok (kf, kr)) (Some data) cvgs = Ok F -> (forall y, In y F -> y = 0) ->
  exists nets tof, net_rates s (Ok (kf, kr)) (Some data) cvgs = Ok nets /\
    tofs s (Ok (kf, kr)) (Some data) cvgs = Ok tof /\
    let work := dot (map (potential s cvgs (o_T o) ed) (outside s)) tof in
    work <= 0 /\ (work = 0 <-> forall y, In y nets -> y = 0).
Proof.
  intros U ND EO HT Er Len Pos Pl data kf kr F D K S Z.
  destruct (free_energy_falls ec o own s ed r cvgs U ND EO HT Er Len Pos Pl) as (data' & kf' & kr' & nets & F' & tof & E1 & E2 & E3 & E4 & _ & E5 & _ & W).
  assert (data' = data) by congruence. subst data'. rewrite K in E2. injection E2 as <- <-.
  assert (F' = F) by congruence. subst F'. exists nets, tof. split; [exact E3|]. split; [exact E5|].
  cbn zeta in *. rewrite (dot_zeros _ F Z), Rplus_0_r in W. apply W.
Qed.

Lemma dot_bound c x b : (forall y, In y x -> Rabs y <= b) -> 0 <= b -> length x = length c ->
  - (b * Rsum (map Rabs c)) <= dot c x.
Proof.
  intros H B. revert x H. unfold dot. induction c as [|a c IH]; intros [|y x] H L0; cbn in *; try lia; [lra|].
  specialize (IH x (fun z Hz => H z (or_intror Hz)) ltac:(lia)).
  assert (- (b * Rabs a) <= a * y).
  { pose proof (H y (or_introl eq_refl)) as Hy.
    assert (Rabs (a * y) <= b * Rabs a).
    { rewrite Rabs_mult, Rmult_comm. apply Rmult_le_compat_r; auto. apply Rabs_pos. }
    pose proof (Rle_abs (- (a * y))) as Q. rewrite Rabs_Ropp in Q. lra. }
  lra.
Qed.

Lemma reported_second_law {I} (q : search I) ec o own s ed r fuel c0 a st :
  usable_setup s -> NoDup (s_exprs s) -> o_rxns o = s_exprs s -> 0 < o_T o ->
  relative_from_absolute true ed (s_exprs s) = Ok r ->
  (forall name fls, In name (ads s) -> In fls (l_rxns (s_lists s)) -> plain_in name fls) ->
  forall data kf kr, get_data s = Ok data -> rate_constants ec o (L "TST") (Some r) own = Ok (kf, kr) ->
  (forall c, q_f q c = steady_state_function s (Ok (kf, kr)) (Some data) c) ->
  get_steady_state_cvgs q fuel c0 = (Ok (Some a), st) ->
  exists cvgs, a_coverages a = Some cvgs /\ (length cvgs = length (ads s) -> all_present s cvgs ->
    exists tof, tofs s (Ok (kf, kr)) (Some data) cvgs = Ok tof /\ length tof = length (outside s) /\
      dot (map (potential s cvgs (o_T o) ed) (outside s)) tof
      <= q_tolerance q * Rsum (map Rabs (map (in_exchange s cvgs (o_T o) ed) (ads s)))).
Proof.
  intros U ND EO HT Er Pl data kf kr D K Q H.
  destruct (C34_converged I q fuel c0 a st H) as (cvgs & E & F & E2 & Ne & B).
  exists cvgs. split; [exact E|]. intros Len Pos. rewrite Q in E2.
  destruct (free_energy_falls ec o own s ed r cvgs U ND EO HT Er Len Pos Pl) as (data' & kf' & kr' & nets & F' & tof & E1' & E2' & E3 & E4 & LF & E5 & LT & W).
  assert (data' = data) by congruence. subst data'. rewrite K in E2'. injection E2' as <- <-.
  assert (F' = F) by congruence. subst F'. exists tof. split; [exact E5|]. split; [exact LT|].
  cbn zeta in W. destruct W as (_ & W & _).
  assert (0 <= q_tolerance q).
  { destruct F as [|y F]; [congruence|]. pose proof (B y (or_introl eq_refl)). pose proof (Rabs_pos y). lra. }
  pose proof (dot_bound (map (in_exchange s cvgs (o_T o) ed) (ads s)) F (q_tolerance q) B H0) as Bd.
  rewrite map_length in Bd. specialize (Bd LF). lra.
Qed.
