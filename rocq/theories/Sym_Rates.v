(** Proofs about the symbolic evaluation: values of the symbols, rates. *)
From Coq Require Import String Ascii List ZArith NArith Bool Arith Reals Lia Lra.
Import ListNotations.
From Verif Require Import PyBase PyBaseFacts Rxn_Model Rxn_Spec Rxn_Proofs Species_Model Species_Spec
  Species_Proofs Species_Matrix PyReal Energy_Model Energy_Spec Thermo_Model Rate_Model Rate_Spec Rate_Proofs
  MF_Model MF_Spec MF_Cover MF_Rate MF_More Archive_Proofs Sym_Model Sym_Spec Sym_Proofs Sym_Eval.
Local Open Scope nat_scope.
Local Open Scope list_scope.

Lemma star_in_name f : readable f -> In "*"%char (f_species_site f) ->
  In "*"%char (f_species f) \/ In "*"%char (f_site f).
Proof.
  intro R. destruct (readable_name f R) as (ms & E & _ & D & _ & _ & _ & S). rewrite E.
  rewrite forallb_forall in D. intro H. apply in_app_or in H as [H|[H|H]]; [auto|discriminate|]. apply in_app_or in H as [H|H]; [|auto].
  apply D in H. vm_compute in H. discriminate.
Qed.

Section Values.
  Variable s : setup.
  Hypothesis U : usable_setup s.
  Variables (T : R) (r : rel_energies) (cvgs : list R) (d : dict R).
  Hypothesis HT : (0 < T)%R.
  Hypothesis ER : energies_ready s r.
  Hypothesis Len : length cvgs = length (ads s).
  Hypothesis PS : plain_sites s.
  Hypothesis NoLiquid : l_liq (s_lists s) = [].
  Hypothesis SB : substitution s T r (ads s) (coverage s cvgs) d.

  Let P : prepared s := proj1 U.
  Let y := the_symbols s.

  Lemma theta_value n : In n (ads s) -> sev d (theta_sym n) = Ok (coverage s cvgs n).
  Proof. intro H. unfold theta_sym. cbn [sev]. now rewrite (sub_theta _ _ _ _ _ _ SB n H). Qed.

  Lemma free_value site : In site (sites s) -> sev d (free_sym s site) = Ok (coverage s cvgs site).
  Proof.
    intro Hs. rewrite (site_coverage s P cvgs Len site Hs), (covered_sum s P cvgs Len).
    unfold free_sym.
    assert (G : forall ns acc x, (forall n, In n ns -> In n (ads s)) -> sev d acc = Ok x ->
      sev d (fold_left (fun e n => SSub e (theta_sym n)) ns acc) = Ok (x - Rsum (map (coverage s cvgs) ns))%R).
    { induction ns as [|n ns IH]; intros acc x H E; cbn [fold_left map Rsum].
      - rewrite E. f_equal. ring.
      - rewrite (IH _ (x - coverage s cvgs n)%R).
        + f_equal. ring.
        + intros; apply H; now right.
        + change (sev d (SSub acc (theta_sym n))) with
            (do x <- sev d acc; do y <- sev d (theta_sym n); Ok (x - y)%R).
          rewrite E, theta_value by (apply H; now left). reflexivity. }
    apply G; [|reflexivity]. intros n Hn. now apply on_In in Hn.
  Qed.

  Lemma extract_value rxn st f : In rxn (l_rxns (s_lists s)) -> In st rxn -> usable st -> In f st ->
    exists e, extract s y (f_species_site f) (symbol_type f) = Ok e /\ sev d e = Ok (activity s cvgs f).
  Proof.
    intros Hr Hs [Tb C] Hf.
    assert (O : occurs f (l_rxns (s_lists s))) by (exists rxn, st; auto).
    destruct (parse_rxns_facts _ _ (proj1 P)) as (M & _ & _ & _ & _ & _ & G & Q & _ & A & S).
    pose proof (occurs_readable _ _ f M O) as Rf.
    unfold symbol_type, formula_type, activity.
    destruct (str_eqb_spec (f_site f) (L "g")) as [E|E].
    - assert (I : In (f_species_site f) (l_gas (s_lists s))) by (apply G; exists f; auto).
      exists (SSym (L "p_" ++ f_species_site f)). split.
      + change (extract s y (f_species_site f) (L "pressure"))
          with (pick (l_gas (s_lists s)) (map (fun n => SSym (L "p_" ++ n)) (l_gas (s_lists s))) (f_species_site f)).
        now rewrite (pick_at (l_gas (s_lists s)) (fun n => SSym (L "p_" ++ n))).
      + cbn [sev]. now rewrite (sub_p _ _ _ _ _ _ SB _ I).
    - destruct (str_eqb_spec (f_site f) (L "l")) as [E2|E2].
      + assert (I : In (f_species_site f) (l_liq (s_lists s))) by (apply Q; exists f; auto).
        rewrite NoLiquid in I. destruct I.
      + assert (Sf : surface_site (f_site f)) by (split; auto).
        destruct (Tb f Hf Sf) as [Af|Ef].
        * assert (has_char "*" (f_species_site f) = false) as ->.
          { destruct (has_char "*" (f_species_site f)) eqn:H; auto. apply has_char_In in H.
            apply star_in_name in H; auto. pose proof (PS f O Af). destruct Af as (_ & _ & N). tauto. }
          assert (I : In (f_species_site f) (ads s)) by (apply A; exists f; auto).
          exists (theta_sym (f_species_site f)). split; [|now apply theta_value].
          change (extract s y (f_species_site f) (L "ads_cvg"))
            with (pick (ads s) (map theta_sym (ads s)) (f_species_site f)).
          now apply pick_at.
        * assert (has_char "*" (f_species_site f) = true) as -> by (rewrite Ef; reflexivity).
          assert (I : In (f_species_site f) (sites s)) by (rewrite Ef; apply S; exists f; auto).
          exists (free_sym s (f_species_site f)). split; [|now apply free_value].
          change (extract s y (f_species_site f) (L "free_site_cvg"))
            with (pick (sites s) (map (free_sym s) (sites s)) (f_species_site f)).
          now apply pick_at.
  Qed.

  Lemma product_value rxn st : In rxn (l_rxns (s_lists s)) -> In st rxn -> usable st ->
    forall acc a, sev d acc = Ok a ->
    exists e, rate_product s y acc st = Ok e /\ sev d e = Ok (mass_action s cvgs a st).
  Proof.
    intros Hr Hs Us.
    assert (G : forall fs, (forall f, In f fs -> In f st) -> exists z, (forall k, mass_action s cvgs k fs = k * z)%R /\
      forall acc a, sev d acc = Ok a -> exists e, rate_product s y acc fs = Ok e /\ sev d e = Ok (a * z)%R).
    { induction fs as [|f fs IH]; intro H.
      - exists 1%R. split; [intro; cbn; ring|]. intros acc a E. exists acc. split; [reflexivity|]. now rewrite Rmult_1_r.
      - destruct IH as (z & Hz & IH); [intros; apply H; now right|].
        destruct (extract_value rxn st f Hr Hs Us (H f (or_introl eq_refl))) as (x & Ex & Ev).
        exists (activity s cvgs f ^ Z.to_nat (f_stoich f) * z)%R. split.
        + intro k. cbn [mass_action]. rewrite Hz. ring.
        + intros acc a E. cbn [rate_product]. rewrite Ex. cbn [bind].
          destruct (IH (SMul acc (SPow x (Z.to_nat (f_stoich f)))) (a * activity s cvgs f ^ Z.to_nat (f_stoich f))%R) as (e & E1 & E2).
          * cbn [sev]. rewrite E, Ev. reflexivity.
          * exists e. split; auto. rewrite E2. f_equal. ring. }
    destruct (G st (fun f H => H)) as (z & Hz & H). intros acc a E. rewrite Hz. now apply H.
  Qed.

  Lemma tst_value g x : sev d g = Ok x -> sev d (tst_sym g) = Ok (tst T x).
  Proof.
    intro E. unfold tst_sym, kB_sym, T_sym, h_sym. cbn [sev]. rewrite E, (sub_kB _ _ _ _ _ _ SB), (sub_T _ _ _ _ _ _ SB), (sub_h _ _ _ _ _ _ SB).
    cbn [bind]. pose proof kB_eV_pos. pose proof h_eV_pos.
    assert (kB_eV * T <> 0)%R by (apply Rgt_not_eq; now apply Rmult_lt_0_compat).
    unfold Reqb. destruct (Req_EM_T h_eV 0); [lra|]. cbn [bind].
    destruct (Req_EM_T (kB_eV * T) 0); [contradiction|]. reflexivity.
  Qed.

  Definition kf_list : list R := map (tst T) (r_Gaf r).
  Definition kr_list : list R := map (fun p => tst T (fst p - snd p)) (combine (r_Gaf r) (r_dG r)).

  Lemma kf_length : length kf_list = length (s_exprs s).
  Proof. unfold kf_list. rewrite map_length. apply ER. Qed.
  Lemma kr_length : length kr_list = length (s_exprs s).
  Proof. unfold kr_list. rewrite map_length, combine_length. destruct ER as [-> ->]. lia. Qed.

  Lemma constants_at i : i < length (s_exprs s) ->
    exists a b kfe kre, nth_error (r_Gaf r) i = Some a /\ nth_error (r_dG r) i = Some b /\
      nth_error (fst (rate_constant_syms y)) i = Some kfe /\ nth_error (snd (rate_constant_syms y)) i = Some kre /\
      sev d kfe = Ok (tst T a) /\ sev d kre = Ok (tst T (a - b)) /\
      nth_error kf_list i = Some (tst T a) /\ nth_error kr_list i = Some (tst T (a - b)).
  Proof.
    intro H. destruct (nth_error_lt (r_Gaf r) i _ (proj1 ER) H) as [a Ea].
    destruct (nth_error_lt (r_dG r) i _ (proj2 ER) H) as [b Eb].
    assert (C : nth_error (combine (y_Ga y) (y_dG y)) i
              = Some (SSym (L "Ga_" ++ dec (N.of_nat i)), SSym (L "dG_" ++ dec (N.of_nat i)))).
    { apply nth_error_combine; apply nth_indexed; auto. }
    do 4 eexists. split; [exact Ea|]. split; [exact Eb|]. unfold rate_constant_syms. cbn [fst snd].
    split; [apply map_nth_error; exact C|]. split; [apply map_nth_error; exact C|]. cbn [fst snd].
    assert (V1 : sev d (SSym (L "Ga_" ++ dec (N.of_nat i))) = Ok a) by (cbn [sev]; now rewrite (sub_Ga _ _ _ _ _ _ SB i a H Ea)).
    assert (V2 : sev d (SSym (L "dG_" ++ dec (N.of_nat i))) = Ok b) by (cbn [sev]; now rewrite (sub_dG _ _ _ _ _ _ SB i b H Eb)).
    split; [now apply tst_value|]. split.
    - apply tst_value. cbn [sev] in *. rewrite V1, V2. reflexivity.
    - split; [unfold kf_list; now apply map_nth_error|].
      unfold kr_list. rewrite (map_nth_error _ _ _ (nth_error_combine _ _ _ _ _ Ea Eb)). reflexivity.
  Qed.

  Lemma elementary_ok e : In e (s_exprs s) ->
    exists rf rr x z, elementary_rate_sym s y e = Ok (rf, rr) /\ sev d rf = Ok x /\ sev d rr = Ok z /\
      rxn_rates s cvgs kf_list kr_list e x z.
  Proof.
    intro He. destruct (index_first _ _ He) as (j & Ej & Fj).
    destruct (formula_list_at s U j e (proj1 Fj)) as (fls & En & Ef).
    assert (Hr : In fls (l_rxns (s_lists s))) by (eapply nth_error_In; eauto).
    destruct (parse_rxns_rxn _ _ _ (proj1 P) Hr) as (_ & _ & _ & _ & Nn).
    destruct (lfirst_ok fls Nn) as [first E1]. destruct (llast_ok fls Nn) as [last E2].
    assert (Hj : j < length (s_exprs s)) by (apply nth_error_Some; destruct Fj; congruence).
    destruct (proj2 U fls Hr first last E1 E2) as [U1 U2].
    destruct (constants_at j Hj) as (a & b & kfe & kre & Ea & Eb & S1 & S2 & V1 & V2 & K1 & K2).
    destruct (product_value fls first Hr (lfirst_In _ _ E1) U1 kfe _ V1) as (rf & R1 & W1).
    destruct (product_value fls last Hr (llast_In _ _ E2) U2 kre _ V2) as (rr & R2 & W2).
    exists rf, rr, (mass_action s cvgs (tst T a) first), (mass_action s cvgs (tst T (a - b)) last).
    split; [|split; [exact W1|split; [exact W2|]]].
    - unfold elementary_rate_sym. rewrite Ej.
      destruct (rate_constant_syms y) as [kfs krs] eqn:EK. cbn [fst snd] in S1, S2.
      unfold lindex. rewrite S1, S2. cbn [bind]. rewrite Ef. cbn [bind]. rewrite E1. cbn [bind].
      rewrite R1. cbn [bind]. rewrite E2. cbn [bind]. rewrite R2. reflexivity.
    - intros j' fls' first' last' a' b' Fj' Ef' E1' E2' Ea' Eb'.
      assert (j' = j) by (eapply first_position_unique; eauto). subst j'.
      assert (fls' = fls) by congruence. subst. assert (first' = first) by congruence.
      assert (last' = last) by congruence. subst. split; congruence.
  Qed.

  (** [rxn_rates] determines the rates of a reaction. *)
  Lemma rxn_rates_unique e x z x' z' : In e (s_exprs s) ->
    rxn_rates s cvgs kf_list kr_list e x z -> rxn_rates s cvgs kf_list kr_list e x' z' -> x = x' /\ z = z'.
  Proof.
    intros He H H'. destruct (index_first _ _ He) as (j & Ej & Fj).
    destruct (formula_list_at s U j e (proj1 Fj)) as (fls & En & Ef).
    assert (Hr : In fls (l_rxns (s_lists s))) by (eapply nth_error_In; eauto).
    destruct (parse_rxns_rxn _ _ _ (proj1 P) Hr) as (_ & _ & _ & _ & Nn).
    destruct (lfirst_ok fls Nn) as [first E1]. destruct (llast_ok fls Nn) as [last E2].
    assert (Hj : j < length (s_exprs s)) by (apply nth_error_Some; destruct Fj; congruence).
    destruct (nth_error_lt kf_list j _ kf_length Hj) as [a Ea].
    destruct (nth_error_lt kr_list j _ kr_length Hj) as [b Eb].
    destruct (H j fls first last a b) as [-> ->]; auto.
    destruct (H' j fls first last a b) as [-> ->]; auto.
  Qed.

  (** The symbolic rates evaluate to what the numeric method computes. *)
  Lemma rate_syms_value : exists rf rr rfs rrs,
    rate_syms s y = Ok (rf, rr) /\ mapM (sev d) rf = Ok rfs /\ mapM (sev d) rr = Ok rrs /\
    length rfs = length (s_exprs s) /\ length rrs = length (s_exprs s) /\
    Forall2 (fun e p => rxn_rates s cvgs kf_list kr_list e (fst p) (snd p)) (s_exprs s) (combine rfs rrs).
  Proof.
    unfold rate_syms.
    assert (G : forall es, (forall e, In e es -> In e (s_exprs s)) -> exists l rfs rrs,
      mapM (elementary_rate_sym s y) es = Ok l /\ mapM (sev d) (map fst l) = Ok rfs /\ mapM (sev d) (map snd l) = Ok rrs /\
      length rfs = length es /\ length rrs = length es /\
      Forall2 (fun e p => rxn_rates s cvgs kf_list kr_list e (fst p) (snd p)) es (combine rfs rrs)).
    { induction es as [|e es IH]; intro H.
      - exists [], [], []. repeat split; constructor.
      - destruct IH as (l & rfs & rrs & E1 & E2 & E3 & L1 & L2 & F); [intros; apply H; now right|].
        destruct (elementary_ok e (H e (or_introl eq_refl))) as (rf & rr & x & z & A & B & C & D).
        exists ((rf, rr) :: l), (x :: rfs), (z :: rrs). cbn [mapM map fst snd]. rewrite A, B, C, E1, E2, E3. cbn [bind length].
        repeat (split; [auto; congruence|]). constructor; auto. }
    destruct (G (s_exprs s) (fun e H => H)) as (l & rfs & rrs & E1 & E2 & E3 & L1 & L2 & F).
    exists (map fst l), (map snd l), rfs, rrs. rewrite E1. cbn [bind]. auto 8.
  Qed.

  Lemma numeric_rates : exists rf rr rfs rrs data,
    rate_syms s y = Ok (rf, rr) /\ mapM (sev d) rf = Ok rfs /\ mapM (sev d) rr = Ok rrs /\
    length rfs = length (s_exprs s) /\ length rrs = length (s_exprs s) /\ get_data s = Ok data /\
    rates s (Ok (kf_list, kr_list)) (Some data) cvgs = Ok (rfs, rrs).
  Proof.
    destruct rate_syms_value as (rf & rr & rfs & rrs & A & B & C & L1 & L2 & F).
    destruct (rates_ok s U cvgs kf_list kr_list Len kf_length kr_length) as (data & rfs' & rrs' & D & E & L1' & L2' & F').
    exists rf, rr, rfs, rrs, data. do 6 (split; [assumption|]). rewrite E. f_equal.
    assert (G : forall es a b a' b', (forall e, In e es -> In e (s_exprs s)) ->
      length a = length es -> length b = length es -> length a' = length es -> length b' = length es ->
      Forall2 (fun e p => rxn_rates s cvgs kf_list kr_list e (fst p) (snd p)) es (combine a b) ->
      Forall2 (fun e p => rxn_rates s cvgs kf_list kr_list e (fst p) (snd p)) es (combine a' b') -> a' = a /\ b' = b).
    { induction es as [|e es IH]; intros [|x a] [|z b] [|x' a'] [|z' b'] I A1 A2 A3 A4 F1 F2; try discriminate; auto.
      cbn [combine] in F1, F2. inversion F1; subst. inversion F2; subst. cbn [fst snd] in *.
      destruct (rxn_rates_unique e x z x' z') as [-> ->]; auto; [apply I; now left|].
      destruct (IH a b a' b') as [-> ->]; auto. intros; apply I; now right. }
    destruct (G (s_exprs s) rfs rrs rfs' rrs') as [-> ->]; auto.
  Qed.
End Values.
