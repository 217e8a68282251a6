(** Competing adsorption: lemmas. *)
From Coq Require Import String Ascii List ZArith NArith Bool Arith Reals Lia Lra Permutation.
Import ListNotations.
From Verif Require Import PyBase PyBaseFacts Rxn_Model Rxn_Spec Rxn_Proofs Species_Model Species_Spec
  Species_Proofs Species_Matrix PyReal Energy_Model Energy_Spec Thermo_Model Rate_Model Rate_Spec
  Rate_Proofs MF_Model MF_Spec MF_Cover MF_Rate MF_More Steady_Model Steady_Spec Steady_Properties
  Whole_Spec Whole_Energy Whole_Rates Whole_Order Langmuir_Spec.
Local Open Scope list_scope.
Local Open Scope R_scope.

Lemma Rsum_only {A} (f : A -> R) l : forall i x, nth_error l i = Some x ->
  (forall j y, nth_error l j = Some y -> j <> i -> f y = 0) -> Rsum (map f l) = f x.
Proof.
  induction l as [|a l IH]; intros [|i] x Hi H; cbn in *; try discriminate.
  - injection Hi as ->. rewrite Rsum_zero; [lra|]. intros y Hy. apply In_nth_error in Hy as [j Hj].
    apply (H (S j) y Hj). discriminate.
  - rewrite (IH i x Hi).
    + rewrite (H 0%nat a eq_refl) by discriminate. lra.
    + intros j y Hj Hn. apply (H (S j) y Hj). lia.
Qed.

Lemma Rabs_bound x a : Rabs x <= a -> - a <= x <= a.
Proof. intro H. unfold Rabs in H. destruct (Rcase_abs x); lra. Qed.

Section Adsorption.
  Variable s : setup.
  Hypothesis U : usable_setup s.
  Variable l : list (str * str).
  Hypothesis OA : only_adsorption s l.
  Let P : prepared s := proj1 U.
  Let parsed : parse_rxns (s_exprs s) = Ok (s_lists s) := proj1 P.

  Lemma occurs_ads f : occurs f (l_rxns (s_lists s)) -> (In (f_species_site f) (ads s) <-> ads_formula f).
  Proof.
    intro O. destruct (parse_rxns_facts _ _ parsed) as (M & _ & _ & _ & _ & _ & _ & _ & _ & A & _).
    split; intro H.
    - apply A in H as (g & Og & Rg & E).
      destruct (same_name_parts f g) as [E1 E2]; auto; try (eapply occurs_readable; eauto).
      unfold ads_formula in *. now rewrite E1, E2.
    - apply A. eauto.
  Qed.

  Lemma l_length : length l = length (l_rxns (s_lists s)).
  Proof. destruct OA as [F _]. clear -F. induction F; cbn; auto. Qed.

  Lemma at_l i fls : nth_error (l_rxns (s_lists s)) i = Some fls ->
    exists gas name, nth_error l i = Some (gas, name) /\ adsorption fls gas name.
  Proof.
    destruct OA as [F _]. clear OA U P parsed. revert i. induction F as [|x y a b Hxy F IH]; intros [|i] H; try discriminate.
    - cbn in H. injection H as ->. destruct y as [gas name]. exists gas, name. auto.
    - exact (IH i H).
  Qed.
  Lemma at_rxns i gas name : nth_error l i = Some (gas, name) ->
    exists fls, nth_error (l_rxns (s_lists s)) i = Some fls /\ adsorption fls gas name.
  Proof.
    intro H. assert (i < length (l_rxns (s_lists s)))%nat by (rewrite <- l_length; apply nth_error_Some; congruence).
    destruct (nth_error (l_rxns (s_lists s)) i) as [fls|] eqn:E; [|apply nth_error_None in E; lia].
    destruct (at_l i fls E) as (g & n & H1 & H2). exists fls. split; auto. congruence.
  Qed.

  (** The adsorbates are those of the reactions. *)
  Lemma name_ads i gas name : nth_error l i = Some (gas, name) -> In name (ads s).
  Proof.
    intro H. destruct (at_rxns i gas name H) as (fls & H1 & (g & e & a & mid & E & _ & _ & _ & _ & _ & _ & _ & A & N & _)).
    rewrite <- N. apply occurs_ads; auto. exists fls, [a]. split; [eapply nth_error_In; eauto|]. split; [|now left].
    destruct E as [->| ->]; right; apply in_or_app; right; now left.
  Qed.

  (** Only the last state of its reaction names an adsorbate. *)
  Lemma where_ads fls gas name i f : nth_error (l_rxns (s_lists s)) i = Some fls -> nth_error l i = Some (gas, name) ->
    forall g e a mid, (fls = [g; e] :: mid ++ [[a]] \/ fls = [e; g] :: mid ++ [[a]]) ->
    f_site g = L "g" -> f_species_site e = site_tag name -> f_species_site a = name ->
    (forall st f, In st mid -> In f st -> ~ ads_formula f) ->
    (f = g \/ f = e \/ exists st, In st mid /\ In f st) -> ~ In (f_species_site f) (ads s).
  Proof.
    intros Hi Hl g e a mid E Sg Ne Na Hm Hf I.
    assert (R : In fls (l_rxns (s_lists s))) by (eapply nth_error_In; eauto).
    assert (Og : occurs g (l_rxns (s_lists s))).
    { exists fls. destruct E as [->| ->]; eexists; (split; [exact R|]); (split; [now left|]); cbn; auto. }
    destruct Hf as [->|[->|(st & H1 & H2)]].
    - apply occurs_ads in I; auto. destruct I as [[I _] _]. congruence.
    - rewrite Ne in I. apply (ads_not_site s P _ I). apply (ads_site s P). eapply name_ads; eauto.
    - apply occurs_ads in I; [now apply (Hm st f)|]. exists fls, st. split; auto. split; auto.
      destruct E as [->| ->]; right; apply in_or_app; now left.
  Qed.

  Lemma ads_name n : In n (ads s) -> exists i gas, nth_error l i = Some (gas, n).
  Proof.
    intro H. destruct (ads_known s P n H) as (f & _ & A & -> & (fls & st & R & S1 & S2)).
    apply In_nth_error in R as [i Hi]. destruct (at_l i fls Hi) as (gas & name & Hl & HA).
    pose proof HA as (g & e & a & mid & E & _ & _ & _ & Sg & _ & _ & Ne & Aa & Na & Hm).
    assert (Q : f = a \/ f = g \/ f = e \/ exists st, In st mid /\ In f st).
    { destruct E as [->| ->]; (destruct S1 as [<-|S1]; [destruct S2 as [<-|[<-|[]]]; auto|]);
        (apply in_app_or in S1 as [S1|[<-|[]]];
        [right; right; right; eauto|destruct S2 as [<-|[]]; auto]). }
    destruct Q as [->|Q]; [exists i, gas; congruence|].
    exfalso. exact (where_ads fls gas name i f Hi Hl g e a mid E Sg Ne Na Hm Q H).
  Qed.

  Lemma ads_perm : Permutation (ads s) (map snd l).
  Proof.
    apply NoDup_Permutation; [apply (NoDup_ads s P)|exact (proj2 OA)|]. intro n. split; intro H.
    - destruct (ads_name n H) as (i & gas & Hi). apply in_map_iff. exists (gas, n). split; auto. eapply nth_error_In; eauto.
    - apply in_map_iff in H as ([gas m] & <- & H). apply In_nth_error in H as [i Hi]. eapply name_ads; eauto.
  Qed.

  Lemma names_differ i j gas gas' name : nth_error l i = Some (gas, name) -> nth_error l j = Some (gas', name) -> i = j.
  Proof.
    intros H1 H2. destruct OA as [_ N]. rewrite NoDup_nth_error in N. apply N.
    - rewrite map_length. apply nth_error_Some. congruence.
    - now rewrite !nth_error_map, H1, H2.
  Qed.

  Lemma exprs_NoDup : NoDup (s_exprs s).
  Proof.
    destruct (parse_rxns_facts _ _ parsed) as (M & _). apply mapM_ok_iff in M.
    apply NoDup_nth_error. intros i j Hi E.
    assert (Nth : forall k e, nth_error (s_exprs s) k = Some e ->
      exists fls, nth_error (l_rxns (s_lists s)) k = Some fls /\ rxn_formula_list e = Ok fls).
    { clear -M. induction M as [|x y a b Hxy M IH]; intros [|k] e H; try discriminate.
      - cbn in H. injection H as ->. exists y. auto.
      - exact (IH k e H). }
    destruct (nth_error (s_exprs s) i) as [e|] eqn:Ei; [|apply nth_error_None in Ei; lia].
    destruct (Nth i e Ei) as (f1 & F1 & G1). destruct (Nth j e) as (f2 & F2 & G2); [congruence|].
    assert (f2 = f1) by congruence. subst f2.
    destruct (at_l i f1 F1) as (g1 & n1 & L1 & A1). destruct (at_l j f1 F2) as (g2 & n2 & L2 & A2).
    destruct A1 as (x & y & a & mid & E1 & _ & _ & _ & _ & _ & _ & _ & _ & <- & _).
    destruct A2 as (x' & y' & a' & mid' & E2 & _ & _ & _ & _ & _ & _ & _ & _ & <- & _).
    assert (last f1 [] = [a]).
    { destruct E1 as [->| ->]; rewrite app_comm_cons; apply last_last. }
    assert (last f1 [] = [a']).
    { destruct E2 as [->| ->]; rewrite app_comm_cons; apply last_last. }
    assert (a' = a) by congruence. subst a'. eapply names_differ; eauto.
  Qed.

  Variables (cvgs kf kr : list R).
  Hypothesis Len : length cvgs = length (ads s).
  Hypothesis Lf : length kf = length (s_exprs s).
  Hypothesis Lr : length kr = length (s_exprs s).

  Lemma rates_of i fls gas name a b : nth_error (l_rxns (s_lists s)) i = Some fls -> nth_error l i = Some (gas, name) ->
    fwd s cvgs (fls, (a, b)) = a * value (s_pressure s) gas * coverage s cvgs (site_tag name) /\
    bwd s cvgs (fls, (a, b)) = b * coverage s cvgs name.
  Proof.
    intros Hi Hl. destruct (at_l i fls Hi) as (gas' & name' & Hl' & A).
    rewrite Hl in Hl'. injection Hl' as <- <-.
    destruct A as (g & e & x & mid & E & Z1 & Z2 & Z3 & Sg & Ng & [Se1 Se2] & Ne & [[Sa1 Sa2] _] & Na & _).
    assert (Ag : activity s cvgs g = value (s_pressure s) gas).
    { unfold activity. now rewrite Sg, str_eqb_refl, Ng. }
    assert (Ae : activity s cvgs e = coverage s cvgs (site_tag name)).
    { unfold activity. now rewrite (proj2 (str_eqb_neq _ _) Se1), (proj2 (str_eqb_neq _ _) Se2), Ne. }
    assert (Ax : activity s cvgs x = coverage s cvgs name).
    { unfold activity. now rewrite (proj2 (str_eqb_neq _ _) Sa1), (proj2 (str_eqb_neq _ _) Sa2), Na. }
    assert (En : ends fls = [x]).
    { unfold ends. destruct E as [->| ->]; rewrite app_comm_cons; apply last_last. }
    unfold fwd, bwd. cbn [fst snd]. rewrite En.
    split; [|cbn [mass_action]; rewrite Z3, Ax; change (Z.to_nat 1) with 1%nat; ring].
    destruct E as [->| ->]; unfold begins; cbn [hd mass_action]; rewrite Z1, Z2, Ag, Ae;
      change (Z.to_nat 1) with 1%nat; ring.
  Qed.

  Lemma derivative_of i gas name a b : nth_error l i = Some (gas, name) ->
    nth_error kf i = Some a -> nth_error kr i = Some b ->
    derivative s cvgs (reactions s kf kr) name
    = a * value (s_pressure s) gas * coverage s cvgs (site_tag name) - b * coverage s cvgs name.
  Proof.
    intros Hl Ha Hb. destruct (at_rxns i gas name Hl) as (fls & Hi & A).
    unfold derivative. pose proof (reactions_nth s kf kr i fls a b Hi Ha Hb) as Hx.
    rewrite (Rsum_only _ _ i _ Hx).
    - cbn [fst]. destruct (rates_of i fls gas name a b Hi Hl) as [-> ->].
      symmetry. apply counted_fun. right. right.
      pose proof A as (g & e & x & mid & E & _ & _ & Z & Sg & Ng & _ & Ne & Aa & Na & Hm).
      exists (length mid), 1%Z. split; [|ring].
      exists [x], [], x, []. split; [destruct E as [->| ->]; cbn [nth_error]; rewrite nth_error_app2 by lia; now rewrite Nat.sub_diag|].
      split; [reflexivity|]. split; [exact Na|]. split; [exact Z|]. split; [intros ? []|].
      intros k st Hk Hst f Hf Nf.
      assert (I : In (f_species_site f) (ads s)) by (rewrite Nf; eapply name_ads; eauto).
      revert I. apply (where_ads fls gas name i f Hi Hl g e x mid E Sg Ne Na Hm).
      destruct k as [|k].
      + destruct E as [->| ->]; cbn in Hst; injection Hst as <-; destruct Hf as [<-|[<-|[]]]; auto.
      + right. right. exists st. split; auto.
        assert (nth_error (mid ++ [[x]]) k = Some st) as Q by (destruct E as [->| ->]; exact Hst).
        rewrite nth_error_app1 in Q by lia. eapply nth_error_In; eauto.
    - intros j y Hj Hn. destruct (reactions_inv s kf kr j y Hj) as (Hj' & _).
      symmetry. apply counted_fun. left. split; [|reflexivity].
      destruct (at_l j (fst y) Hj') as (gas' & name' & Hl' & A').
      pose proof A' as (g & e & x & mid & E & _ & _ & Z & Sg & Ng & _ & Ne & Aa & Na & Hm).
      intros st f Hst Hf Nf.
      assert (Q : f = x \/ f = g \/ f = e \/ exists st, In st mid /\ In f st).
      { destruct E as [E|E]; rewrite E in Hst; (destruct Hst as [<-|Hst]; [destruct Hf as [<-|[<-|[]]]; auto|]);
          (apply in_app_or in Hst as [Hst|[<-|[]]];
          [right; right; right; eauto|destruct Hf as [<-|[]]; auto]). }
      destruct Q as [->|Q].
      + apply Hn. rewrite <- Na, Nf in Hl'. exact (names_differ j i gas' gas _ Hl' Hl).
      + apply (where_ads (fst y) gas' name' j f Hj' Hl' g e x mid E Sg Ne Na Hm Q). rewrite Nf. eapply name_ads; eauto.
  Qed.

  Hypothesis Kf : forall a, In a kf -> 0 <= a.
  Hypothesis Kr : forall b, In b kr -> 0 < b.
  Hypothesis Pp : forall gas name, In (gas, name) l -> 0 <= value (s_pressure s) gas.
  Let Ks := quotients kf kr.
  Let theta := coverage s cvgs.
  Let D name := derivative s cvgs (reactions s kf kr) name.

  Lemma lengths : length kf = length l /\ length kr = length l.
  Proof. rewrite l_length, (num_rxns s U). auto. Qed.

  (** Everything that belongs to a reaction. *)
  Let Y := combine l (combine kf kr).
  Lemma Y_at y : In y Y -> exists i, nth_error l i = Some (fst y) /\ nth_error kf i = Some (fst (snd y)) /\
    nth_error kr i = Some (snd (snd y)) /\ nth_error Ks i = Some (fst (snd y) / snd (snd y)).
  Proof.
    intro H. apply In_nth_error in H as [i Hi]. exists i. destruct y as [p [a b]]. cbn [fst snd].
    assert (Q : forall A B (u : list A) (v : list B) j x z, nth_error (combine u v) j = Some (x, z) ->
       nth_error u j = Some x /\ nth_error v j = Some z).
    { clear. induction u as [|y u IH]; intros [|z v] [|j] x w H; cbn in *; try discriminate; [split; congruence|auto]. }
    unfold Y in Hi. apply Q in Hi as [H1 H2]. pose proof H2 as H3. apply Q in H3 as [H3 H4].
    repeat split; auto. unfold Ks, quotients. now rewrite nth_error_map, H2.
  Qed.
  Lemma at_Y i p a b : nth_error l i = Some p -> nth_error kf i = Some a -> nth_error kr i = Some b -> In (p, (a, b)) Y.
  Proof. intros H1 H2 H3. apply (nth_error_In _ i). unfold Y. apply nth_error_combine; auto. now apply nth_error_combine. Qed.

  Let on_site site (f : (str * str) * (R * R) -> R) (y : (str * str) * (R * R)) : R :=
    if str_eqb (site_tag (snd (fst y))) site then f y else 0.
  Let Kp (y : (str * str) * (R * R)) : R := fst (snd y) / snd (snd y) * value (s_pressure s) (fst (fst y)).
  Let late (y : (str * str) * (R * R)) : R := / snd (snd y).
  Let over site f := Rsum (map (on_site site f) Y).

  Lemma pull_over site : pull s l Ks site = over site Kp.
  Proof.
    unfold pull, over, Y, Ks, quotients, on_site, Kp. destruct lengths as [H1 H2]. clear - H1 H2.
    revert kf kr H1 H2. induction l as [|p t IH]; intros [|a ka] [|b kb] H1 H2; try discriminate; [reflexivity|].
    cbn [combine map Rsum fst snd]. rewrite (IH ka kb) by (cbn in H1, H2; lia). reflexivity.
  Qed.
  Lemma delays_over site : delays l kr site = over site late.
  Proof.
    unfold delays, over, Y, on_site, late. destruct lengths as [H1 H2]. clear - H1 H2.
    revert kf kr H1 H2. induction l as [|p t IH]; intros [|a ka] [|b kb] H1 H2; try discriminate; [reflexivity|].
    cbn [combine map Rsum fst snd]. rewrite (IH ka kb) by (cbn in H1, H2; lia). reflexivity.
  Qed.
  Lemma covered_over site : covered site (ads s) cvgs = over site (fun y => theta (snd (fst y))).
  Proof.
    rewrite (covered_sum s P cvgs Len). unfold over, on_site.
    assert (E : forall m, Rsum (map (coverage s cvgs) (on site m)) = Rsum (map (fun n => if str_eqb (site_tag n) site then theta n else 0) m)).
    { induction m as [|n m IH]; [reflexivity|]. cbn [on filter map Rsum]. fold (on site m).
      destruct (str_eqb (site_tag n) site); cbn [map Rsum]; rewrite IH; unfold theta; lra. }
    rewrite E. rewrite (Rsum_perm _ _ (Permutation_map _ ads_perm)).
    unfold Y. destruct lengths as [H1 H2]. clear - H1 H2. subst theta.
    revert kf kr H1 H2. induction l as [|p t IH]; intros [|a ka] [|b kb] H1 H2; try discriminate; [reflexivity|].
    cbn [combine map Rsum fst snd]. rewrite (IH ka kb) by (cbn in H1, H2; lia). reflexivity.
  Qed.

  Lemma over_ext site f g : (forall y, In y Y -> site_tag (snd (fst y)) = site -> f y = g y) -> over site f = over site g.
  Proof.
    intro H. unfold over. apply Rsum_ext. intros y Hy. unfold on_site.
    destruct (str_eqb_spec (site_tag (snd (fst y))) site); auto.
  Qed.
  Lemma over_lin site c f g : over site (fun y => c * f y - g y) = c * over site f - over site g.
  Proof.
    unfold over. induction Y as [|y t IH]; cbn [map Rsum]; [ring|]. rewrite IH. unfold on_site.
    destruct (str_eqb (site_tag (snd (fst y))) site); ring.
  Qed.
  Lemma over_le site f g : (forall y, In y Y -> f y <= g y) -> over site f <= over site g.
  Proof.
    intro H. unfold over. induction Y as [|y t IH]; cbn [map Rsum]; [lra|].
    assert (on_site site f y <= on_site site g y).
    { unfold on_site. destruct (str_eqb (site_tag (snd (fst y))) site); [apply H; now left|lra]. }
    assert (forall z, In z t -> f z <= g z) by (intros; apply H; now right).
    pose proof (IH H1). lra.
  Qed.
  Lemma over_member site f y : (forall y, In y Y -> 0 <= f y) -> In y Y -> site_tag (snd (fst y)) = site -> f y <= over site f.
  Proof.
    intros H. unfold over. induction Y as [|z t IH]; intros Hy E; [destruct Hy|]. cbn [map Rsum].
    assert (Z : forall w, In w t -> 0 <= on_site site f w).
    { intros w Hw. unfold on_site. destruct (str_eqb (site_tag (snd (fst w))) site); [apply H; now right|lra]. }
    assert (0 <= on_site site f z).
    { unfold on_site. destruct (str_eqb (site_tag (snd (fst z))) site); [apply H; now left|lra]. }
    destruct Hy as [->|Hy].
    - assert (on_site site f y = f y) by (unfold on_site; now rewrite (proj2 (str_eqb_eq _ _) E)).
      assert (0 <= Rsum (map (on_site site f) t)); [|lra].
      clear -Z. induction t as [|w t IH]; cbn [map Rsum]; [lra|]. pose proof (Z w (or_introl eq_refl)).
      assert (0 <= Rsum (map (on_site site f) t)) by (apply IH; intros; apply Z; now right). lra.
    - assert (forall w, In w t -> 0 <= f w) by (intros; apply H; now right). pose proof (IH H1 Hy E). lra.
  Qed.

  Lemma Kp_nonneg y : In y Y -> 0 <= Kp y.
  Proof.
    intro Hy. destruct (Y_at y Hy) as (i & H1 & H2 & H3 & _). unfold Kp.
    apply Rmult_le_pos.
    - apply Rmult_le_pos; [apply Kf; eapply nth_error_In; eauto|]. left. apply Rinv_0_lt_compat, Kr. eapply nth_error_In; eauto.
    - destruct (fst y) as [gas name] eqn:E. cbn [fst]. apply (Pp gas name). eapply nth_error_In; eauto.
  Qed.
  Lemma pull_nonneg site : 0 <= over site Kp.
  Proof.
    replace 0 with (over site (fun _ => 0)).
    - apply over_le. intros y Hy. now apply Kp_nonneg.
    - unfold over. apply Rsum_zero. intros y _. unfold on_site. now destruct (str_eqb (site_tag (snd (fst y))) site).
  Qed.
  Lemma late_nonneg y : In y Y -> 0 <= late y.
  Proof.
    intro Hy. destruct (Y_at y Hy) as (i & H1 & H2 & H3 & _). unfold late. left. apply Rinv_0_lt_compat, Kr. eapply nth_error_In; eauto.
  Qed.

  (** A coverage and the free sites, up to the residual. *)
  Lemma theta_is y : In y Y -> theta (snd (fst y)) = theta (site_tag (snd (fst y))) * Kp y - D (snd (fst y)) * late y.
  Proof.
    intro Hy. destruct (Y_at y Hy) as (i & H1 & H2 & H3 & _). destruct y as [[gas name] [a b]]. cbn [fst snd] in *.
    unfold Kp, late. cbn [fst snd]. unfold D. rewrite (derivative_of i gas name a b H1 H2 H3). unfold theta.
    assert (0 < b) by (apply Kr; eapply nth_error_In; eauto). field. lra.
  Qed.
  Lemma site_known y : In y Y -> In (site_tag (snd (fst y))) (sites s).
  Proof.
    intro Hy. destruct (Y_at y Hy) as (i & H1 & _). destruct (fst y) as [gas name]. cbn [snd].
    apply (ads_site s P). eapply name_ads; eauto.
  Qed.
  Lemma free_is site : In site (sites s) ->
    theta site * (1 + over site Kp) = total s site + over site (fun y => D (snd (fst y)) * late y).
  Proof.
    intro Hs. pose proof (site_coverage s P cvgs Len site Hs) as E. fold theta in E.
    rewrite covered_over in E.
    rewrite (over_ext site _ (fun y => theta site * Kp y - D (snd (fst y)) * late y)) in E.
    - rewrite over_lin in E. lra.
    - intros y Hy <-. now apply theta_is.
  Qed.

  Lemma all_zero_langmuir : (forall n, In n (ads s) -> D n = 0) <-> langmuir s l Ks cvgs.
  Proof.
    split.
    - intros Z i gas name K Hl HK. unfold isotherm. rewrite pull_over.
      assert (Hi : (i < length l)%nat) by (apply nth_error_Some; congruence).
      destruct lengths as [H1 H2].
      destruct (nth_error_lt kf i _ H1 Hi) as [a Ha]. destruct (nth_error_lt kr i _ H2 Hi) as [b Hb].
      pose proof (at_Y i _ a b Hl Ha Hb) as Hy. destruct (Y_at _ Hy) as (j & J1 & J2 & J3 & J4). cbn [fst snd] in *.
      assert (j = i) by (eapply names_differ; eauto). subst j.
      assert (K = a / b) by congruence. subst K.
      pose proof (free_is _ (site_known _ Hy)) as F. pose proof (theta_is _ Hy) as T. cbn [fst snd] in F, T.
      rewrite (over_ext _ (fun y => D (snd (fst y)) * late y) (fun y => 0 * 0 - 0)) in F.
      2:{ intros y Hy' _. destruct (Y_at y Hy') as (k & K1 & _). destruct (fst y) as [g n]. cbn [snd].
          rewrite Z; [ring|eapply name_ads; eauto]. }
      rewrite (over_lin _ 0 (fun _ => 0) (fun _ => 0)) in F.
      assert (Z0 : over (site_tag name) (fun _ => 0) = 0).
      { unfold over. apply Rsum_zero. intros y _. unfold on_site. now destruct (str_eqb (site_tag (snd (fst y))) (site_tag name)). }
      rewrite Z0 in F. rewrite (Z name) in T by (eapply name_ads; eauto).
      fold theta. rewrite T. unfold Kp. cbn [fst snd].
      pose proof (pull_nonneg (site_tag name)). 
      apply (Rmult_eq_reg_r (1 + over (site_tag name) Kp)); [|lra].
      unfold Rdiv at 2. rewrite (Rmult_assoc _ (/ _)), Rinv_l by lra.
      replace ((theta (site_tag name) * (a / b * value (s_pressure s) gas) - 0 * late (gas, name, (a, b))) * (1 + over (site_tag name) Kp))
        with (theta (site_tag name) * (1 + over (site_tag name) Kp) * (a / b * value (s_pressure s) gas)) by ring.
      rewrite F. ring.
    - intros H n Hn. destruct (ads_name n Hn) as (i & gas & Hl).
      assert (Hi : (i < length l)%nat) by (apply nth_error_Some; congruence).
      destruct lengths as [H1 H2].
      destruct (nth_error_lt kf i _ H1 Hi) as [a Ha]. destruct (nth_error_lt kr i _ H2 Hi) as [b Hb].
      pose proof (at_Y i _ a b Hl Ha Hb) as Hy.
      assert (At : forall y, In y Y -> theta (snd (fst y)) =
         total s (site_tag (snd (fst y))) / (1 + over (site_tag (snd (fst y))) Kp) * Kp y).
      { intros y Hy'. destruct (Y_at y Hy') as (j & J1 & J2 & J3 & J4). destruct y as [[g m] [c d]]. cbn [fst snd] in *.
        unfold theta. rewrite (H j g m (c / d) J1 J4). unfold isotherm. rewrite pull_over. unfold Kp. cbn [fst snd].
        unfold Rdiv. ring. }
      pose proof (site_known _ Hy) as Hs. cbn [fst snd] in Hs. set (site := site_tag n) in *.
      pose proof (pull_nonneg site) as Pn.
      pose proof (site_coverage s P cvgs Len site Hs) as E. fold theta in E. rewrite covered_over in E.
      rewrite (over_ext site _ (fun y => total s site / (1 + over site Kp) * Kp y - 0)) in E.
      2:{ intros y Hy' <-. rewrite (At y Hy'). ring. }
      rewrite (over_lin site (total s site / (1 + over site Kp)) Kp (fun _ => 0)) in E.
      assert (Z0 : over site (fun _ => 0) = 0).
      { unfold over. apply Rsum_zero. intros y _. unfold on_site. now destruct (str_eqb (site_tag (snd (fst y))) site). }
      rewrite Z0 in E.
      assert (E' : theta site = total s site / (1 + over site Kp)) by (rewrite E; field; lra).
      pose proof (At _ Hy) as T. cbn [fst snd] in T. fold site in T.
      unfold D. rewrite (derivative_of i gas n a b Hl Ha Hb). fold theta. fold site. rewrite T, E'.
      set (t := over site Kp) in *. clearbody t. unfold Kp. cbn [fst snd].
      assert (0 < b) by (apply Kr; eapply nth_error_In; eauto). field. split; lra.
  Qed.

  (** Small rates: close to the isotherm. *)
  Lemma near_langmuir tol : (forall n, In n (ads s) -> Rabs (D n) <= tol) ->
    forall i gas name K b, nth_error l i = Some (gas, name) -> nth_error Ks i = Some K -> nth_error kr i = Some b ->
    Rabs (coverage s cvgs name - isotherm s l Ks gas name K) <= tol * (delays l kr (site_tag name) + / b).
  Proof.
    intros Z i gas name K b Hl HK Hb. unfold isotherm. rewrite pull_over, delays_over.
    assert (Hi : (i < length l)%nat) by (apply nth_error_Some; congruence).
    destruct lengths as [H1 H2].
    destruct (nth_error_lt kf i _ H1 Hi) as [a Ha].
    pose proof (at_Y i _ a b Hl Ha Hb) as Hy. destruct (Y_at _ Hy) as (j & J1 & J2 & J3 & J4). cbn [fst snd] in *.
    assert (j = i) by (eapply names_differ; eauto). subst j.
    assert (K = a / b) by congruence. subst K.
    pose proof (free_is _ (site_known _ Hy)) as F. pose proof (theta_is _ Hy) as T. cbn [fst snd] in F, T.
    set (site := site_tag name) in *. pose proof (pull_nonneg site) as Pn.
    pose proof (Z name ltac:(eapply name_ads; eauto)) as Zn.
    assert (T0 : 0 <= tol) by (pose proof (Rabs_pos (D name)); lra).
    pose proof (over_member site Kp _ Kp_nonneg Hy eq_refl) as M.
    pose proof (Kp_nonneg _ Hy) as K0. pose proof (late_nonneg _ Hy) as L0.
    set (err := over site (fun y => D (snd (fst y)) * late y)) in *.
    assert (Er : Rabs err <= tol * over site late).
    { unfold err. assert (Q1 : over site (fun y => D (snd (fst y)) * late y) <= over site (fun y => tol * late y - 0)).
      { apply over_le. intros y Hy'. pose proof (late_nonneg y Hy') as Ly. destruct (Y_at y Hy') as (k & K1 & _).
        destruct (fst y) as [g m]. cbn [snd]. pose proof (Z m ltac:(eapply name_ads; eauto)) as Zm.
        apply Rabs_bound in Zm. assert (D m * late y <= tol * late y) by (apply Rmult_le_compat_r; lra). lra. }
      assert (Q2 : over site (fun y => (- tol) * late y - 0) <= over site (fun y => D (snd (fst y)) * late y)).
      { apply over_le. intros y Hy'. pose proof (late_nonneg y Hy') as Ly. destruct (Y_at y Hy') as (k & K1 & _).
        destruct (fst y) as [g m]. cbn [snd]. pose proof (Z m ltac:(eapply name_ads; eauto)) as Zm.
        apply Rabs_bound in Zm. assert (- tol * late y <= D m * late y) by (apply Rmult_le_compat_r; lra). lra. }
      rewrite (over_lin site tol late (fun _ => 0)) in Q1. rewrite (over_lin site (- tol) late (fun _ => 0)) in Q2.
      assert (Z0 : over site (fun _ => 0) = 0).
      { unfold over. apply Rsum_zero. intros y _. unfold on_site. now destruct (str_eqb (site_tag (snd (fst y))) site). }
      rewrite Z0 in Q1, Q2. apply Rabs_le. lra. }
    change (a / b * value (s_pressure s) gas) with (Kp (gas, name, (a, b))).
    set (k := Kp (gas, name, (a, b))) in *. set (t := over site Kp) in *.
    fold theta. rewrite T.
    assert (E : theta site = (total s site + err) / (1 + t)) by (apply (Rmult_eq_reg_r (1 + t)); [rewrite F; field; lra|lra]).
    rewrite E.
    replace ((total s site + err) / (1 + t) * k - D name * late (gas, name, (a, b)) - total s site * k / (1 + t))
      with (err * (k / (1 + t)) + - (D name * late (gas, name, (a, b)))) by (field; lra).
    assert (R1 : 0 <= k / (1 + t) <= 1).
    { split; [apply Rmult_le_pos; [lra|left; apply Rinv_0_lt_compat; lra]|].
      apply (Rmult_le_reg_r (1 + t)); [lra|]. unfold Rdiv. rewrite Rmult_assoc, Rinv_l; lra. }
    eapply Rle_trans; [apply Rabs_triang|]. rewrite Rabs_Ropp, !Rabs_mult.
    rewrite (Rabs_pos_eq (k / (1 + t))) by lra. rewrite (Rabs_pos_eq (late (gas, name, (a, b)))) by auto.
    rewrite Rmult_plus_distr_l. apply Rplus_le_compat.
    - apply Rle_trans with (Rabs err * 1); [apply Rmult_le_compat_l; [apply Rabs_pos|lra]|lra].
    - change (/ b) with (late (gas, name, (a, b))). apply Rmult_le_compat_r; auto.
  Qed.

  Lemma langmuir_free : langmuir s l Ks cvgs -> forall site, In site (sites s) ->
    theta site = total s site / (1 + over site Kp).
  Proof.
    intros H site Hs. pose proof (pull_nonneg site) as Pn.
    pose proof (free_is site Hs) as F.
    rewrite (over_ext _ (fun y => D (snd (fst y)) * late y) (fun y => 0 * 0 - 0)) in F.
    2:{ intros y Hy' _. destruct (Y_at y Hy') as (k & K1 & _). destruct (fst y) as [g n]. cbn [snd].
        rewrite (proj2 all_zero_langmuir H n); [ring|eapply name_ads; eauto]. }
    rewrite (over_lin _ 0 (fun _ => 0) (fun _ => 0)) in F.
    assert (Z0 : over site (fun _ => 0) = 0).
    { unfold over. apply Rsum_zero. intros y _. unfold on_site. now destruct (str_eqb (site_tag (snd (fst y))) site). }
    rewrite Z0 in F. apply (Rmult_eq_reg_r (1 + over site Kp)); [|lra]. rewrite F. field. lra.
  Qed.

  Lemma langmuir_feasible : langmuir s l Ks cvgs -> (forall site, In site (sites s) -> 0 <= total s site <= 1) ->
    feasible s cvgs.
  Proof.
    intros H T.
    assert (Free : forall site, In site (sites s) -> 0 <= theta site).
    { intros site Hs. rewrite (langmuir_free H site Hs). pose proof (pull_nonneg site).
      apply Rmult_le_pos; [now apply T|]. left. apply Rinv_0_lt_compat. lra. }
    assert (Pos : forall y, In y Y -> 0 <= theta (snd (fst y))).
    { intros y Hy. rewrite (theta_is y Hy). destruct (Y_at y Hy) as (k & K1 & _).
      rewrite (proj2 all_zero_langmuir H (snd (fst y))).
      - pose proof (Rmult_le_pos _ _ (Free _ (site_known y Hy)) (Kp_nonneg y Hy)). lra.
      - destruct (fst y) as [g n]. eapply name_ads; eauto. }
    assert (Cov : forall site, In site (sites s) -> covered site (ads s) cvgs <= total s site).
    { intros site Hs. pose proof (site_coverage s P cvgs Len site Hs) as E. fold theta in E. pose proof (Free site Hs). lra. }
    split; [exact Len|]. split; [|exact Cov].
    intros i n x Hn Hx. pose proof (nth_coverage s P cvgs Len i n x Hn Hx) as E. fold theta in E.
    destruct (ads_name n (nth_error_In _ _ Hn)) as (j & gas & Hj).
    assert (Hi : (j < length l)%nat) by (apply nth_error_Some; congruence).
    destruct lengths as [H1 H2].
    destruct (nth_error_lt kf j _ H1 Hi) as [a Ha]. destruct (nth_error_lt kr j _ H2 Hi) as [b Hb].
    pose proof (at_Y j _ a b Hj Ha Hb) as Hy. pose proof (Pos _ Hy) as Q. cbn [fst snd] in Q.
    pose proof (over_member (site_tag n) _ _ Pos Hy eq_refl) as M. cbn [fst snd] in M.
    rewrite <- covered_over in M. pose proof (Cov _ (site_known _ Hy)) as C. cbn [fst snd] in C.
    pose proof (T _ (site_known _ Hy)) as T1. cbn [fst snd] in T1. rewrite <- E. lra.
  Qed.
End Adsorption.

Section Results.
  Variable s : setup.
  Hypothesis U : usable_setup s.
  Variable l : list (str * str).
  Hypothesis OA : only_adsorption s l.
  Variables kf kr : list R.
  Hypothesis Lf : length kf = length (s_exprs s).
  Hypothesis Lr : length kr = length (s_exprs s).
  Hypothesis Kf : forall a, In a kf -> 0 <= a.
  Hypothesis Kr : forall b, In b kr -> 0 < b.
  Hypothesis Pp : forall gas name, In (gas, name) l -> 0 <= value (s_pressure s) gas.

  Lemma langmuir_steady cvgs : length cvgs = length (ads s) ->
    exists data F, get_data s = Ok data /\ steady_state_function s (Ok (kf, kr)) (Some data) cvgs = Ok F /\
      length F = length (ads s) /\ ((forall y, In y F -> y = 0) <-> langmuir s l (quotients kf kr) cvgs).
  Proof.
    intro Len. destruct (explicit s U (exprs_NoDup s U l OA) cvgs kf kr Len Lf Lr) as (data & E1 & _ & _ & E4 & _).
    exists data. eexists. split; [exact E1|]. split; [exact E4|]. split; [now rewrite map_length|].
    rewrite <- (all_zero_langmuir s U l OA cvgs kf kr Len Lf Lr Kf Kr Pp). split.
    - intros H n Hn. apply H. now apply in_map.
    - intros H y Hy. apply in_map_iff in Hy as (n & <- & Hn). auto.
  Qed.

  Let g n := match find (fun t => str_eqb (snd (fst t)) n) (combine l (quotients kf kr)) with
             | Some t => isotherm s l (quotients kf kr) (fst (fst t)) (snd (fst t)) (snd t)
             | None => 0
             end.
  Lemma g_langmuir : langmuir s l (quotients kf kr) (map g (ads s)).
  Proof.
    intros i gas name K Hl HK. rewrite (map_coverage s (proj1 U)) by (eapply name_ads; eauto).
    unfold g. pose proof (nth_error_combine _ _ _ _ _ Hl HK) as Hc.
    destruct (find (fun t => str_eqb (snd (fst t)) name) (combine l (quotients kf kr))) as [t|] eqn:E.
    - apply find_some in E as [H1 H2]. apply str_eqb_eq in H2.
      apply In_nth_error in H1 as [j Hj].
      assert (Hl' : nth_error l j = Some (fst t)).
      { clear -Hj. revert j Hj. generalize (quotients kf kr). induction l as [|p u IH]; intros [|q v] [|j] Hj; cbn in *; try discriminate.
        - injection Hj as <-. reflexivity.
        - eapply IH; eauto. }
      assert (j = i). { destruct t as [[g' n'] k']. cbn in *. subst n'. eapply (names_differ s l OA); eauto. }
      subst j. rewrite Hc in Hj. injection Hj as <-. reflexivity.
    - exfalso. apply find_none with (x := (gas, name, K)) in E; [|eapply nth_error_In; eauto].
      cbn in E. now rewrite str_eqb_refl in E.
  Qed.

  Lemma langmuir_fun c1 c2 : length c1 = length (ads s) -> length c2 = length (ads s) ->
    langmuir s l (quotients kf kr) c1 -> langmuir s l (quotients kf kr) c2 -> c1 = c2.
  Proof.
    intros L1 L2 H1 H2. rewrite <- (coverages_list s (proj1 U) c1 L1), <- (coverages_list s (proj1 U) c2 L2).
    apply map_ext_in. intros n Hn. destruct (ads_name s U l OA n Hn) as (i & gas & Hi).
    assert (Hq : length (quotients kf kr) = length l).
    { unfold quotients. rewrite map_length, combine_length. rewrite (l_length s l OA), (num_rxns s U). lia. }
    assert (Hlt : (i < length l)%nat) by (apply nth_error_Some; congruence).
    destruct (nth_error_lt _ i _ Hq Hlt) as [K HK]. now rewrite (H1 i gas n K Hi HK), (H2 i gas n K Hi HK).
  Qed.

  Lemma exactly_one : (forall site, In site (sites s) -> 0 <= total s site <= 1) ->
    exists data c, get_data s = Ok data /\ feasible s c /\
      forall c', length c' = length (ads s) ->
        (exists F, steady_state_function s (Ok (kf, kr)) (Some data) c' = Ok F /\ forall y, In y F -> y = 0) <-> c' = c.
  Proof.
    intro T. assert (Len : length (map g (ads s)) = length (ads s)) by now rewrite map_length.
    destruct (langmuir_steady _ Len) as (data & F & D & E & _ & Q). exists data, (map g (ads s)).
    split; [exact D|]. split.
    { apply (langmuir_feasible s U l OA _ kf kr Len Lf Lr Kf Kr Pp); [apply g_langmuir|exact T]. }
    intros c' Len'. destruct (langmuir_steady c' Len') as (data' & F' & D' & E' & _ & Q').
    assert (data' = data) by congruence. subst data'. split.
    - intros (F2 & E2 & Z). assert (F2 = F') by congruence. subst F2. apply langmuir_fun; auto; [now apply Q'|apply g_langmuir].
    - intros ->. exists F. split; [exact E|]. apply Q. apply g_langmuir.
  Qed.

  Lemma reported_langmuir I (q : search I) data fuel c0 a st : get_data s = Ok data ->
    (forall c, q_f q c = steady_state_function s (Ok (kf, kr)) (Some data) c) ->
    get_steady_state_cvgs q fuel c0 = (Ok (Some a), st) ->
    exists cvgs, a_coverages a = Some cvgs /\ (length cvgs = length (ads s) ->
      forall i gas name K b, nth_error l i = Some (gas, name) -> nth_error (quotients kf kr) i = Some K ->
      nth_error kr i = Some b ->
      Rabs (coverage s cvgs name - isotherm s l (quotients kf kr) gas name K)
      <= q_tolerance q * (delays l kr (site_tag name) + / b)).
  Proof.
    intros D Q G. destruct (C34_converged _ _ _ _ _ _ G) as (x & E & (v & V & _ & B)). exists x. split; [exact E|].
    intro Len. apply (near_langmuir s U l OA x kf kr Len Lf Lr Kf Kr Pp).
    destruct (explicit s U (exprs_NoDup s U l OA) x kf kr Len Lf Lr) as (data' & E1 & _ & _ & E4 & _).
    assert (data' = data) by congruence. subst data'. rewrite Q, E4 in V. injection V as <-.
    intros n Hn. apply B. now apply (in_map (derivative s x (reactions s kf kr))).
  Qed.
End Results.

(** Equilibrium constants from reaction energies. *)
Lemma quotients_TST kf kr T : forall ds, length kf = length ds -> length kr = length ds ->
  (forall i d, nth_error ds i = Some d -> exists a b, nth_error kf i = Some a /\ nth_error kr i = Some b /\
     0 < a /\ 0 < b /\ ln a - ln b = - d / kT T) ->
  quotients kf kr = map (fun d => exp (- d / kT T)) ds /\ (forall a, In a kf -> 0 <= a) /\ (forall b, In b kr -> 0 < b).
Proof.
  revert kr. induction kf as [|a kf IH]; intros [|b kr] [|d ds] L1 L2 H; try discriminate.
  - split; [reflexivity|]. split; intros ? [].
  - destruct (IH kr ds) as (E & P1 & P2); [cbn in L1; lia|cbn in L2; lia|intros i d' Hd; exact (H (S i) d' Hd)|].
    destruct (H 0%nat d eq_refl) as (a' & b' & X1 & X2 & Pa & Pb & X3). injection X1 as <-. injection X2 as <-.
    split.
    + unfold quotients in *. cbn [combine map fst snd]. rewrite E. f_equal. rewrite <- X3.
      unfold Rminus. rewrite exp_plus, exp_Ropp, !exp_ln by auto. reflexivity.
    + split; [intros x [<-|Hx]; [lra|auto]|intros x [<-|Hx]; auto].
Qed.

Lemma langmuir_TST ec o own s l r : usable_setup s -> only_adsorption s l -> o_rxns o = s_exprs s -> 0 < o_T o ->
  consistent r (length (s_exprs s)) -> (forall gas name, In (gas, name) l -> 0 <= value (s_pressure s) gas) ->
  exists data kf kr, get_data s = Ok data /\ rate_constants ec o (L "TST") (Some r) own = Ok (kf, kr) /\
  forall cvgs, length cvgs = length (ads s) ->
    exists F, steady_state_function s (Ok (kf, kr)) (Some data) cvgs = Ok F /\ length F = length (ads s) /\
      ((forall y, In y F -> y = 0) <-> langmuir s l (map (fun d => exp (- d / (kB_eV * o_T o))) (r_dG r)) cvgs).
Proof.
  intros U OA Eo HT Cons Pp. pose proof (exprs_NoDup s U l OA) as ND.
  destruct (constants_of ec o r own HT) as (kf & kr & E & L1 & L2 & V); [rewrite Eo; exact ND|rewrite Eo; exact Cons|].
  rewrite Eo in L1, L2. pose proof Cons as [(_ & _ & L3) _].
  destruct (quotients_TST kf kr (o_T o) (r_dG r)) as (Q & P1 & P2); [congruence|congruence|exact V|].
  unfold kT in Q. rewrite <- Q.
  destruct (explicit s U ND (map (fun _ => 0) (ads s)) kf kr ltac:(now rewrite map_length) L1 L2) as (data & D & _).
  exists data, kf, kr. split; [exact D|]. split; [exact E|]. intros cvgs Len.
  destruct (langmuir_steady s U l OA kf kr L1 L2 P1 P2 Pp cvgs Len) as (data' & F & D' & E' & L' & Z).
  assert (data' = data) by congruence. subst data'. eauto.
Qed.
