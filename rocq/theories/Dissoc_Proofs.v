(** Dissociative adsorption: lemmas. *)
From Coq Require Import String Ascii List ZArith NArith Bool Arith Reals Lia Lra Permutation.
Import ListNotations.
From Verif Require Import PyBase PyBaseFacts Rxn_Model Rxn_Spec Rxn_Proofs Species_Model Species_Spec
  Species_Proofs Species_Matrix PyReal Energy_Model Energy_Spec Thermo_Model Rate_Model Rate_Spec
  Rate_Proofs MF_Model MF_Spec MF_Cover MF_Rate MF_More Steady_Model Steady_Spec Steady_Properties
  Whole_Spec Whole_Energy Whole_Rates Whole_Order Langmuir_Spec Langmuir_Proofs Dissoc_Spec.
Local Open Scope list_scope.
Local Open Scope R_scope.

(** Roots. *)
Lemma pow_strict n : forall x y, 0 <= x < y -> x ^ S n < y ^ S n.
Proof.
  induction n as [|n IH]; intros x y H; [cbn; lra|].
  change (x ^ S (S n)) with (x * x ^ S n). change (y ^ S (S n)) with (y * y ^ S n).
  pose proof (IH x y H). apply Rmult_le_0_lt_compat; try lra. apply pow_le. lra.
Qed.
Lemma pow_inj n x y : (1 <= n)%nat -> 0 <= x -> 0 <= y -> x ^ n = y ^ n -> x = y.
Proof.
  intros Hn Hx Hy E. destruct n as [|n]; [lia|].
  destruct (Rtotal_order x y) as [H|[H|H]]; auto; exfalso.
  - pose proof (pow_strict n x y (conj Hx H)). lra.
  - pose proof (pow_strict n y x (conj Hy H)). lra.
Qed.
Lemma root_nonneg n y : 0 <= root n y.
Proof. unfold root. destruct (Rlt_dec 0 y); [|lra]. left. apply exp_pos. Qed.
Lemma root_pow n y : (1 <= n)%nat -> 0 <= y -> root n y ^ n = y.
Proof.
  intros Hn Hy. unfold root. destruct (Rlt_dec 0 y) as [H|H].
  - rewrite <- Rpower_pow by apply exp_pos. rewrite Rpower_mult, Rinv_l, Rpower_1; auto.
    apply not_0_INR. lia.
  - rewrite pow_ne_zero by lia. lra.
Qed.
Lemma root_iff n y x : (1 <= n)%nat -> 0 <= y -> 0 <= x -> x = root n y <-> x ^ n = y.
Proof.
  intros Hn Hy Hx. split; [intros ->; now apply root_pow|]. intro E.
  apply (pow_inj n); auto; [apply root_nonneg|]. now rewrite root_pow.
Qed.

Section Adsorption.
  Variable s : setup.
  Hypothesis U : usable_setup s.
  Variable l : list (str * str * nat).
  Hypothesis OA : only_dissociation s l.
  Let P : prepared s := proj1 U.
  Let parsed : parse_rxns (s_exprs s) = Ok (s_lists s) := proj1 P.

  Lemma occurs_ads f : occurs f (l_rxns (s_lists s)) -> (In (f_species_site f) (ads s) <-> ads_formula f).
  Proof.
    intro O. destruct (parse_rxns_facts _ _ parsed) as (M & _ & _ & _ & _ & _ & _ & _ & _ & A & _).
    split; intro H.
    - apply A in H as (g & Og & Rg & E).
      destruct (same_name_parts f g) as [E1 E2]; auto; try (eapply occurs_readable; eauto).
      unfold ads_formula in *. now rewrite E1, E2.
    - apply A. eauto.
  Qed.

  Lemma l_length : length l = length (l_rxns (s_lists s)).
  Proof. destruct OA as [F _]. clear -F. induction F; cbn; auto. Qed.

  Lemma at_l i fls : nth_error (l_rxns (s_lists s)) i = Some fls ->
    exists gas name m, nth_error l i = Some (gas, name, m) /\ dissociation fls gas name m.
  Proof.
    destruct OA as [F _]. clear OA U P parsed. revert i. induction F as [|x y a b Hxy F IH]; intros [|i] H; try discriminate.
    - cbn in H. injection H as ->. destruct y as [[gas name] m]. exists gas, name, m. auto.
    - exact (IH i H).
  Qed.
  Lemma at_rxns i gas name m : nth_error l i = Some (gas, name, m) ->
    exists fls, nth_error (l_rxns (s_lists s)) i = Some fls /\ dissociation fls gas name m.
  Proof.
    intro H. assert (i < length (l_rxns (s_lists s)))%nat by (rewrite <- l_length; apply nth_error_Some; congruence).
    destruct (nth_error (l_rxns (s_lists s)) i) as [fls|] eqn:E; [|apply nth_error_None in E; lia].
    destruct (at_l i fls E) as (g & n & m0 & H1 & H2). exists fls. split; auto. congruence.
  Qed.

  (** The adsorbates are those of the reactions. *)
  Lemma name_ads i gas name m : nth_error l i = Some (gas, name, m) -> In name (ads s).
  Proof.
    intro H. destruct (at_rxns i gas name m H) as (fls & H1 & (g & e & a & mid & E & _ & _ & _ & _ & _ & _ & _ & _ & A & N & _)).
    rewrite <- N. apply occurs_ads; auto. exists fls, [a]. split; [eapply nth_error_In; eauto|]. split; [|now left].
    destruct E as [->| ->]; right; apply in_or_app; right; now left.
  Qed.

  (** Only the last state of its reaction names an adsorbate. *)
  Lemma where_ads fls gas name m i f : nth_error (l_rxns (s_lists s)) i = Some fls -> nth_error l i = Some (gas, name, m) ->
    forall g e a mid, (fls = [g; e] :: mid ++ [[a]] \/ fls = [e; g] :: mid ++ [[a]]) ->
    f_site g = L "g" -> f_species_site e = site_tag name -> f_species_site a = name ->
    (forall st f, In st mid -> In f st -> ~ ads_formula f) ->
    (f = g \/ f = e \/ exists st, In st mid /\ In f st) -> ~ In (f_species_site f) (ads s).
  Proof.
    intros Hi Hl g e a mid E Sg Ne Na Hm Hf I.
    assert (R : In fls (l_rxns (s_lists s))) by (eapply nth_error_In; eauto).
    assert (Og : occurs g (l_rxns (s_lists s))).
    { exists fls. destruct E as [->| ->]; eexists; (split; [exact R|]); (split; [now left|]); cbn; auto. }
    destruct Hf as [->|[->|(st & H1 & H2)]].
    - apply occurs_ads in I; auto. destruct I as [[I _] _]. congruence.
    - rewrite Ne in I. apply (ads_not_site s P _ I). apply (ads_site s P). eapply name_ads; eauto.
    - apply occurs_ads in I; [now apply (Hm st f)|]. exists fls, st. split; auto. split; auto.
      destruct E as [->| ->]; right; apply in_or_app; now left.
  Qed.

  Lemma ads_name n : In n (ads s) -> exists i gas m, nth_error l i = Some (gas, n, m).
  Proof.
    intro H. destruct (ads_known s P n H) as (f & _ & A & -> & (fls & st & R & S1 & S2)).
    apply In_nth_error in R as [i Hi]. destruct (at_l i fls Hi) as (gas & name & m & Hl & HA).
    pose proof HA as (g & e & a & mid & E & _ & _ & _ & _ & Sg & _ & _ & Ne & Aa & Na & Hm).
    assert (Q : f = a \/ f = g \/ f = e \/ exists st, In st mid /\ In f st).
    { destruct E as [->| ->]; (destruct S1 as [<-|S1]; [destruct S2 as [<-|[<-|[]]]; auto|]);
        (apply in_app_or in S1 as [S1|[<-|[]]];
        [right; right; right; eauto|destruct S2 as [<-|[]]; auto]). }
    destruct Q as [->|Q]; [exists i, gas, m; congruence|].
    exfalso. exact (where_ads fls gas name m i f Hi Hl g e a mid E Sg Ne Na Hm Q H).
  Qed.

  Lemma ads_perm : Permutation (ads s) (map (fun p => snd (fst p)) l).
  Proof.
    apply NoDup_Permutation; [apply (NoDup_ads s P)|exact (proj2 OA)|]. intro n. split; intro H.
    - destruct (ads_name n H) as (i & gas & m & Hi). apply in_map_iff. exists (gas, n, m). split; auto. eapply nth_error_In; eauto.
    - apply in_map_iff in H as ([[gas n0] m] & <- & H). apply In_nth_error in H as [i Hi]. eapply name_ads; eauto.
  Qed.

  Lemma names_differ i j gas gas' name m m' : nth_error l i = Some (gas, name, m) -> nth_error l j = Some (gas', name, m') -> i = j.
  Proof.
    intros H1 H2. destruct OA as [_ N]. rewrite NoDup_nth_error in N. apply N.
    - rewrite map_length. apply nth_error_Some. congruence.
    - now rewrite !nth_error_map, H1, H2.
  Qed.

  Lemma exprs_NoDup : NoDup (s_exprs s).
  Proof.
    destruct (parse_rxns_facts _ _ parsed) as (M & _). apply mapM_ok_iff in M.
    apply NoDup_nth_error. intros i j Hi E.
    assert (Nth : forall k e, nth_error (s_exprs s) k = Some e ->
      exists fls, nth_error (l_rxns (s_lists s)) k = Some fls /\ rxn_formula_list e = Ok fls).
    { clear -M. induction M as [|x y a b Hxy M IH]; intros [|k] e H; try discriminate.
      - cbn in H. injection H as ->. exists y. auto.
      - exact (IH k e H). }
    destruct (nth_error (s_exprs s) i) as [e|] eqn:Ei; [|apply nth_error_None in Ei; lia].
    destruct (Nth i e Ei) as (f1 & F1 & G1). destruct (Nth j e) as (f2 & F2 & G2); [congruence|].
    assert (f2 = f1) by congruence. subst f2.
    destruct (at_l i f1 F1) as (g1 & n1 & m1 & L1 & A1). destruct (at_l j f1 F2) as (g2 & n2 & m2 & L2 & A2).
    destruct A1 as (x & y & a & mid & E1 & _ & _ & _ & _ & _ & _ & _ & _ & _ & <- & _).
    destruct A2 as (x' & y' & a' & mid' & E2 & _ & _ & _ & _ & _ & _ & _ & _ & _ & <- & _).
    assert (last f1 [] = [a]).
    { destruct E1 as [->| ->]; rewrite app_comm_cons; apply last_last. }
    assert (last f1 [] = [a']).
    { destruct E2 as [->| ->]; rewrite app_comm_cons; apply last_last. }
    assert (a' = a) by congruence. subst a'. eapply names_differ; eauto.
  Qed.

  Variables (cvgs kf kr : list R).
  Hypothesis Len : length cvgs = length (ads s).
  Hypothesis Lf : length kf = length (s_exprs s).
  Hypothesis Lr : length kr = length (s_exprs s).

  Lemma rates_of i fls gas name m a b : nth_error (l_rxns (s_lists s)) i = Some fls -> nth_error l i = Some (gas, name, m) ->
    fwd s cvgs (fls, (a, b)) = a * value (s_pressure s) gas * coverage s cvgs (site_tag name) ^ m /\
    bwd s cvgs (fls, (a, b)) = b * coverage s cvgs name ^ m.
  Proof.
    intros Hi Hl. destruct (at_l i fls Hi) as (gas' & name' & m' & Hl' & A).
    rewrite Hl in Hl'. injection Hl' as <- <- <-.
    destruct A as (g & e & x & mid & E & _ & Z1 & Z2 & Z3 & Sg & Ng & [Se1 Se2] & Ne & [[Sa1 Sa2] _] & Na & _).
    assert (Ag : activity s cvgs g = value (s_pressure s) gas).
    { unfold activity. now rewrite Sg, str_eqb_refl, Ng. }
    assert (Ae : activity s cvgs e = coverage s cvgs (site_tag name)).
    { unfold activity. now rewrite (proj2 (str_eqb_neq _ _) Se1), (proj2 (str_eqb_neq _ _) Se2), Ne. }
    assert (Ax : activity s cvgs x = coverage s cvgs name).
    { unfold activity. now rewrite (proj2 (str_eqb_neq _ _) Sa1), (proj2 (str_eqb_neq _ _) Sa2), Na. }
    assert (En : ends fls = [x]).
    { unfold ends. destruct E as [->| ->]; rewrite app_comm_cons; apply last_last. }
    unfold fwd, bwd. cbn [fst snd]. rewrite En.
    split; [|cbn [mass_action]; rewrite Z3, Ax, Nat2Z.id; ring].
    destruct E as [->| ->]; unfold begins; cbn [hd mass_action]; rewrite Z1, Z2, Ag, Ae, Nat2Z.id;
      change (Z.to_nat 1) with 1%nat; ring.
  Qed.

  Lemma derivative_of i gas name m a b : nth_error l i = Some (gas, name, m) ->
    nth_error kf i = Some a -> nth_error kr i = Some b ->
    derivative s cvgs (reactions s kf kr) name
    = INR m * (a * value (s_pressure s) gas * coverage s cvgs (site_tag name) ^ m - b * coverage s cvgs name ^ m).
  Proof.
    intros Hl Ha Hb. destruct (at_rxns i gas name m Hl) as (fls & Hi & A).
    unfold derivative. pose proof (reactions_nth s kf kr i fls a b Hi Ha Hb) as Hx.
    rewrite (Rsum_only _ _ i _ Hx).
    - cbn [fst]. destruct (rates_of i fls gas name m a b Hi Hl) as [-> ->].
      symmetry. apply counted_fun. right. right.
      pose proof A as (g & e & x & mid & E & _ & _ & _ & Z & Sg & Ng & _ & Ne & Aa & Na & Hm).
      exists (length mid), (Z.of_nat m). split; [|now rewrite INR_IZR_INZ].
      exists [x], [], x, []. split; [destruct E as [->| ->]; cbn [nth_error]; rewrite nth_error_app2 by lia; now rewrite Nat.sub_diag|].
      split; [reflexivity|]. split; [exact Na|]. split; [exact Z|]. split; [intros ? []|].
      intros k st Hk Hst f Hf Nf.
      assert (I : In (f_species_site f) (ads s)) by (rewrite Nf; eapply name_ads; eauto).
      revert I. apply (where_ads fls gas name m i f Hi Hl g e x mid E Sg Ne Na Hm).
      destruct k as [|k].
      + destruct E as [->| ->]; cbn in Hst; injection Hst as <-; destruct Hf as [<-|[<-|[]]]; auto.
      + right. right. exists st. split; auto.
        assert (nth_error (mid ++ [[x]]) k = Some st) as Q by (destruct E as [->| ->]; exact Hst).
        rewrite nth_error_app1 in Q by lia. eapply nth_error_In; eauto.
    - intros j y Hj Hn. destruct (reactions_inv s kf kr j y Hj) as (Hj' & _).
      symmetry. apply counted_fun. left. split; [|reflexivity].
      destruct (at_l j (fst y) Hj') as (gas' & name' & m' & Hl' & A').
      pose proof A' as (g & e & x & mid & E & _ & _ & _ & Z & Sg & Ng & _ & Ne & Aa & Na & Hm).
      intros st f Hst Hf Nf.
      assert (Q : f = x \/ f = g \/ f = e \/ exists st, In st mid /\ In f st).
      { destruct E as [E|E]; rewrite E in Hst; (destruct Hst as [<-|Hst]; [destruct Hf as [<-|[<-|[]]]; auto|]);
          (apply in_app_or in Hst as [Hst|[<-|[]]];
          [right; right; right; eauto|destruct Hf as [<-|[]]; auto]). }
      destruct Q as [->|Q].
      + apply Hn. rewrite <- Na, Nf in Hl'. exact (names_differ j i gas' gas _ m' m Hl' Hl).
      + apply (where_ads (fst y) gas' name' m' j f Hj' Hl' g e x mid E Sg Ne Na Hm Q). rewrite Nf. eapply name_ads; eauto.
  Qed.

  Hypothesis Kf : forall a, In a kf -> 0 <= a.
  Hypothesis Kr : forall b, In b kr -> 0 < b.
  Hypothesis Pp : forall gas name m, In (gas, name, m) l -> 0 <= value (s_pressure s) gas.
  Let Ks := quotients kf kr.
  Let theta := coverage s cvgs.
  Let D name := derivative s cvgs (reactions s kf kr) name.

  Lemma lengths : length kf = length l /\ length kr = length l.
  Proof. rewrite l_length, (num_rxns s U). auto. Qed.

  (** Everything that belongs to a reaction. *)
  Let Y := combine l (combine kf kr).
  Lemma Y_at y : In y Y -> exists i, nth_error l i = Some (fst y) /\ nth_error kf i = Some (fst (snd y)) /\
    nth_error kr i = Some (snd (snd y)) /\ nth_error Ks i = Some (fst (snd y) / snd (snd y)).
  Proof.
    intro H. apply In_nth_error in H as [i Hi]. exists i. destruct y as [p [a b]]. cbn [fst snd].
    assert (Q : forall A B (u : list A) (v : list B) j x z, nth_error (combine u v) j = Some (x, z) ->
       nth_error u j = Some x /\ nth_error v j = Some z).
    { clear. induction u as [|y u IH]; intros [|z v] [|j] x w H; cbn in *; try discriminate; [split; congruence|auto]. }
    unfold Y in Hi. apply Q in Hi as [H1 H2]. pose proof H2 as H3. apply Q in H3 as [H3 H4].
    repeat split; auto. unfold Ks, quotients. now rewrite nth_error_map, H2.
  Qed.
  Lemma at_Y i p a b : nth_error l i = Some p -> nth_error kf i = Some a -> nth_error kr i = Some b -> In (p, (a, b)) Y.
  Proof. intros H1 H2 H3. apply (nth_error_In _ i). unfold Y. apply nth_error_combine; auto. now apply nth_error_combine. Qed.
  Lemma Y_of i gas name m : nth_error l i = Some (gas, name, m) ->
    exists a b, In (gas, name, m, (a, b)) Y /\ nth_error kf i = Some a /\ nth_error kr i = Some b /\
      nth_error Ks i = Some (a / b).
  Proof.
    intro Hl. assert (Hi : (i < length l)%nat) by (apply nth_error_Some; congruence).
    destruct lengths as [H1 H2].
    destruct (nth_error_lt kf i _ H1 Hi) as [a Ha]. destruct (nth_error_lt kr i _ H2 Hi) as [b Hb].
    exists a, b. pose proof (at_Y i _ a b Hl Ha Hb) as Hy. repeat (split; [assumption|]).
    unfold Ks, quotients. rewrite nth_error_map. rewrite (nth_error_combine _ _ _ _ _ Ha Hb). reflexivity.
  Qed.

  Let T := (str * str * nat * (R * R))%type.
  Let nm (y : T) : str := snd (fst (fst y)).
  Let on_site site (f : T -> R) (y : T) : R := if str_eqb (site_tag (nm y)) site then f y else 0.
  Let X (y : T) : R := share s (fst y) (fst (snd y) / snd (snd y)).
  Let over site f := Rsum (map (on_site site f) Y).

  Lemma shares_over site : shares s l Ks site = over site X.
  Proof.
    unfold shares, over, Y, Ks, quotients, on_site, X, nm. destruct lengths as [H1 H2]. clear - H1 H2.
    revert kf kr H1 H2. induction l as [|p t IH]; intros [|a ka] [|b kb] H1 H2; try discriminate; [reflexivity|].
    cbn [combine map Rsum fst snd]. rewrite (IH ka kb) by (cbn in H1, H2; lia). reflexivity.
  Qed.
  Lemma covered_over site : covered site (ads s) cvgs = over site (fun y => theta (nm y)).
  Proof.
    rewrite (covered_sum s P cvgs Len). unfold over, on_site.
    assert (E : forall m, Rsum (map (coverage s cvgs) (on site m)) = Rsum (map (fun n => if str_eqb (site_tag n) site then theta n else 0) m)).
    { induction m as [|n m IH]; [reflexivity|]. cbn [on filter map Rsum]. fold (on site m).
      destruct (str_eqb (site_tag n) site); cbn [map Rsum]; rewrite IH; unfold theta; lra. }
    rewrite E. rewrite (Rsum_perm _ _ (Permutation_map _ ads_perm)).
    unfold Y, nm. destruct lengths as [H1 H2]. clear - H1 H2. subst theta.
    revert kf kr H1 H2. induction l as [|p t IH]; intros [|a ka] [|b kb] H1 H2; try discriminate; [reflexivity|].
    cbn [combine map Rsum fst snd]. rewrite (IH ka kb) by (cbn in H1, H2; lia). reflexivity.
  Qed.
  Lemma over_ext site f g : (forall y, In y Y -> site_tag (nm y) = site -> f y = g y) -> over site f = over site g.
  Proof.
    intro H. unfold over. apply Rsum_ext. intros y Hy. unfold on_site.
    destruct (str_eqb_spec (site_tag (nm y)) site); auto.
  Qed.
  Lemma over_scale site c f : over site (fun y => c * f y) = c * over site f.
  Proof.
    unfold over. induction Y as [|y t IH]; cbn [map Rsum]; [ring|]. rewrite IH. unfold on_site.
    destruct (str_eqb (site_tag (nm y)) site); ring.
  Qed.
  Lemma over_member site f y : (forall y, In y Y -> 0 <= f y) -> In y Y -> site_tag (nm y) = site -> f y <= over site f.
  Proof.
    intros H. unfold over. induction Y as [|z t IH]; intros Hy E; [destruct Hy|]. cbn [map Rsum].
    assert (Z : forall w, In w t -> 0 <= on_site site f w).
    { intros w Hw. unfold on_site. destruct (str_eqb (site_tag (nm w)) site); [apply H; now right|lra]. }
    assert (0 <= on_site site f z).
    { unfold on_site. destruct (str_eqb (site_tag (nm z)) site); [apply H; now left|lra]. }
    destruct Hy as [->|Hy].
    - assert (on_site site f y = f y) by (unfold on_site; now rewrite (proj2 (str_eqb_eq _ _) E)).
      assert (0 <= Rsum (map (on_site site f) t)); [|lra].
      clear -Z. induction t as [|w t IH]; cbn [map Rsum]; [lra|]. pose proof (Z w (or_introl eq_refl)).
      assert (0 <= Rsum (map (on_site site f) t)) by (apply IH; intros; apply Z; now right). lra.
    - assert (forall w, In w t -> 0 <= f w) by (intros; apply H; now right). pose proof (IH H1 Hy E). lra.
  Qed.
  Lemma over_nonneg site f : (forall y, In y Y -> 0 <= f y) -> 0 <= over site f.
  Proof.
    intro H. unfold over. induction Y as [|y t IH]; cbn [map Rsum]; [lra|].
    assert (0 <= on_site site f y).
    { unfold on_site. destruct (str_eqb (site_tag (nm y)) site); [apply H; now left|lra]. }
    assert (forall z, In z t -> 0 <= f z) by (intros; apply H; now right). pose proof (IH H1). lra.
  Qed.
  Lemma X_nonneg y : 0 <= X y.
  Proof. apply root_nonneg. Qed.
  Lemma shares_nonneg site : 0 <= over site X.
  Proof. apply over_nonneg. intros y _. apply X_nonneg. Qed.

  (** A coverage for each free site. *)
  Lemma rest_is y : In y Y -> nothing_negative s cvgs ->
    (D (nm y) = 0 <-> theta (nm y) = theta (site_tag (nm y)) * X y).
  Proof.
    intros Hy NN. destruct (Y_at y Hy) as (i & H1 & H2 & H3 & _). destruct y as [[[gas name] m] [a b]].
    unfold nm, X, share in *. cbn [fst snd] in *.
    destruct (at_rxns i gas name m H1) as (fls & _ & (_ & _ & _ & _ & _ & M1 & _)).
    assert (A0 : 0 <= a) by (apply Kf; eapply nth_error_In; eauto).
    assert (B0 : 0 < b) by (apply Kr; eapply nth_error_In; eauto).
    assert (P0 : 0 <= value (s_pressure s) gas) by (apply (Pp gas name m); eapply nth_error_In; eauto).
    assert (Q0 : 0 <= a / b * value (s_pressure s) gas).
    { apply Rmult_le_pos; auto. apply Rmult_le_pos; auto. left. now apply Rinv_0_lt_compat. }
    pose proof (root_pow m _ M1 Q0) as RP. pose proof (root_nonneg m (a / b * value (s_pressure s) gas)) as R0.
    set (x := root m (a / b * value (s_pressure s) gas)) in *.
    assert (T0 : 0 <= theta name) by (apply NN; left; eapply name_ads; eauto).
    assert (T1 : 0 <= theta (site_tag name)).
    { apply NN. right. apply (ads_site s P). eapply name_ads; eauto. }
    unfold D. rewrite (derivative_of i gas name m a b H1 H2 H3). fold theta.
    assert (Eq : a * value (s_pressure s) gas * theta (site_tag name) ^ m - b * theta name ^ m
               = b * ((theta (site_tag name) * x) ^ m - theta name ^ m)).
    { rewrite Rpow_mult_distr, RP. field. lra. }
    rewrite Eq. assert (M0 : INR m <> 0) by (apply not_0_INR; lia). split.
    - intro Z. apply Rmult_integral in Z as [Z|Z]; [contradiction|].
      apply Rmult_integral in Z as [Z|Z]; [lra|].
      apply (pow_inj m); auto; [now apply Rmult_le_pos|lra].
    - intros ->. ring.
  Qed.
  Lemma site_known y : In y Y -> In (site_tag (nm y)) (sites s).
  Proof.
    intro Hy. destruct (Y_at y Hy) as (i & H1 & _). unfold nm. destruct (fst y) as [[gas name] m]. cbn [fst snd].
    apply (ads_site s P). eapply name_ads; eauto.
  Qed.
  Lemma name_known y : In y Y -> In (nm y) (ads s).
  Proof.
    intro Hy. destruct (Y_at y Hy) as (i & H1 & _). unfold nm. destruct (fst y) as [[gas name] m]. cbn [fst snd].
    eapply name_ads; eauto.
  Qed.

  Lemma isotherm_at : isotherms s l Ks cvgs <->
    forall y, In y Y -> theta (nm y) = total s (site_tag (nm y)) * X y / (1 + over (site_tag (nm y)) X).
  Proof.
    split.
    - intros H y Hy. destruct (Y_at y Hy) as (j & J1 & J2 & J3 & J4). destruct y as [[[g m] k] [c d]].
      cbn [fst snd nm] in *. rewrite <- shares_over. exact (H j g m k (c / d) J1 J4).
    - intros H i gas name m K Hl HK. destruct (Y_of i gas name m Hl) as (a & b & Hy & _ & _ & HK').
      assert (K = a / b) by congruence. subst K. rewrite shares_over. exact (H _ Hy).
  Qed.
  Lemma isotherm_free : isotherms s l Ks cvgs -> forall site, In site (sites s) ->
    theta site = total s site / (1 + over site X).
  Proof.
    intros H site Hs. rewrite isotherm_at in H. pose proof (shares_nonneg site) as Pn.
    pose proof (site_coverage s P cvgs Len site Hs) as E. fold theta in E. rewrite covered_over in E.
    rewrite (over_ext site _ (fun y => total s site / (1 + over site X) * X y)) in E.
    2:{ intros y Hy <-. rewrite (H y Hy). unfold Rdiv. ring. }
    rewrite over_scale in E. rewrite E. field. lra.
  Qed.

  Hypothesis Tot : forall site, In site (sites s) -> 0 <= total s site.
  Lemma isotherm_nonneg : isotherms s l Ks cvgs -> nothing_negative s cvgs.
  Proof.
    intro H. assert (Free : forall site, In site (sites s) -> 0 <= theta site).
    { intros site Hs. rewrite (isotherm_free H site Hs). pose proof (shares_nonneg site).
      apply Rmult_le_pos; [now apply Tot|]. left. apply Rinv_0_lt_compat. lra. }
    intros x [Hx|Hx]; [|now apply Free].
    destruct (ads_name x Hx) as (i & gas & m & Hl). destruct (Y_of i gas x m Hl) as (a & b & Hy & _).
    pose proof (proj1 isotherm_at H _ Hy) as E. cbn [nm fst snd] in E. fold theta. rewrite E.
    pose proof (shares_nonneg (site_tag x)). pose proof (Tot _ (site_known _ Hy)) as Q. cbn [nm fst snd] in Q.
    apply Rmult_le_pos; [apply Rmult_le_pos; [exact Q|apply X_nonneg]|]. left. apply Rinv_0_lt_compat. lra.
  Qed.

  Lemma all_zero_isotherm : (forall n, In n (ads s) -> D n = 0) /\ nothing_negative s cvgs <-> isotherms s l Ks cvgs.
  Proof.
    split.
    - intros [Z NN]. rewrite isotherm_at. intros y Hy.
      assert (Each : forall y, In y Y -> theta (nm y) = theta (site_tag (nm y)) * X y).
      { intros z Hz. apply (rest_is z Hz NN). apply Z. now apply name_known. }
      set (site := site_tag (nm y)) in *. pose proof (shares_nonneg site) as Pn.
      pose proof (site_coverage s P cvgs Len site (site_known y Hy)) as E. fold theta in E. rewrite covered_over in E.
      rewrite (over_ext site _ (fun z => theta site * X z)) in E.
      2:{ intros z Hz <-. now apply Each. }
      rewrite over_scale in E.
      assert (F : theta site = total s site / (1 + over site X)).
      { apply (Rmult_eq_reg_r (1 + over site X)); [|lra]. unfold Rdiv. rewrite Rmult_assoc, Rinv_l; lra. }
      rewrite (Each y Hy). fold site. rewrite F. unfold Rdiv. ring.
    - intro H. pose proof (isotherm_nonneg H) as NN. split; [|exact NN]. intros n Hn.
      destruct (ads_name n Hn) as (i & gas & m & Hl). destruct (Y_of i gas n m Hl) as (a & b & Hy & _).
      apply (rest_is _ Hy NN). rewrite (proj1 isotherm_at H _ Hy).
      rewrite (isotherm_free H _ (site_known _ Hy)). unfold Rdiv. ring.
  Qed.

  Lemma isotherm_feasible : isotherms s l Ks cvgs -> (forall site, In site (sites s) -> total s site <= 1) ->
    feasible s cvgs.
  Proof.
    intros H T1. pose proof (isotherm_nonneg H) as NN.
    assert (Cov : forall site, In site (sites s) -> covered site (ads s) cvgs <= total s site).
    { intros site Hs. pose proof (site_coverage s P cvgs Len site Hs) as E. pose proof (NN site (or_intror Hs)). lra. }
    split; [exact Len|]. split; [|exact Cov].
    intros i n x Hn Hx. pose proof (nth_coverage s P cvgs Len i n x Hn Hx) as E. fold theta in E.
    destruct (ads_name n (nth_error_In _ _ Hn)) as (j & gas & m & Hj).
    destruct (Y_of j gas n m Hj) as (a & b & Hy & _).
    assert (Pos : forall y, In y Y -> 0 <= theta (nm y)).
    { intros y Hy'. apply NN. left. now apply name_known. }
    pose proof (Pos _ Hy) as Q. cbn [nm fst snd] in Q.
    pose proof (over_member (site_tag n) _ _ Pos Hy eq_refl) as M. cbn [nm fst snd] in M.
    rewrite <- covered_over in M. pose proof (Cov _ (site_known _ Hy)) as C. cbn [nm fst snd] in C.
    pose proof (T1 _ (site_known _ Hy)) as T2. cbn [nm fst snd] in T2. rewrite <- E. lra.
  Qed.
End Adsorption.

Section Results.
  Variable s : setup.
  Hypothesis U : usable_setup s.
  Variable l : list (str * str * nat).
  Hypothesis OA : only_dissociation s l.
  Variables kf kr : list R.
  Hypothesis Lf : length kf = length (s_exprs s).
  Hypothesis Lr : length kr = length (s_exprs s).
  Hypothesis Kf : forall a, In a kf -> 0 <= a.
  Hypothesis Kr : forall b, In b kr -> 0 < b.
  Hypothesis Pp : forall gas name m, In (gas, name, m) l -> 0 <= value (s_pressure s) gas.
  Hypothesis Tot : forall site, In site (sites s) -> 0 <= total s site.

  Lemma isotherm_steady cvgs : length cvgs = length (ads s) ->
    exists data F, get_data s = Ok data /\ steady_state_function s (Ok (kf, kr)) (Some data) cvgs = Ok F /\
      length F = length (ads s) /\
      ((forall y, In y F -> y = 0) /\ nothing_negative s cvgs <-> isotherms s l (quotients kf kr) cvgs).
  Proof.
    intro Len. destruct (explicit s U (exprs_NoDup s U l OA) cvgs kf kr Len Lf Lr) as (data & E1 & _ & _ & E4 & _).
    exists data. eexists. split; [exact E1|]. split; [exact E4|]. split; [now rewrite map_length|].
    rewrite <- (all_zero_isotherm s U l OA cvgs kf kr Len Lf Lr Kf Kr Pp Tot). split; intros [H NN]; (split; [|exact NN]).
    - intros n Hn. apply H. now apply in_map.
    - intros y Hy. apply in_map_iff in Hy as (n & <- & Hn). auto.
  Qed.

  Let Ks := quotients kf kr.
  Let g n := match find (fun t => str_eqb (snd (fst (fst t))) n) (combine l Ks) with
             | Some t => total s (site_tag n) * share s (fst t) (snd t) / (1 + shares s l Ks (site_tag n))
             | None => 0
             end.
  Lemma g_isotherm : isotherms s l Ks (map g (ads s)).
  Proof.
    intros i gas name m K Hl HK. rewrite (map_coverage s (proj1 U)) by (eapply name_ads; eauto).
    unfold g. pose proof (nth_error_combine _ _ _ _ _ Hl HK) as Hc.
    destruct (find (fun t => str_eqb (snd (fst (fst t))) name) (combine l Ks)) as [t|] eqn:E.
    - apply find_some in E as [H1 H2]. apply str_eqb_eq in H2.
      apply In_nth_error in H1 as [j Hj].
      assert (Hl' : nth_error l j = Some (fst t)).
      { clear -Hj. revert j Hj. generalize Ks. induction l as [|p u IH]; intros [|q v] [|j] Hj; cbn in *; try discriminate.
        - injection Hj as <-. reflexivity.
        - eapply IH; eauto. }
      assert (j = i). { destruct t as [[[g' n'] m'] k']. cbn in *. subst n'. eapply (names_differ s l OA); eauto. }
      subst j. rewrite Hc in Hj. injection Hj as <-. reflexivity.
    - exfalso. apply find_none with (x := (gas, name, m, K)) in E; [|eapply nth_error_In; eauto].
      cbn in E. now rewrite str_eqb_refl in E.
  Qed.

  Lemma isotherm_fun c1 c2 : length c1 = length (ads s) -> length c2 = length (ads s) ->
    isotherms s l Ks c1 -> isotherms s l Ks c2 -> c1 = c2.
  Proof.
    intros L1 L2 H1 H2. rewrite <- (coverages_list s (proj1 U) c1 L1), <- (coverages_list s (proj1 U) c2 L2).
    apply map_ext_in. intros n Hn. destruct (ads_name s U l OA n Hn) as (i & gas & m & Hi).
    destruct (Y_of s U l OA kf kr Lf Lr i gas n m Hi) as (a & b & _ & _ & _ & HK).
    now rewrite (H1 i gas n m _ Hi HK), (H2 i gas n m _ Hi HK).
  Qed.

  Lemma exactly_one : (forall site, In site (sites s) -> total s site <= 1) ->
    exists data c, get_data s = Ok data /\ feasible s c /\
      forall c', length c' = length (ads s) ->
        (exists F, steady_state_function s (Ok (kf, kr)) (Some data) c' = Ok F /\ forall y, In y F -> y = 0) /\
        nothing_negative s c' <-> c' = c.
  Proof.
    intro T. assert (Len : length (map g (ads s)) = length (ads s)) by now rewrite map_length.
    destruct (isotherm_steady _ Len) as (data & F & D & E & _ & Q). exists data, (map g (ads s)).
    split; [exact D|]. split.
    { apply (isotherm_feasible s U l OA _ kf kr Len Lf Lr Tot); [apply g_isotherm|exact T]. }
    intros c' Len'. destruct (isotherm_steady c' Len') as (data' & F' & D' & E' & _ & Q').
    assert (data' = data) by congruence. subst data'. split.
    - intros [(F2 & E2 & Z) NN]. assert (F2 = F') by congruence. subst F2.
      apply isotherm_fun; auto; [apply Q'; auto|apply g_isotherm].
    - intros ->. destruct (proj2 Q g_isotherm) as [Z NN]. split; [|exact NN]. exists F. split; [exact E|exact Z].
  Qed.
End Results.

Lemma isotherm_TST ec o own s l r : usable_setup s -> only_dissociation s l -> o_rxns o = s_exprs s -> 0 < o_T o ->
  consistent r (length (s_exprs s)) -> (forall gas name m, In (gas, name, m) l -> 0 <= value (s_pressure s) gas) ->
  (forall site, In site (sites s) -> 0 <= total s site) ->
  exists data kf kr, get_data s = Ok data /\ rate_constants ec o (L "TST") (Some r) own = Ok (kf, kr) /\
  forall cvgs, length cvgs = length (ads s) ->
    exists F, steady_state_function s (Ok (kf, kr)) (Some data) cvgs = Ok F /\ length F = length (ads s) /\
      ((forall y, In y F -> y = 0) /\ nothing_negative s cvgs
       <-> isotherms s l (map (fun d => exp (- d / (kB_eV * o_T o))) (r_dG r)) cvgs).
Proof.
  intros U OA Eo HT Cons Pp Tot. pose proof (exprs_NoDup s U l OA) as ND.
  destruct (constants_of ec o r own HT) as (kf & kr & E & L1 & L2 & V); [rewrite Eo; exact ND|rewrite Eo; exact Cons|].
  rewrite Eo in L1, L2. pose proof Cons as [(_ & _ & L3) _].
  destruct (quotients_TST kf kr (o_T o) (r_dG r)) as (Q & P1 & P2); [congruence|congruence|exact V|].
  unfold kT in Q. rewrite <- Q.
  destruct (explicit s U ND (map (fun _ => 0) (ads s)) kf kr ltac:(now rewrite map_length) L1 L2) as (data & D & _).
  exists data, kf, kr. split; [exact D|]. split; [exact E|]. intros cvgs Len.
  destruct (isotherm_steady s U l OA kf kr L1 L2 P1 P2 Pp Tot cvgs Len) as (data' & F & D' & E' & L' & Z).
  assert (data' = data) by congruence. subst data'. eauto.
Qed.
