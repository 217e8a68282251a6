(** Lemmas: the mean drift of a lattice and the coverage equations (C112). *)
From Coq Require Import String Ascii List ZArith NArith Bool Arith QArith Reals Lra Lia Permutation.
Import ListNotations.
From Verif Require Import PyBase PyBaseFacts Kmc_Model Kmc_Spec Kmc_Proofs KmcLat_Spec KmcLat_Proofs KmcMean_Spec KmcMean_Proofs
  KmcDrift_Spec.
From Verif Require Rxn_Model Rxn_Spec Species_Model Species_Spec Species_Proofs Species_Matrix MF_Model MF_Spec MF_Rate MF_More MF_Witness
  Rate_Model Rate_Spec Rate_Proofs.
Local Open Scope list_scope.
Local Open Scope nat_scope.

Section Drift.
  Variable neighbour : nat -> list Q -> nat.
  Variable basis : nat -> Z.
  Variable n : nat.
  Variable theta : str -> R.
  Variable q : str -> R.
  Notation expected_rate := (expected_rate neighbour basis n).
  Notation expected_change := (expected_change neighbour basis n).
  Notation drift := (drift neighbour basis n).

  Lemma change_rate types (p : kmc_process R) a delta :
    (forall X Y, length X = n -> event neighbour basis p a X = Some Y -> (energy q Y - energy q X = delta)%R) ->
    expected_change types theta q p a = (expected_rate types theta p a * delta)%R.
  Proof.
    intro H. unfold KmcDrift_Spec.expected_change, KmcMean_Spec.expected_rate.
    rewrite Rmult_comm, sum_scale, map_map. apply sum_ext. intros X HX. apply configs_length in HX.
    destruct (event neighbour basis p a X) as [Y|] eqn:E; [|lra]. rewrite (H X Y HX E). lra.
  Qed.

  Lemma drift_app types ps qs : drift types theta q (ps ++ qs) = (drift types theta q ps + drift types theta q qs)%R.
  Proof. unfold KmcDrift_Spec.drift. now rewrite map_app, sum_app. Qed.

  Lemma drift_flat_map {A} types (f : A -> list (kmc_process R)) (v : A -> R) l :
    (forall x, In x l -> drift types theta q (f x) = v x) -> drift types theta q (flat_map f l) = sum (map v l).
  Proof.
    induction l as [|x l IH]; intro H; cbn [flat_map map]; [reflexivity|].
    rewrite drift_app, (H x), IH; auto; [|now left]. intros y Hy. apply H. now right.
  Qed.

  Lemma sum_const {A} c (l : list A) : sum (map (fun _ => c) l) = (INR (length l) * c)%R.
  Proof. induction l as [|x l IH]; [cbn; lra|]. unfold sum in *. cbn [map fold_right]. rewrite IH. cbn [length]. rewrite S_INR. lra. Qed.

  Lemma sum_if {A} (b : A -> bool) c l : sum (map (fun a => if b a then c else 0%R) l) = (INR (length (filter b l)) * c)%R.
  Proof.
    induction l as [|x l IH]; [cbn; lra|]. unfold sum in *. cbn [map fold_right filter]. rewrite IH.
    destruct (b x); cbn [length]; [rewrite S_INR|]; lra.
  Qed.

  Lemma sum_places c kinds : sum (map (fun k => INR (length (filter (fun a => match number k with Some z => (z =? basis a)%Z
      | None => false end) (seq 0 n))) * c)%R kinds) = (INR (places basis n kinds) * c)%R.
  Proof.
    unfold places. match goal with |- context [list_sum (map ?g _)] => set (f := g) end.
    induction kinds as [|k l IH]; [cbn; lra|]. unfold sum in *. cbn [map fold_right].
    rewrite IH. change (list_sum (f k :: map f l)) with (f k + list_sum (map f l)). rewrite plus_INR. unfold f. lra.
  Qed.

  Lemma one_process (o : owner R) mapping ds ps m p delta :
    get_processes o mapping ds = (Ok ps, m) -> In p ps ->
    (forall d q, In d ds -> describes d q -> roomy neighbour n q) ->
    NoDup (possible_element_types o) -> sum (map theta (possible_element_types o)) = 1%R ->
    (forall a X Y, a < n -> length X = n -> event neighbour basis p a X = Some Y -> (energy q Y - energy q X = delta)%R) ->
    sum (map (expected_change (possible_element_types o) theta q p) (seq 0 n))
    = (INR (length (filter (fun a => match number (p_site p) with Some z => (z =? basis a)%Z | None => false end) (seq 0 n)))
       * (p_rate p * product (map theta (named (texts (p_before p)))) * delta))%R.
  Proof.
    intros H Hp Rm N T C. rewrite <- sum_if. apply sum_ext. intros a Ha. apply in_seq in Ha.
    rewrite (change_rate _ p a delta) by (intros X Y; apply C; lia).
    destruct (number (p_site p)) as [z|] eqn:E.
    - destruct (Z.eqb_spec z (basis a)) as [->|Nz].
      + rewrite (expected_value neighbour basis n theta o mapping ds ps m p a H Hp Rm N T ltac:(lia) E). reflexivity.
      + rewrite expected_elsewhere by congruence. lra.
    - rewrite expected_elsewhere by congruence. lra.
  Qed.

  Notation share := (share basis n theta q).

  Lemma total_drift (o : owner R) mapping ds ps m :
    get_processes o mapping ds = (Ok ps, m) ->
    (forall d, In d ds -> flag d "redist" false /\ forall p, describes d p -> same_wildcards p /\ roomy neighbour n p) ->
    NoDup (possible_element_types o) -> sum (map theta (possible_element_types o)) = 1%R ->
    exists xs, Forall2 (share o) ds xs /\ drift (possible_element_types o) theta q ps = sum xs.
  Proof.
    intros H F N T. pose proof H as H0. destruct (get_processes_inv _ _ _ _ _ H) as (ls & A & E). clear H.
    assert (In0 : forall p l, In l ls -> In p (map (@fst (kmc_process R) str) l) -> In p ps).
    { intros p l Hl Hp. subst ps. apply in_map_iff in Hp as (y & Ey & Hy). apply in_map_iff. exists y. split; auto.
      apply in_concat. eauto. }
    assert (Rm : forall d p, In d ds -> describes d p -> roomy neighbour n p) by (intros d p Hd D; now apply (F d Hd)).
    assert (All : forall ds' ls', Forall2 (accepted o) ds' ls' ->
      (forall p l, In l ls' -> In p (map (@fst (kmc_process R) str) l) -> In p ps) -> (forall d, In d ds' -> In d ds) ->
      exists xs, Forall2 (share o) ds' xs /\ drift (possible_element_types o) theta q (map fst (concat ls')) = sum xs).
    2:{ destruct (All ds ls A In0 ltac:(auto)) as (xs & X1 & X2). exists xs. split; auto. now rewrite E. }
    clear E A In0 ls. intros ds' ls A.
    induction A as [|d l ds' ls A1 A2 IH]; intros In0 Ind.
    - exists []. split; [constructor|reflexivity].
    - destruct IH as (xs & X1 & X2); [intros p l' Hl; apply In0; now right|intros d' Hd; apply Ind; now right|].
      destruct A1 as (p & rf & rr & fast & redist & D & W & _ & _ & _ & Rp & _ & Fr & El).
      destruct (F d (Ind d (or_introl eq_refl))) as [F0 F1].
      rewrite (flag_unique _ _ _ _ Fr F0) in El. clear Fr. destruct (F1 p D) as [Sw Rmp].
      cbn [concat]. rewrite map_app, drift_app, X2.
      assert (V : drift (possible_element_types o) theta q (map fst l)
        = (INR (length (d_group p)) * INR (places basis n (d_sites p)) *
           (energy q (named (d_after p)) - energy q (named (d_before p))) *
           (rf * product (map theta (named (d_before p))) - rr * product (map theta (named (d_after p)))))%R).
      { pose proof (fun pr => In0 pr l (or_introl eq_refl)) as In1. rewrite El in *. rewrite labelled_pairs in *.
        set (dl := (energy q (named (d_after p)) - energy q (named (d_before p)))%R).
        set (net := (rf * product (map theta (named (d_before p))) - rr * product (map theta (named (d_after p))))%R).
        rewrite (drift_flat_map _ _ (fun k => INR (length (filter (fun a => match number k with Some z => (z =? basis a)%Z
          | None => false end) (seq 0 n))) * (INR (length (d_group p)) * (dl * net)))%R).
        - rewrite sum_places. ring.
        - intros site Hs.
          rewrite (drift_flat_map _ _ (fun _ => INR (length (filter (fun a => match number site with Some z => (z =? basis a)%Z
            | None => false end) (seq 0 n))) * (dl * net))%R).
          + rewrite sum_const. ring.
          + intros cs Hc.
            assert (I2 : forall pr, In pr [fwd d p cs site rf fast; bwd d p cs site rr fast] -> In pr ps).
            { intros pr Hpr. apply In1. apply in_flat_map. exists site. split; auto. apply in_flat_map. exists cs. auto. }
            unfold KmcDrift_Spec.drift. cbn [map]. unfold sum at 1. cbn [fold_right].
            rewrite (one_process o mapping ds ps m (fwd d p cs site rf fast) dl H0 (I2 _ (or_introl eq_refl)) Rm N T).
            2:{ intros a X Y Ha HX Ev. destruct (proj1 (pair_undo neighbour basis n d p cs site rf rr fast a X Y q D W Sw Rmp Ha Hc HX) Ev) as (_ & Ee & _).
                unfold dl. lra. }
            rewrite (one_process o mapping ds ps m (bwd d p cs site rr fast) (- dl)%R H0 (I2 _ (or_intror (or_introl eq_refl))) Rm N T).
            2:{ intros a X Y Ha HX Ev. destruct (proj2 (pair_undo neighbour basis n d p cs site rf rr fast a X Y q D W Sw Rmp Ha Hc HX) Ev) as (_ & Ee & _).
                unfold dl. lra. }
            destruct (de_before _ _ D) as (vb & Db & Sb). destruct (de_after _ _ D) as (va & Da & Sa).
            cbn [p_site p_rate p_before fwd bwd]. rewrite Db, Da, (texts_of _ _ Sb), (texts_of _ _ Sa). unfold net. ring. }
      rewrite V. eexists (_ :: xs). split; [constructor; [|exact X1]|].
      + exists p, rf, rr. split; [exact D|]. split; [exact Rp|reflexivity].
      + reflexivity.
  Qed.
End Drift.

(** ** Counting *)
Lemma energy_perm q l m : Permutation l m -> energy q l = energy q m.
Proof. intro P. unfold energy, sum. induction P; cbn [map fold_right]; lra. Qed.

Lemma energy_occ (occ : str -> str) x name l : (forall e, In e l -> (occ e = name <-> e = x)) ->
  energy (is x) l = energy (is name) (map occ l).
Proof.
  induction l as [|e l IH]; intro H; [reflexivity|]. unfold energy, sum in *. cbn [map fold_right].
  rewrite IH by (intros; apply H; now right). f_equal. unfold is.
  specialize (H e (or_introl eq_refl)).
  destruct (str_eqb_spec e x), (str_eqb_spec (occ e) name); tauto.
Qed.

Lemma energy_repeat q x k : energy q (repeat x k) = (INR k * q x)%R.
Proof.
  unfold energy. induction k as [|k IH]; [cbn; lra|]. unfold sum in *. cbn [repeat map fold_right]. rewrite IH, S_INR. lra.
Qed.

Lemma energy_app q l m : energy q (l ++ m) = (energy q l + energy q m)%R.
Proof. unfold energy. now rewrite map_app, sum_app. Qed.

Lemma surface_count name st :
  (forall f, In f st -> (0 <= Rxn_Model.f_stoich f)%Z /\ (Rxn_Model.f_site f = L "g" -> Rxn_Model.f_species_site f <> name)) ->
  energy (is name) (on_surface st) = IZR (Rxn_Spec.total_of_species name st).
Proof.
  induction st as [|f t IH]; intro H; [reflexivity|].
  unfold on_surface, Rxn_Spec.total_of_species in *. cbn [flat_map map].
  match goal with |- _ = IZR (Rxn_Spec.sum_Z (?a :: ?b)) => change (Rxn_Spec.sum_Z (a :: b)) with (a + Rxn_Spec.sum_Z b)%Z end.
  rewrite energy_app, IH, plus_IZR by (intros; apply H; now right). f_equal.
  destruct (H f (or_introl eq_refl)) as [H1 H2].
  destruct (str_eqb_spec (Rxn_Model.f_site f) (L "g")) as [E|E].
  - specialize (H2 E). destruct (str_eqb_spec (Rxn_Model.f_species_site f) name); [congruence|]. reflexivity.
  - rewrite energy_repeat. unfold is. destruct (str_eqb_spec (Rxn_Model.f_species_site f) name); [|lra].
    rewrite INR_IZR_INZ, Z2Nat.id by auto. lra.
Qed.

Lemma sum_Rsum l : sum l = PyReal.Rsum l.
Proof. induction l as [|x l IH]; [reflexivity|]. unfold sum in *. cbn. now rewrite IH. Qed.

Lemma sums_match k xs : forall cs, length xs = length cs ->
  (forall j x c, nth_error xs j = Some x -> nth_error cs j = Some c -> (x = k * c)%R) -> (sum xs = k * PyReal.Rsum cs)%R.
Proof.
  induction xs as [|x xs IH]; intros [|c cs] Hl H; try discriminate; [cbn; lra|].
  unfold sum in *. cbn [fold_right PyReal.Rsum]. rewrite (IH cs); [|now injection Hl|intros j; apply (H (S j))].
  rewrite (H 0 x c); auto. lra.
Qed.

Lemma Forall2_nth {A B} (P : A -> B -> Prop) l m : Forall2 P l m -> length m = length l /\
  forall j y, nth_error m j = Some y -> exists x, nth_error l j = Some x /\ P x y.
Proof.
  induction 1 as [|x y l m H1 H2 [IH1 IH2]]; split; auto.
  - intros [|j] y H; discriminate.
  - cbn. now rewrite IH1.
  - intros [|j] z Hz; cbn in Hz; [injection Hz as <-; exists x; auto|]. apply IH2. exact Hz.
Qed.

Lemma known (o : owner R) mapping ds ps m d pd : get_processes o mapping ds = (Ok ps, m) -> In d ds -> describes d pd ->
  known_elements o pd.
Proof.
  intros H Hd D. destruct (get_processes_inv _ _ _ _ _ H) as (ls & A & _). clear H.
  induction A as [|d' l' ds ls A1 A2 IH]; [destruct Hd|]. destruct Hd as [->|Hd]; auto.
  destruct A1 as (pd' & rf' & rr' & fast & redist & D' & _ & _ & _ & Kn & _).
  now rewrite (describes_unique _ _ _ D D').
Qed.

Lemma named_known o pd e : known_elements (K := R) o pd -> In e (named (d_before pd)) \/ In e (named (d_after pd)) ->
  In e (possible_element_types o).
Proof.
  intros K H. assert (e <> L "*" /\ (In e (d_before pd) \/ In e (d_after pd))) as [N I].
  { unfold named in H. destruct H as [H|H]; apply filter_In in H as [H1 H2]; split; auto; intros ->; discriminate H2. }
  destruct (K e I); [contradiction|assumption].
Qed.

Lemma same_equations neighbour basis n k theta (o : owner R) mapping ds ps m ro r s cvgs (occ : str -> str) kfs krs i name x :
  get_processes o mapping ds = (Ok ps, m) -> rate_algo o = L "TST" ->
  NoDup (possible_element_types o) -> sum (map theta (possible_element_types o)) = 1%R ->
  MF_Spec.usable_setup s -> NoDup (MF_Model.s_exprs s) -> length cvgs = length (MF_Spec.ads s) ->
  length kfs = length (MF_Model.s_exprs s) -> length krs = length (MF_Model.s_exprs s) -> length ds = length (MF_Model.s_exprs s) ->
  (forall j d, nth_error ds j = Some d -> exists pd fls f0 f1 kf kr,
     nth_error (Species_Model.l_rxns (MF_Model.s_lists s)) j = Some fls /\ nth_error kfs j = Some kf /\ nth_error krs j = Some kr /\
     stands_for neighbour basis n k o ro r s cvgs theta occ d pd fls f0 f1 kf kr) ->
  nth_error (MF_Spec.ads s) i = Some name ->
  (forall fls, In fls (Species_Model.l_rxns (MF_Model.s_lists s)) -> MF_Spec.plain_in name fls) ->
  (forall e, In e (possible_element_types o) -> (occ e = name <-> e = x)) ->
  exists data F y, MF_Model.get_data s = Ok data /\
    MF_Model.steady_state_function s (Ok (kfs, krs)) (Some data) cvgs = Ok F /\ nth_error F i = Some y /\
    drift neighbour basis n (possible_element_types o) theta (is x) ps = (INR k * y)%R.
Proof.
  intros H Al N T US NE LC L1 L2 L3 All Hi Pl Oc.
  destruct (MF_More.steady_net s cvgs kfs krs US LC L1 L2) as (data & rfs & rrs & F & G & Ra & St & LF & Net).
  destruct (MF_Witness.rates_distinct s cvgs kfs krs US NE LC L1 L2) as (data' & rfs' & rrs' & G' & Ra' & _ & _ & MA).
  rewrite G in G'. injection G' as <-. rewrite Ra in Ra'. injection Ra' as <- <-.
  destruct (nth_error F i) as [y|] eqn:Fy.
  2:{ exfalso. apply nth_error_None in Fy. rewrite LF in Fy. apply nth_error_None in Fy. congruence. }
  exists data, F, y. do 3 (split; [auto|]).
  assert (Fit : forall d, In d ds -> flag d "redist" false /\ forall p, describes d p -> same_wildcards p /\ roomy neighbour n p).
  { intros d Hd. apply In_nth_error in Hd as [j Hj]. destruct (All j d Hj) as (pd & fls & f0 & f1 & kf & kr & _ & _ & _ & SF).
    split; [apply (sf_redist _ _ _ _ _ _ _ _ _ _ _ _ _ _ _ _ _ _ SF)|]. intros p D.
    rewrite (describes_unique _ _ _ D (sf_describes _ _ _ _ _ _ _ _ _ _ _ _ _ _ _ _ _ _ SF)).
    split; [apply (sf_wildcards _ _ _ _ _ _ _ _ _ _ _ _ _ _ _ _ _ _ SF)|apply (sf_roomy _ _ _ _ _ _ _ _ _ _ _ _ _ _ _ _ _ _ SF)]. }
  destruct (total_drift neighbour basis n theta (is x) o mapping ds ps m H Fit N T) as (xs & Sh & ->).
  destruct (Net i name y Hi Fy Pl) as (cs & Lc & -> & NC).
  destruct (Forall2_nth _ _ _ Sh) as [Lx Shn].
  apply sums_match; [congruence|]. intros j u c Hu Hc.
  destruct (Shn j u Hu) as (d & Hd & pd' & rf & rr & D & Rp & ->).
  destruct (All j d Hd) as (pd & fls & f0 & f1 & kf & kr & Hf & Hk1 & Hk2 & SF).
  destruct SF as [D0 _ _ _ Once Rt R0 Fo F0 F1 U K N0 N1 Th P0 P1].
  assert (pd' = pd) as -> by (eapply describes_unique; eauto).
  destruct (MA j fls f0 f1 kf kr Hf F0 F1 Hk1 Hk2) as [M1 M2].
  pose proof (NC j fls _ _ c Hf M1 M2 Hc f0 f1 F0 F1) as Ec. rewrite Ec. clear Ec NC Net.
  pose proof (Rate_Proofs.rates_TST_pressure ro _ r _ _ _ _ _ _ R0 Fo F0 F1 U K) as R1. rewrite <- Rt in R1.
  assert (rf = (Rate_Spec.pressure_factor (MF_Spec.value (MF_Model.s_pressure s)) f0 * kf)%R /\
          rr = (Rate_Spec.pressure_factor (MF_Spec.value (MF_Model.s_pressure s)) f1 * kr)%R) as [-> ->].
  { destruct Rp as [[A1 A2]|[A1 A2]]; [rewrite Al in A1; discriminate A1|]. rewrite R1 in A2. injection A2 as <- <-. auto. }
  rewrite Forall_forall in U.
  assert (Gs : forall f st, In st [f0; f1] -> In f st -> Rxn_Model.f_site f = L "g" ->
    In f (Rate_Spec.gases f0 ++ Rate_Spec.gases f1)).
  { intros f st Hst Hf' E. apply in_or_app. destruct Hst as [<-|[<-|[]]]; [left|right]; unfold Rate_Spec.gases;
      apply filter_In; (split; [exact Hf'|rewrite E; apply str_eqb_refl]). }
  rewrite (mass_action_split s cvgs kf (MF_Spec.value (MF_Model.s_pressure s)) f0),
    (mass_action_split s cvgs kr (MF_Spec.value (MF_Model.s_pressure s)) f1); auto.
  2:{ intros f Hf' E. split; [apply (U f (Gs f f1 (or_intror (or_introl eq_refl)) Hf' E))|reflexivity]. }
  2:{ intros f Hf' E. split; [apply (U f (Gs f f0 (or_introl eq_refl) Hf' E))|reflexivity]. }
  rewrite (surface_product theta occ s cvgs _ f0), (surface_product theta occ s cvgs _ f1) by auto.
  pose proof (known o mapping ds ps m d pd H (nth_error_In _ _ Hd) D0) as Kn.
  assert (Cnt : forall st, In st fls -> forall f, In f st -> (0 <= Rxn_Model.f_stoich f)%Z /\
    (Rxn_Model.f_site f = L "g" -> Rxn_Model.f_species_site f <> name)).
  { intros st Hst f Hf'. destruct US as [[Pa _] _].
    pose proof (Species_Proofs.parse_rxns_facts _ _ Pa) as (Mp & _ & _ & _ & _ & _ & Lg & _).
    assert (Occ : Species_Spec.occurs f (Species_Model.l_rxns (MF_Model.s_lists s))).
    { exists fls, st. split; [eapply nth_error_In; eauto|]. auto. }
    split; [apply MF_Rate.readable_stoich; eapply Species_Proofs.occurs_readable; eauto|].
    intros E En. destruct (Species_Proofs.parse_rxns_disjoint _ _ name Pa) as (_ & _ & Dj & _). apply Dj.
    split; [|eapply nth_error_In; exact Hi]. apply Lg. exists f. split; auto. }
  assert (I0 : In f0 fls) by (destruct fls; [discriminate F0|injection F0 as <-; now left]).
  assert (I1 : In f1 fls).
  { clear - F1. eapply Species_Matrix.llast_In; eauto. }
  rewrite (energy_occ occ x name (named (d_before pd))), (energy_occ occ x name (named (d_after pd))).
  2:{ intros e He. apply Oc. apply (named_known o pd e Kn). now right. }
  2:{ intros e He. apply Oc. apply (named_known o pd e Kn). now left. }
  rewrite (energy_perm _ _ _ P0), (energy_perm _ _ _ P1).
  rewrite (surface_count name f0 (Cnt f0 I0)), (surface_count name f1 (Cnt f1 I1)).
  unfold Species_Spec.net_consumption. rewrite minus_IZR. rewrite <- mult_INR, Once. ring.
Qed.
