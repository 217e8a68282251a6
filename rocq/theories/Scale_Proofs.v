(** Linearity in the rate constants, common shifts of all barriers, reaction orders. *)
From Coq Require Import String Ascii List ZArith NArith Bool Arith Reals Lia Lra.
Import ListNotations.
From Verif Require Import PyBase PyBaseFacts Rxn_Model Rxn_Spec Rxn_Proofs Rxn_Count Species_Model Species_Spec
  Species_Proofs PyReal Energy_Model Energy_Spec Thermo_Model Rate_Model Rate_Spec Rate_Proofs
  MF_Model MF_Spec MF_Cover MF_Rate MF_More MF_Witness Whole_Spec Whole_Energy Whole_Rates Whole_Bound Whole_Order Scale_Spec.
Local Open Scope list_scope.
Local Open Scope R_scope.

Lemma mix_length a b xs ys n : length xs = n -> length ys = n -> length (mix a b xs ys) = n.
Proof. intros. unfold mix. rewrite map_length, combine_length. lia. Qed.

(** Values of a function over reactions whose constants are mixed. *)
Lemma mix_map (f : rxn -> R) a b (rx : list (list (list formula))) : 
  (forall fls x y x' y', f (fls, (a * x + b * x', a * y + b * y')) = a * f (fls, (x, y)) + b * f (fls, (x', y'))) ->
  forall kf kr kf' kr', length kf = length rx -> length kr = length rx -> length kf' = length rx -> length kr' = length rx ->
  map f (combine rx (combine (mix a b kf kf') (mix a b kr kr')))
  = mix a b (map f (combine rx (combine kf kr))) (map f (combine rx (combine kf' kr'))).
Proof.
  intro H. induction rx as [|r rx IH]; intros [|x kf] [|y kr] [|x' kf'] [|y' kr'] L1 L2 L3 L4; try discriminate; [reflexivity|].
  injection L1 as L1. injection L2 as L2. injection L3 as L3. injection L4 as L4.
  specialize (IH _ _ _ _ L1 L2 L3 L4). unfold mix in *. cbn [combine map fst snd]. rewrite H. now rewrite IH.
Qed.
Lemma mix_sum a b : forall xs ys, length xs = length ys -> Rsum (mix a b xs ys) = a * Rsum xs + b * Rsum ys.
Proof.
  induction xs as [|x xs IH]; intros [|y ys] H; try discriminate; [cbn; ring|]. injection H as H.
  unfold mix in *. cbn [combine map fst snd Rsum]. rewrite IH by auto. ring.
Qed.
Lemma mix_names a b (f g : str -> R) names : mix a b (map f names) (map g names) = map (fun n => a * f n + b * g n) names.
Proof. unfold mix. induction names as [|n l IH]; cbn; auto. now rewrite IH. Qed.
Lemma counted_linear name fls a b u v u' v' :
  counted name fls (a * u + b * u') (a * v + b * v') = a * counted name fls u v + b * counted name fls u' v'.
Proof. unfold counted. destruct (find_in_states name 0 fls) as [[[|i] n]|]; ring. Qed.

Lemma linear s cvgs a b kf kr kf' kr' : usable_setup s -> NoDup (s_exprs s) -> length cvgs = length (ads s) ->
  length kf = length (s_exprs s) -> length kr = length (s_exprs s) ->
  length kf' = length (s_exprs s) -> length kr' = length (s_exprs s) ->
  exists data rf rr F tof rf' rr' F' tof',
    get_data s = Ok data /\
    rates s (Ok (kf, kr)) (Some data) cvgs = Ok (rf, rr) /\
    rates s (Ok (kf', kr')) (Some data) cvgs = Ok (rf', rr') /\
    rates s (Ok (mix a b kf kf', mix a b kr kr')) (Some data) cvgs = Ok (mix a b rf rf', mix a b rr rr') /\
    steady_state_function s (Ok (kf, kr)) (Some data) cvgs = Ok F /\
    steady_state_function s (Ok (kf', kr')) (Some data) cvgs = Ok F' /\
    steady_state_function s (Ok (mix a b kf kf', mix a b kr kr')) (Some data) cvgs = Ok (mix a b F F') /\
    tofs s (Ok (kf, kr)) (Some data) cvgs = Ok tof /\
    tofs s (Ok (kf', kr')) (Some data) cvgs = Ok tof' /\
    tofs s (Ok (mix a b kf kf', mix a b kr kr')) (Some data) cvgs = Ok (mix a b tof tof').
Proof.
  intros U ND Len L1 L2 L3 L4. pose proof (num_rxns s U) as NR.
  destruct (explicit s U ND cvgs kf kr Len L1 L2) as (data & A1 & A2 & _ & A4 & A5).
  destruct (explicit s U ND cvgs kf' kr' Len L3 L4) as (data' & B1 & B2 & _ & B4 & B5).
  assert (data' = data) by congruence. subst data'.
  destruct (explicit s U ND cvgs (mix a b kf kf') (mix a b kr kr') Len) as (data' & C1 & C2 & _ & C4 & C5);
    try now apply mix_length.
  assert (data' = data) by congruence. subst data'.
  assert (M : forall f : rxn -> R,
    (forall fls x y x' y', f (fls, (a * x + b * x', a * y + b * y')) = a * f (fls, (x, y)) + b * f (fls, (x', y'))) ->
    map f (reactions s (mix a b kf kf') (mix a b kr kr')) = mix a b (map f (reactions s kf kr)) (map f (reactions s kf' kr'))).
  { intros f Hf. unfold reactions. apply mix_map; auto; congruence. }
  assert (LX : forall f : rxn -> R, length (map f (reactions s kf kr)) = length (map f (reactions s kf' kr'))).
  { intro f. rewrite !map_length. rewrite !(reactions_length s _ _ (length (s_exprs s))); auto. }
  exists data. do 8 eexists. split; [exact A1|]. split; [exact A2|]. split; [exact B2|]. split.
  { rewrite C2. rewrite !M; [reflexivity| |]; intros; unfold fwd, bwd; cbn [fst snd]; rewrite !mass_action_scale; ring. }
  split; [exact A4|]. split; [exact B4|]. split.
  { rewrite C4. f_equal. rewrite mix_names. apply map_ext. intro n. unfold derivative. rewrite M.
    - apply mix_sum, LX.
    - intros. cbn [fst]. rewrite <- counted_linear. unfold fwd, bwd. cbn [fst snd]. rewrite !mass_action_scale. f_equal; ring. }
  split; [exact A5|]. split; [exact B5|].
  rewrite C5. f_equal. rewrite mix_names. apply map_ext. intro n. unfold turnover. rewrite M.
  - apply mix_sum, LX.
  - intros. unfold fwd, bwd. cbn [fst snd]. rewrite !mass_action_scale. ring.
Qed.

(** ** A common shift of the barriers *)
Lemma raised_constants ec o own r r' e : 0 < o_T o -> NoDup (o_rxns o) -> entries r (length (o_rxns o)) -> raised e r r' ->
  exists kf kr, rate_constants ec o (L "TST") (Some r) own = Ok (kf, kr) /\
    length kf = length (o_rxns o) /\ length kr = length (o_rxns o) /\
    rate_constants ec o (L "TST") (Some r') own
    = Ok (map (Rmult (exp (- e / kT (o_T o)))) kf, map (Rmult (exp (- e / kT (o_T o)))) kr).
Proof.
  intros HT ND (L1 & L2 & L3) (R1 & R2 & R3).
  assert (Ex : forall r, entries r (length (o_rxns o)) ->
    exists kf kr, rate_constants ec o (L "TST") (Some r) own = Ok (kf, kr) /\
      length kf = length (o_rxns o) /\ length kr = length (o_rxns o) /\
      forall i a b d, entry r i a b d -> nth_error kf i = Some (frequency (o_T o) * exp (- a / kT (o_T o))) /\
                                         nth_error kr i = Some (frequency (o_T o) * exp (- b / kT (o_T o)))).
  { clear r r' L1 L2 L3 R1 R2 R3. intros r (L1 & L2 & L3).
    assert (Ex : forall i e, nth_error (o_rxns o) i = Some e -> exists a b d, energies_of o r e a b d /\ entry r i a b d).
    { intros i x He. assert (Hl : (i < length (o_rxns o))%nat) by (apply nth_error_Some; congruence).
      destruct (nth_error_lt _ i _ L1 Hl) as [a Ha]. destruct (nth_error_lt _ i _ L2 Hl) as [b Hb].
      destruct (nth_error_lt _ i _ L3 Hl) as [d Hd]. exists a, b, d.
      assert (entry r i a b d) by (repeat split; auto). split; auto. exists i.
      destruct (NoDup_first _ _ _ ND He). auto. }
    destruct (rate_constants_TST ec o (Some r) own r HT eq_refl) as (kf & kr & E & M1 & M2 & V).
    { intros x He. apply In_nth_error in He as [i Hi]. destruct (Ex i x Hi) as (a & b & d & ? & _). eauto. }
    exists kf, kr. do 3 (split; [assumption|]). intros i a b d H.
    assert (Hl : (i < length (o_rxns o))%nat) by (rewrite <- L3; apply nth_error_Some; destruct H as (_ & _ & ->); discriminate).
    destruct (nth_error_lt (o_rxns o) i _ eq_refl Hl) as [x He]. destruct (Ex i x He) as (a' & b' & d' & Q1 & Q2).
    destruct H as (H1 & H2 & H3). destruct Q2 as (Q2 & Q3 & Q4).
    assert (a' = a) by congruence. assert (b' = b) by congruence. subst a' b'. exact (V i x a b d' He Q1). }
  destruct (Ex r) as (kf & kr & E & M1 & M2 & V); [split; auto|].
  destruct (Ex r') as (kf' & kr' & E' & M1' & M2' & V').
  { unfold entries. rewrite R1, R2, R3, !map_length. auto. }
  exists kf, kr. do 3 (split; [assumption|]). rewrite E'.
  assert (EXP : forall x, frequency (o_T o) * exp (- (x + e) / kT (o_T o)) = exp (- e / kT (o_T o)) * (frequency (o_T o) * exp (- x / kT (o_T o)))).
  { intro x. replace (- (x + e) / kT (o_T o)) with (- e / kT (o_T o) + - x / kT (o_T o)).
    - rewrite exp_plus. ring.
    - unfold Rdiv. ring. }
  assert (At : forall i, (i < length (o_rxns o))%nat -> exists a b d, entry r i a b d /\ entry r' i (a + e) (b + e) d).
  { intros i Hl. destruct (nth_error_lt _ i _ L1 Hl) as [a Ha]. destruct (nth_error_lt _ i _ L2 Hl) as [b Hb].
    destruct (nth_error_lt _ i _ L3 Hl) as [d Hd]. exists a, b, d. split; [repeat split; auto|].
    unfold entry. rewrite R1, R2, R3. repeat split; auto; now apply map_nth_error with (f := fun x => x + e). }
  assert (Q : forall k k' : list R, length k = length (o_rxns o) -> length k' = length (o_rxns o) ->
    (forall i, (i < length (o_rxns o))%nat -> exists x, nth_error k i = Some x /\ nth_error k' i = Some (exp (- e / kT (o_T o)) * x)) ->
    k' = map (Rmult (exp (- e / kT (o_T o)))) k).
  { intros k k' K1 K2 H. apply list_ext; [rewrite map_length; congruence|]. intros i y Hy. rewrite nth_error_map in Hy.
    destruct (nth_error k i) as [x|] eqn:Hx; [|discriminate]. cbn in Hy. injection Hy as <-.
    destruct (H i) as (x' & H1 & H2); [rewrite <- K1; apply nth_error_Some; congruence|]. congruence. }
  f_equal. f_equal; apply Q; auto; intros i Hl; destruct (At i Hl) as (a & b & d & H1 & H2);
    destruct (V i a b d H1) as [V1 V2]; destruct (V' i _ _ d H2) as [V1' V2']; rewrite EXP in V1', V2'; eauto.
Qed.

Lemma mix_one c xs : mix c 0 xs xs = map (Rmult c) xs.
Proof. unfold mix. induction xs as [|x l IH]; cbn; auto. rewrite IH. f_equal. ring. Qed.

Lemma raised_mechanism ec o own s r r' e cvgs : usable_setup s -> NoDup (s_exprs s) -> o_rxns o = s_exprs s -> 0 < o_T o ->
  entries r (length (s_exprs s)) -> raised e r r' -> length cvgs = length (ads s) ->
  exists data ks ks' F tof, let c := exp (- e / kT (o_T o)) in
    get_data s = Ok data /\
    rate_constants ec o (L "TST") (Some r) own = Ok ks /\ rate_constants ec o (L "TST") (Some r') own = Ok ks' /\
    steady_state_function s (Ok ks) (Some data) cvgs = Ok F /\
    steady_state_function s (Ok ks') (Some data) cvgs = Ok (map (Rmult c) F) /\
    tofs s (Ok ks) (Some data) cvgs = Ok tof /\ tofs s (Ok ks') (Some data) cvgs = Ok (map (Rmult c) tof) /\
    ((forall y, In y (map (Rmult c) F) -> y = 0) <-> (forall y, In y F -> y = 0)).
Proof.
  intros U ND EO HT C Ra Len. rewrite <- EO in C. assert (ND' : NoDup (o_rxns o)) by now rewrite EO.
  destruct (raised_constants ec o own r r' e HT ND' C Ra) as (kf & kr & E & L1 & L2 & E'). rewrite EO in L1, L2.
  set (c := exp (- e / kT (o_T o))) in *.
  destruct (linear s cvgs c 0 kf kr kf kr U ND Len L1 L2 L1 L2)
    as (data & rf & rr & F & tof & rf' & rr' & F' & tof' & D & _ & _ & _ & S1 & S2 & S3 & T1 & T2 & T3).
  assert (F' = F) by congruence. assert (tof' = tof) by congruence. subst F' tof'. rewrite !mix_one in *.
  exists data, (kf, kr), (map (Rmult c) kf, map (Rmult c) kr), F, tof. cbn zeta. repeat (split; [assumption|]).
  assert (c <> 0) by (unfold c; pose proof (exp_pos (- e / kT (o_T o))); lra).
  split; intros Z y Hy.
  - assert (Q : c * y = 0) by (apply Z; now apply in_map). apply Rmult_integral in Q as [Q|Q]; tauto.
  - apply in_map_iff in Hy as (x & <- & Hx). rewrite (Z x Hx). ring.
Qed.

(** ** A reaction switched off *)
Lemma same_activity' s s' cvgs f : same_but_reactions s s' -> ads s' = ads s -> activity s' cvgs f = activity s cvgs f.
Proof. intros (P & T & G & C) E1. unfold activity, coverage, total. now rewrite T, G, C, E1. Qed.
Lemma same_mass_action' s s' cvgs k st : same_but_reactions s s' -> ads s' = ads s -> mass_action s' cvgs k st = mass_action s cvgs k st.
Proof. intros S E. induction st as [|f st IH]; cbn [mass_action]; auto. now rewrite IH, (same_activity' s s'). Qed.

Lemma combine_app {A B} (a a' : list A) (b b' : list B) : length a = length b -> combine (a ++ a') (b ++ b') = combine a b ++ combine a' b'.
Proof. revert b. induction a as [|x a IH]; intros [|y b] H; try discriminate; auto. cbn. now rewrite IH by auto. Qed.
Lemma Rsum_app l m : Rsum (l ++ m) = Rsum l + Rsum m.
Proof. induction l as [|x l IH]; cbn; [ring|]. rewrite IH. ring. Qed.

Lemma switched_off e s s' cvgs kf kr : usable_setup s -> NoDup (s_exprs s) -> usable_setup s' -> one_more e s s' ->
  length cvgs = length (ads s) -> length kf = length (s_exprs s) -> length kr = length (s_exprs s) ->
  exists data data' F tof,
    get_data s = Ok data /\ get_data s' = Ok data' /\
    steady_state_function s (Ok (kf, kr)) (Some data) cvgs = Ok F /\
    steady_state_function s' (Ok (kf ++ [0], kr ++ [0])) (Some data') cvgs = Ok F /\
    tofs s (Ok (kf, kr)) (Some data) cvgs = Ok tof /\
    tofs s' (Ok (kf ++ [0], kr ++ [0])) (Some data') cvgs = Ok tof.
Proof.
  intros U ND U' (S & EE & NI & E1 & E2 & E3 & E4) Len L1 L2.
  assert (ND' : NoDup (s_exprs s')).
  { rewrite EE. apply NoDup_rev in ND. rewrite <- (rev_involutive (s_exprs s ++ [e])). apply NoDup_rev. rewrite rev_app_distr. cbn.
    constructor; auto. now rewrite <- in_rev. }
  destruct (explicit s U ND cvgs kf kr Len L1 L2) as (data & A1 & _ & _ & A4 & A5).
  destruct (explicit s' U' ND' cvgs (kf ++ [0]) (kr ++ [0])) as (data' & B1 & _ & _ & B4 & B5).
  { now rewrite E1. } { rewrite EE, !app_length; cbn; lia. } { rewrite EE, !app_length; cbn; lia. }
  assert (X : exists fls, reactions s' (kf ++ [0]) (kr ++ [0]) = reactions s kf kr ++ [(fls, (0, 0))]).
  { exists (parsed_list e). rewrite (reactions_pairs s _ _ (proj1 (proj1 U))), (reactions_pairs s' _ _ (proj1 S)), EE.
    rewrite !combine_app; [rewrite map_app; reflexivity| |]; rewrite ?combine_length; lia. }
  destruct X as [fls X].
  exists data, data'. do 2 eexists. do 2 (split; [eassumption|]). split; [exact A4|]. split; [|split; [exact A5|]].
  - rewrite B4, E1. f_equal. apply map_ext. intro n. unfold derivative. rewrite X, map_app, Rsum_app. cbn [map Rsum fst snd].
    transitivity (Rsum (map (fun x => counted n (fst x) (fwd s' cvgs x) (bwd s' cvgs x)) (reactions s kf kr)) + 0).
    + f_equal. unfold fwd, bwd. cbn [fst snd]. rewrite !mass_action_scale, !Rmult_0_l, counted_zero. ring.
    + rewrite Rplus_0_r. apply Rsum_ext. intros x _. unfold fwd, bwd. now rewrite !(same_mass_action' s s').
  - rewrite B5, E3, E4. f_equal. apply map_ext. intro n. unfold turnover. rewrite X, map_app, Rsum_app. cbn [map Rsum fst snd].
    transitivity (Rsum (map (fun x => - IZR (consumption (fst x) n) * (fwd s' cvgs x - bwd s' cvgs x)) (reactions s kf kr)) + 0).
    + f_equal. unfold fwd, bwd. cbn [fst snd]. rewrite !mass_action_scale. ring.
    + rewrite Rplus_0_r. apply Rsum_ext. intros x _. unfold fwd, bwd. now rewrite !(same_mass_action' s s').
Qed.

(** ** Reaction orders *)
Lemma scaled_mass_action g c s s' cvgs k st : pressure_scaled g c s s' ->
  mass_action s' cvgs k st = c ^ order g st * mass_action s cvgs k st.
Proof.
  intros (E1 & E2 & E3 & E4 & E5 & E6). induction st as [|f st IH]; [unfold order; cbn; ring|].
  cbn [mass_action]. rewrite IH. unfold order. cbn [filter]. unfold activity.
  destruct (str_eqb (f_site f) (L "g")) eqn:G.
  - cbn [map]. change (list_sum (?a :: ?l)) with (a + list_sum l)%nat. rewrite pow_add.
    destruct (str_eqb (f_species_site f) g) eqn:Q.
    + apply str_eqb_eq in Q. rewrite Q. unfold value. rewrite E5. destruct (dget (s_pressure s) g) as [x|]; cbn [option_map].
      * rewrite Rpow_mult_distr. ring.
      * destruct (Z.to_nat (f_stoich f)); cbn [pow]; ring.
    + assert (f_species_site f <> g) by (intro H; apply str_eqb_eq in H; congruence).
      unfold value. rewrite E6 by auto. cbn [pow]. ring.
  - fold (order g st). unfold coverage, ads, total. rewrite E2, E3, E4. ring.
Qed.

Lemma scaled_usable g c s s' : pressure_scaled g c s s' -> usable_setup s -> usable_setup s'.
Proof.
  intros (E1 & E2 & E3 & E4 & E5 & E6) [(P & P1 & P2 & P3) V]. split; [split; [|split; [|split]]|]; rewrite ?E1, ?E2, ?E3, ?E4; auto.
  intros n Hn. destruct (P2 n Hn) as [x Hx]. destruct (str_eqb n g) eqn:Q.
  - apply str_eqb_eq in Q. subst n. rewrite E5, Hx. eexists. reflexivity.
  - rewrite E6 by (intro H; apply str_eqb_eq in H; congruence). eauto.
Qed.

Lemma reaction_order g c s s' cvgs kf kr : usable_setup s -> NoDup (s_exprs s) -> pressure_scaled g c s s' ->
  length cvgs = length (ads s) -> length kf = length (s_exprs s) -> length kr = length (s_exprs s) ->
  exists data data' rf rr rf' rr',
    get_data s = Ok data /\ get_data s' = Ok data' /\
    rates s (Ok (kf, kr)) (Some data) cvgs = Ok (rf, rr) /\
    rates s' (Ok (kf, kr)) (Some data') cvgs = Ok (rf', rr') /\
    length rf = length (s_exprs s) /\ length rr = length (s_exprs s) /\
    forall i fls x y, nth_error (l_rxns (s_lists s)) i = Some fls -> nth_error rf i = Some x -> nth_error rr i = Some y ->
      nth_error rf' i = Some (c ^ order g (begins fls) * x) /\ nth_error rr' i = Some (c ^ order g (ends fls) * y).
Proof.
  intros U ND PS Len L1 L2. pose proof (scaled_usable _ _ _ _ PS U) as U'.
  destruct PS as (E1 & E2 & PS'). pose proof (conj E1 (conj E2 PS')) as PS. 
  destruct (explicit s U ND cvgs kf kr Len L1 L2) as (data & A1 & A2 & _).
  assert (Len' : length cvgs = length (ads s')) by (unfold ads in *; now rewrite E2).
  assert (ND' : NoDup (s_exprs s')) by now rewrite E1.
  assert (L1' : length kf = length (s_exprs s')) by now rewrite E1. assert (L2' : length kr = length (s_exprs s')) by now rewrite E1.
  destruct (explicit s' U' ND' cvgs kf kr Len' L1' L2') as (data' & B1 & B2 & _).
  assert (X : reactions s' kf kr = reactions s kf kr) by (unfold reactions; now rewrite E2).
  pose proof (num_rxns s U) as NR.
  exists data, data'. do 4 eexists. split; [exact A1|]. split; [exact B1|]. split; [exact A2|]. split; [exact B2|].
  rewrite !map_length, !(reactions_length s kf kr _ NR L1 L2). do 2 (split; [reflexivity|]).
  rewrite X. intros i fls x y Hf Hx Hy. rewrite nth_error_map in Hx, Hy. rewrite !nth_error_map.
  destruct (nth_error (reactions s kf kr) i) as [r|] eqn:Hr; [|discriminate]. cbn [option_map] in *.
  destruct (reactions_inv _ _ _ _ _ Hr) as (R1 & _). assert (fls = fst r) by congruence. subst fls.
  injection Hx as <-. injection Hy as <-. unfold fwd, bwd. rewrite !(scaled_mass_action g c s s') by exact PS. split; reflexivity.
Qed.

(** More pressure. *)
Lemma more_pressure g c s s' cvgs kf kr : usable_setup s -> NoDup (s_exprs s) -> pressure_scaled g c s s' -> 1 <= c ->
  nothing_negative s cvgs -> (forall k, In k kf \/ In k kr -> 0 <= k) ->
  length cvgs = length (ads s) -> length kf = length (s_exprs s) -> length kr = length (s_exprs s) ->
  exists data data' rf rr rf' rr',
    get_data s = Ok data /\ get_data s' = Ok data' /\
    rates s (Ok (kf, kr)) (Some data) cvgs = Ok (rf, rr) /\
    rates s' (Ok (kf, kr)) (Some data') cvgs = Ok (rf', rr') /\
    Forall2 Rle rf rf' /\ Forall2 Rle rr rr'.
Proof.
  intros U ND PS Hc Nn HK Len L1 L2. pose proof (scaled_usable _ _ _ _ PS U) as U'.
  destruct PS as (E1 & E2 & PS'). pose proof (conj E1 (conj E2 PS')) as PS. 
  destruct (explicit s U ND cvgs kf kr Len L1 L2) as (data & A1 & A2 & _).
  assert (Len' : length cvgs = length (ads s')) by (unfold ads in *; now rewrite E2).
  assert (ND' : NoDup (s_exprs s')) by now rewrite E1.
  assert (L1' : length kf = length (s_exprs s')) by now rewrite E1. assert (L2' : length kr = length (s_exprs s')) by now rewrite E1.
  destruct (explicit s' U' ND' cvgs kf kr Len' L1' L2') as (data' & B1 & B2 & _).
  assert (X : reactions s' kf kr = reactions s kf kr) by (unfold reactions; now rewrite E2). rewrite X in B2.
  exists data, data'. do 4 eexists. split; [exact A1|]. split; [exact B1|]. split; [exact A2|]. split; [exact B2|].
  assert (P : forall n x, 0 <= x -> x <= c ^ n * x).
  { intros n x Hx. pose proof (pow_R1_Rle c n Hc). rewrite <- (Rmult_1_l x) at 1. now apply Rmult_le_compat_r. }
  assert (G : forall (f f' : rxn -> R) l, (forall x, In x l -> f x <= f' x) -> Forall2 Rle (map f l) (map f' l)).
  { intros f f' l H. induction l as [|x l IH]; cbn; constructor; [apply H; now left|]. apply IH. intros; apply H; now right. }
  split; apply G; intros x Hx; unfold fwd, bwd; rewrite !(scaled_mass_action g c s s') by exact PS; apply P;
    destruct (reactions_In _ _ _ _ Hx) as (I1 & I2 & I3); apply mass_action_nonneg; auto; exists (fst x); auto.
Qed.

(** The rate constants know nothing of the pressures. *)
Lemma constants_without_pressure ec o o' algo given own :
  o_T o' = o_T o -> o_rxns o' = o_rxns o -> o_Auc o' = o_Auc o -> o_act_ratio o' = o_act_ratio o ->
  o_corrector_str o' = o_corrector_str o ->
  rate_constants ec o' algo given own = rate_constants ec o algo given own.
Proof.
  intros E1 E2 E3 E4 E5. unfold rate_constants. destruct (match given with Some r => Ok r | None => _ end) as [r|]; [|reflexivity].
  cbn [bind]. rewrite E2.
  assert (Q : forall f g : str -> res (R * R), (forall e, f e = g e) -> mapM f (o_rxns o) = mapM g (o_rxns o)).
  { intros f g H. generalize (o_rxns o) as l. induction l as [|e l IH]; [reflexivity|]. cbn [mapM]. now rewrite H, IH. }
  destruct (str_eqb algo (L "TST")); [|destruct (str_eqb algo (L "CT")); [|reflexivity]]; cbn [bind].
  - rewrite (Q _ (fun e => rates_TST o e r false)); [reflexivity|]. intro e. lazy beta iota delta [rates_TST rxn_energies]. rewrite E1, E2. reflexivity.
  - rewrite (Q _ (fun e => rates_CT ec o e r false)); [reflexivity|]. intro e. lazy beta iota delta [rates_CT rxn_energies gas_pressure].
    now rewrite E1, E2, E3, E4, E5.
Qed.
