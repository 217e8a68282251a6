(** Rates, time derivatives and turnover frequencies of a whole mechanism in closed form, for
    mechanisms without repeated reactions. *)
From Coq Require Import String Ascii List ZArith NArith Bool Arith Reals Lia Lra Permutation.
Import ListNotations.
From Verif Require Import PyBase PyBaseFacts Rxn_Model Rxn_Spec Rxn_Proofs Rxn_Count Species_Model Species_Spec
  Species_Proofs Species_Matrix PyReal Energy_Model Energy_Spec Energy_Proofs Thermo_Model Rate_Model Rate_Spec
  Rate_Proofs PyExpr_Model PyExpr_Proofs MF_Model MF_Spec MF_Cover MF_Rate MF_More MF_Witness Whole_Spec Whole_Energy.
Local Open Scope list_scope.
Local Open Scope R_scope.

(** A reaction with its two rate constants. *)
Notation rxn := (list (list formula) * (R * R))%type.
Definition fwd (s : setup) (cvgs : list R) (x : rxn) : R := mass_action s cvgs (fst (snd x)) (begins (fst x)).
Definition bwd (s : setup) (cvgs : list R) (x : rxn) : R := mass_action s cvgs (snd (snd x)) (ends (fst x)).

Definition counted (name : str) (fls : list (list formula)) (rf rr : R) : R :=
  match find_in_states name 0 fls with
  | None => 0
  | Some (O, n) => IZR n * (rr - rf)
  | Some (S _, n) => IZR n * (rf - rr)
  end.

Lemma found name fls k :
  match find_in_states name k fls with
  | Some (i, n) => exists i', i = (k + i')%nat /\ met_first name fls i' n
  | None => absent name fls
  end.
Proof. exact (find_in_states_spec (setup_of [] no_lists [] [] []) [] [] [] eq_refl eq_refl eq_refl name fls k). Qed.

Lemma counted_fun name fls rf rr c : counted_change name fls rf rr c -> c = counted name fls rf rr.
Proof.
  unfold counted. pose proof (found name fls 0) as F.
  destruct (find_in_states name 0 fls) as [[i n]|].
  - destruct F as (i' & -> & M). cbn [Nat.add]. intros [[A _]|[(m & M' & ->)|(j & m & M' & ->)]].
    + exfalso. exact (met_not_absent _ _ _ _ M A).
    + destruct (met_first_unique _ _ _ _ _ _ M M') as [-> ->]. reflexivity.
    + destruct (met_first_unique _ _ _ _ _ _ M M') as [-> ->]. reflexivity.
  - intros [[_ ->]|[(m & M' & ->)|(j & m & M' & ->)]]; auto; exfalso; exact (met_not_absent _ _ _ _ M' F).
Qed.

Lemma counted_is name fls rf rr : counted_change name fls rf rr (counted name fls rf rr).
Proof.
  unfold counted. pose proof (found name fls 0) as F.
  destruct (find_in_states name 0 fls) as [[i n]|].
  - destruct F as (i' & -> & M). cbn [Nat.add]. destruct i' as [|i']; [right; left|right; right]; eauto.
  - left. auto.
Qed.

Definition reactions (s : setup) (kf kr : list R) : list rxn := combine (l_rxns (s_lists s)) (combine kf kr).
Definition derivative (s : setup) (cvgs : list R) (X : list rxn) (name : str) : R :=
  Rsum (map (fun x => counted name (fst x) (fwd s cvgs x) (bwd s cvgs x)) X).
Definition turnover (s : setup) (cvgs : list R) (X : list rxn) (name : str) : R :=
  Rsum (map (fun x => - IZR (consumption (fst x) name) * (fwd s cvgs x - bwd s cvgs x)) X).

Lemma begins_first fls : fls <> [] -> lfirst fls = Ok (begins fls).
Proof. destruct fls; [congruence|reflexivity]. Qed.
Lemma ends_last fls : fls <> [] -> llast fls = Ok (ends fls).
Proof.
  intro N. destruct (llast_ok fls N) as [b E]. rewrite E. now rewrite (ends_ok _ _ E).
Qed.

Lemma reactions_length s kf kr n : length (l_rxns (s_lists s)) = n -> length kf = n -> length kr = n ->
  length (reactions s kf kr) = n.
Proof.
  intros H1 H2 H3. pose proof (combine_length kf kr) as Q1.
  pose proof (combine_length (l_rxns (s_lists s)) (combine kf kr)) as Q2. unfold reactions.
  rewrite Q2, Q1. lia.
Qed.

Lemma reactions_nth s kf kr i fls a b : nth_error (l_rxns (s_lists s)) i = Some fls ->
  nth_error kf i = Some a -> nth_error kr i = Some b -> nth_error (reactions s kf kr) i = Some (fls, (a, b)).
Proof. intros. unfold reactions. apply nth_error_combine; auto. now apply nth_error_combine. Qed.

Lemma reactions_inv s kf kr i x : nth_error (reactions s kf kr) i = Some x ->
  nth_error (l_rxns (s_lists s)) i = Some (fst x) /\ nth_error kf i = Some (fst (snd x)) /\ nth_error kr i = Some (snd (snd x)).
Proof.
  unfold reactions. destruct x as [fls [a b]]. cbn [fst snd]. intro H.
  assert (Q : forall A B (l : list A) (m : list B) j u v, nth_error (combine l m) j = Some (u, v) ->
     nth_error l j = Some u /\ nth_error m j = Some v).
  { clear. induction l as [|y l IH]; intros [|z m] [|j] u v H; cbn in *; try discriminate; [split; congruence|auto]. }
  apply Q in H as [H1 H2]. now apply Q in H2 as [H2 H3].
Qed.

Section Explicit.
  Variable s : setup.
  Hypothesis U : usable_setup s.
  Hypothesis ND : NoDup (s_exprs s).
  Variables (cvgs kf kr : list R).
  Hypothesis Len : length cvgs = length (ads s).
  Hypothesis Lf : length kf = length (s_exprs s).
  Hypothesis Lr : length kr = length (s_exprs s).
  Let X := reactions s kf kr.

  Lemma explicit : exists data,
    get_data s = Ok data /\
    rates s (Ok (kf, kr)) (Some data) cvgs = Ok (map (fwd s cvgs) X, map (bwd s cvgs) X) /\
    net_rates s (Ok (kf, kr)) (Some data) cvgs = Ok (map (fun x => fwd s cvgs x - bwd s cvgs x) X) /\
    steady_state_function s (Ok (kf, kr)) (Some data) cvgs = Ok (map (derivative s cvgs X) (ads s)) /\
    tofs s (Ok (kf, kr)) (Some data) cvgs = Ok (map (turnover s cvgs X) (l_gas (s_lists s) ++ l_liq (s_lists s))).
  Proof.
    destruct (rates_distinct s cvgs kf kr U ND Len Lf Lr) as (data & rfs & rrs & E1 & E2 & L1 & L2 & H).
    pose proof (num_rxns s U) as NR.
    assert (LX : length X = length (s_exprs s)).
    { now apply reactions_length. }
    assert (Nonempty : forall i fls, nth_error (l_rxns (s_lists s)) i = Some fls -> fls <> []).
    { intros i fls Hi. now destruct (parse_rxns_rxn _ _ _ (proj1 (proj1 U)) (nth_error_In _ _ Hi)) as (_ & _ & _ & _ & Nn). }
    assert (At : forall i x, nth_error X i = Some x -> nth_error rfs i = Some (fwd s cvgs x) /\ nth_error rrs i = Some (bwd s cvgs x)).
    { intros i x Hx. destruct (reactions_inv _ _ _ _ _ Hx) as (R1 & R2 & R3). 
      apply (H i (fst x) _ _ _ _ R1); auto; [apply begins_first|apply ends_last]; eapply Nonempty; eauto. }
    assert (Q1 : rfs = map (fwd s cvgs) X).
    { apply list_ext; [rewrite map_length; congruence|]. intros i y Hy. rewrite nth_error_map in Hy.
      destruct (nth_error X i) as [x|] eqn:Hx; [|discriminate]. cbn in Hy. injection Hy as <-. now apply At. }
    assert (Q2 : rrs = map (bwd s cvgs) X).
    { apply list_ext; [rewrite map_length; congruence|]. intros i y Hy. rewrite nth_error_map in Hy.
      destruct (nth_error X i) as [x|] eqn:Hx; [|discriminate]. cbn in Hy. injection Hy as <-. now apply At. }
    assert (E3 : net_rates s (Ok (kf, kr)) (Some data) cvgs = Ok (map (fun x => fwd s cvgs x - bwd s cvgs x) X)).
    { unfold net_rates. rewrite E2, Q1, Q2. cbn [bind]. f_equal. clear. induction X; cbn; auto. now rewrite IHl. }
    exists data. split; [exact E1|]. split; [now rewrite E2, Q1, Q2|]. split; [exact E3|]. split.
    - destruct (steady_indexed s U cvgs kf kr Len Lf Lr) as (data' & rfs' & rrs' & F & E1' & E2' & E4 & LF & K).
      assert (data' = data) by congruence. subst data'. rewrite E2 in E2'. injection E2' as <- <-.
      rewrite E4. f_equal. apply list_ext; [now rewrite map_length|]. intros i y Hy. rewrite nth_error_map in Hy.
      destruct (nth_error (ads s) i) as [name|] eqn:Hn; [|discriminate]. cbn in Hy. injection Hy as <-.
      destruct (nth_error_lt F i (length (ads s)) LF) as [y Hy]; [apply nth_error_Some; congruence|]. rewrite Hy. f_equal.
      destruct (K i name y Hn Hy) as (cs & Lc & -> & C). unfold derivative. f_equal.
      apply list_ext; [rewrite map_length, Lc; symmetry; exact LX|]. intros j z Hz. rewrite nth_error_map in Hz.
      destruct (nth_error X j) as [x|] eqn:Hx; [|discriminate]. cbn in Hz. injection Hz as <-.
      assert (Hj : (j < length (s_exprs s))%nat) by (rewrite <- LX; apply nth_error_Some; congruence).
      destruct (nth_error_lt cs j _ Lc Hj) as [c Hc]. rewrite Hc. f_equal.
      apply counted_fun. destruct (At j x Hx) as [A1 A2]. destruct (reactions_inv _ _ _ _ _ Hx) as (R1 & _).
      now apply (C j).
    - rewrite (tofs_ok s _ _ _ _ (proj1 U) E3) by (rewrite map_length; congruence). f_equal. apply map_ext.
      intro name. unfold tof_value, turnover. f_equal. 
      apply list_ext; [rewrite !map_length, combine_length, map_length; lia|].
      intros j z Hz. rewrite nth_error_map in Hz.
      destruct (nth_error X j) as [x|] eqn:Hx; [|discriminate]. cbn in Hz. injection Hz as <-.
      destruct (reactions_inv _ _ _ _ _ Hx) as (R1 & _).
      pose proof (nth_error_combine _ _ _ _ _ R1 (map_nth_error (fun x => fwd s cvgs x - bwd s cvgs x) _ _ Hx)) as N.
      now rewrite (map_nth_error _ _ _ N).
  Qed.
End Explicit.

Lemma mass_action_scale s cvgs k st : mass_action s cvgs k st = k * activities s cvgs st.
Proof.
  unfold activities. induction st as [|f st IH]; cbn [mass_action]; [ring|]. rewrite IH. ring.
Qed.

(** ** Equilibrium *)
Lemma downhill_rate kf kr A B dg T : 0 < T -> 0 < kf -> 0 < kr -> ln kf - ln kr = - dg / kT T -> 0 < A -> 0 < B ->
  (kf * A - kr * B > 0 <-> dg + kT T * ln (B / A) < 0) /\
  (kf * A - kr * B = 0 <-> dg + kT T * ln (B / A) = 0) /\
  (kf * A - kr * B < 0 <-> dg + kT T * ln (B / A) > 0).
Proof.
  intros HT Hf Hr Q HA HB. pose proof (kT_pos T HT) as HK.
  assert (E : dg + kT T * ln (B / A) = kT T * (ln (kr * B) - ln (kf * A))).
  { rewrite !ln_mult by auto. unfold Rdiv at 1. rewrite ln_mult, ln_Rinv by (auto; now apply Rinv_0_lt_compat).
    assert (dg = - kT T * (ln kf - ln kr)) as -> by (rewrite Q; field; lra). ring. }
  assert (P1 : 0 < kf * A) by now apply Rmult_lt_0_compat.
  assert (P2 : 0 < kr * B) by now apply Rmult_lt_0_compat.
  rewrite E. set (x := kf * A) in *. set (y := kr * B) in *. clearbody x y. clear E Q.
  destruct (Rtotal_order x y) as [Hl|[->|Hl]].
  - pose proof (ln_increasing x y P1 Hl). assert (0 < kT T * (ln y - ln x)) by (apply Rmult_lt_0_compat; lra).
    repeat split; intro; lra.
  - replace (kT T * (ln y - ln y)) with 0 by ring. repeat split; intro; lra.
  - pose proof (ln_increasing y x P2 Hl). assert (0 < kT T * (ln x - ln y)) by (apply Rmult_lt_0_compat; lra).
    assert (kT T * (ln y - ln x) < 0) by (replace (kT T * (ln y - ln x)) with (- (kT T * (ln x - ln y))) by ring; lra).
    repeat split; intro; lra.
Qed.

Lemma constants_of ec o r own : 0 < o_T o -> NoDup (o_rxns o) -> consistent r (length (o_rxns o)) ->
  exists kf kr, rate_constants ec o (L "TST") (Some r) own = Ok (kf, kr) /\
    length kf = length (o_rxns o) /\ length kr = length (o_rxns o) /\
    forall i d, nth_error (r_dG r) i = Some d -> exists a b, nth_error kf i = Some a /\ nth_error kr i = Some b /\
      0 < a /\ 0 < b /\ ln a - ln b = - d / kT (o_T o).
Proof.
  intros HT ND [(L1 & L2 & L3) C].
  assert (Ex : forall i e, nth_error (o_rxns o) i = Some e -> exists a b d, energies_of o r e a b d /\ entry r i a b d).
  { intros i e He. assert (Hl : (i < length (o_rxns o))%nat) by (apply nth_error_Some; congruence).
    destruct (nth_error_lt _ i _ L1 Hl) as [a Ha]. destruct (nth_error_lt _ i _ L2 Hl) as [b Hb].
    destruct (nth_error_lt _ i _ L3 Hl) as [d Hd]. exists a, b, d.
    assert (entry r i a b d) by (repeat split; auto). split; auto. exists i.
    destruct (NoDup_first _ _ _ ND He). auto. }
  destruct (rate_constants_TST ec o (Some r) own r HT eq_refl) as (kf & kr & E & M1 & M2 & V).
  { intros e He. apply In_nth_error in He as [i Hi]. destruct (Ex i e Hi) as (a & b & d & ? & _). eauto. }
  exists kf, kr. do 3 (split; [assumption|]). intros i d Hd.
  assert (Hl : (i < length (o_rxns o))%nat) by (rewrite <- L3; apply nth_error_Some; congruence).
  destruct (nth_error_lt (o_rxns o) i _ eq_refl Hl) as [e He].
  destruct (Ex i e He) as (a & b & d' & Q1 & Q2). assert (d' = d) by (destruct Q2 as (_ & _ & ?); congruence). subst d'.
  destruct (V i e a b d He Q1) as [V1 V2]. do 2 eexists. split; [exact V1|]. split; [exact V2|].
  assert (0 < frequency (o_T o)).
  { unfold frequency, kT, kB_eV, h_eV. apply Rdiv_lt_0_compat; [apply Rmult_lt_0_compat|]; lra. }
  split; [apply Rmult_lt_0_compat; auto; apply exp_pos|].
  split; [apply Rmult_lt_0_compat; auto; apply exp_pos|].
  rewrite !ln_tst by auto. rewrite <- (C i a b d Q2). unfold Rdiv. ring.
Qed.

Lemma downhill ec o own s r cvgs : usable_setup s -> NoDup (s_exprs s) -> o_rxns o = s_exprs s -> 0 < o_T o ->
  consistent r (length (s_exprs s)) -> length cvgs = length (ads s) ->
  exists data kf kr nets,
    get_data s = Ok data /\ rate_constants ec o (L "TST") (Some r) own = Ok (kf, kr) /\
    net_rates s (Ok (kf, kr)) (Some data) cvgs = Ok nets /\ length nets = length (s_exprs s) /\
    forall i fls dg net, nth_error (l_rxns (s_lists s)) i = Some fls -> nth_error (r_dG r) i = Some dg ->
      nth_error nets i = Some net ->
      0 < activities s cvgs (begins fls) -> 0 < activities s cvgs (ends fls) ->
      let G := free_energy s cvgs (o_T o) dg fls in
      (net > 0 <-> G < 0) /\ (net = 0 <-> G = 0) /\ (net < 0 <-> G > 0).
Proof.
  intros U ND EO HT C Len. rewrite <- EO in C. assert (ND' : NoDup (o_rxns o)) by now rewrite EO.
  destruct (constants_of ec o r own HT ND' C) as (kf & kr & E & L1 & L2 & V). rewrite EO in L1, L2.
  destruct (explicit s U ND cvgs kf kr Len L1 L2) as (data & E1 & E2 & E3 & _).
  exists data, kf, kr. eexists. split; [exact E1|]. split; [exact E|]. split; [exact E3|]. 
  split; [rewrite map_length; apply reactions_length; auto; apply (num_rxns s U)|].
  intros i fls dg net Hf Hd Hn PA PB. destruct (V i dg Hd) as (a & b & Ha & Hb & Pa & Pb & Q).
  rewrite (map_nth_error _ _ _ (reactions_nth s kf kr i fls a b Hf Ha Hb)) in Hn. injection Hn as <-.
  unfold fwd, bwd. cbn [fst snd]. rewrite !mass_action_scale. unfold free_energy. cbn zeta.
  now apply downhill_rate.
Qed.

Lemma counted_zero name fls x : counted name fls x x = 0.
Proof. unfold counted. destruct (find_in_states name 0 fls) as [[[|i] n]|]; ring. Qed.

Lemma map_const_zero (f : str -> R) l : (forall n, f n = 0) -> forall y, In y (map f l) -> y = 0.
Proof. intros H y Hy. apply in_map_iff in Hy as (n & <- & _). auto. Qed.

Lemma equilibrium ec o own s r cvgs : usable_setup s -> NoDup (s_exprs s) -> o_rxns o = s_exprs s -> 0 < o_T o ->
  consistent r (length (s_exprs s)) -> length cvgs = length (ads s) ->
  (forall i fls dg, nth_error (l_rxns (s_lists s)) i = Some fls -> nth_error (r_dG r) i = Some dg ->
     0 < activities s cvgs (begins fls) /\ 0 < activities s cvgs (ends fls) /\ free_energy s cvgs (o_T o) dg fls = 0) ->
  exists data kf kr F tof,
    get_data s = Ok data /\ rate_constants ec o (L "TST") (Some r) own = Ok (kf, kr) /\
    steady_state_function s (Ok (kf, kr)) (Some data) cvgs = Ok F /\ length F = length (ads s) /\
    tofs s (Ok (kf, kr)) (Some data) cvgs = Ok tof /\
    (forall y, In y F -> y = 0) /\ (forall y, In y tof -> y = 0).
Proof.
  intros U ND EO HT C Len H. rewrite <- EO in C. assert (ND' : NoDup (o_rxns o)) by now rewrite EO.
  destruct (constants_of ec o r own HT ND' C) as (kf & kr & E & L1 & L2 & V). rewrite EO in L1, L2.
  destruct (explicit s U ND cvgs kf kr Len L1 L2) as (data & E1 & E2 & E3 & E4 & E5).
  exists data, kf, kr. do 2 eexists. split; [exact E1|]. split; [exact E|]. split; [exact E4|].
  split; [now rewrite map_length|]. split; [exact E5|].
  assert (Z : forall x, In x (reactions s kf kr) -> fwd s cvgs x = bwd s cvgs x).
  { intros x Hx. apply In_nth_error in Hx as [i Hx]. destruct (reactions_inv _ _ _ _ _ Hx) as (R1 & R2 & R3).
    destruct C as [(_ & _ & L3) _].
    assert (Hl : (i < length (r_dG r))%nat).
    { rewrite L3, EO, <- (num_rxns s U). apply nth_error_Some. congruence. }
    destruct (nth_error_lt (r_dG r) i _ eq_refl Hl) as [d Hd].
    destruct (H i (fst x) d R1 Hd) as (PA & PB & Q). destruct (V i d Hd) as (a & b & Ha & Hb & Pa & Pb & W).
    assert (a = fst (snd x)) by congruence. assert (b = snd (snd x)) by congruence. subst a b.
    destruct (downhill_rate _ _ _ _ d _ HT Pa Pb W PA PB) as (_ & [_ D] & _).
    unfold fwd, bwd. rewrite !mass_action_scale. specialize (D Q). lra. }
  split; apply map_const_zero; intro n; apply Rsum_zero; intros x Hx.
  - rewrite (Z x Hx). apply counted_zero.
  - rewrite (Z x Hx). ring.
Qed.
