(** Equilibrium coverages from absolute energies, and rate equations that keep coverages physical. *)
From Coq Require Import String Ascii List ZArith NArith Bool Arith Reals Lia Lra Permutation.
Import ListNotations.
From Verif Require Import PyBase PyBaseFacts Rxn_Model Rxn_Spec Rxn_Proofs Rxn_Count Species_Model Species_Spec
  Species_Proofs Species_Matrix PyReal Energy_Model Energy_Spec Energy_Proofs Thermo_Model Rate_Model Rate_Spec
  Rate_Proofs PyExpr_Model PyExpr_Proofs MF_Model MF_Spec MF_Cover MF_Rate MF_More MF_Witness Whole_Spec Whole_Energy
  Whole_Rates.
Local Open Scope list_scope.
Local Open Scope R_scope.

(** ** States of a mechanism *)
Lemma begins_In fls : fls <> [] -> In (begins fls) fls.
Proof. destruct fls; [congruence|now left]. Qed.
Lemma ends_In fls : fls <> [] -> In (ends fls) fls.
Proof. intro N. apply llast_In. now apply ends_last. Qed.

Section States.
  Variable s : setup.
  Hypothesis U : usable_setup s.

  Lemma rxn_nonempty fls : In fls (l_rxns (s_lists s)) -> fls <> [].
  Proof. intro H. now destruct (parse_rxns_rxn _ _ _ (proj1 (proj1 U)) H) as (_ & _ & _ & _ & Nn). Qed.

  Lemma end_state_In st : end_state s st -> exists fls, In fls (l_rxns (s_lists s)) /\ In st fls /\ usable st.
  Proof.
    intros (fls & H & E). pose proof (rxn_nonempty fls H) as N. exists fls. split; auto.
    destruct (proj2 U fls H _ _ (begins_first fls N) (ends_last fls N)) as [U1 U2].
    destruct E as [->| ->]; split; auto; [now apply begins_In|now apply ends_In].
  Qed.

  Lemma end_readable st f : end_state s st -> In f st -> readable f.
  Proof.
    intros H I. destruct (end_state_In st H) as (fls & H1 & H2 & _).
    eapply occurs_readable; [exact (proj1 (parse_rxns_facts _ _ (proj1 (proj1 U))))|]. exists fls, st. auto.
  Qed.

  Lemma end_surface st f : end_state s st -> In f st -> In (f_species_site f) (sites s ++ ads s) -> surface_site (f_site f).
  Proof.
    intros H I J. destruct (end_state_In st H) as (fls & H1 & H2 & _).
    destruct (formula_columns _ _ (proj1 (proj1 U)) fls st f H1 H2 I) as (_ & _ & C & _).
    destruct (surface_dec (f_site f)) as [S|S]; auto. exfalso. now apply C.
  Qed.

  Variable cvgs : list R.
  Hypothesis Len : length cvgs = length (ads s).

  Lemma surface_activity f : surface_site (f_site f) -> activity s cvgs f = coverage s cvgs (f_species_site f).
  Proof.
    intros [A B]. unfold activity. destruct (str_eqb (f_site f) (L "g")) eqn:E1; [apply str_eqb_eq in E1; contradiction|].
    destruct (str_eqb (f_site f) (L "l")) eqn:E2; [apply str_eqb_eq in E2; contradiction|]. reflexivity.
  Qed.

  Lemma activity_nonneg st f : nothing_negative s cvgs -> end_state s st -> In f st -> 0 <= activity s cvgs f.
  Proof.
    intros (Np & Nc & Nx & Ns) H I. destruct (end_state_In st H) as (fls & H1 & H2 & [T _]).
    destruct (surface_dec (f_site f)) as [S|S].
    - rewrite surface_activity by auto.
      destruct (formula_columns _ _ (proj1 (proj1 U)) fls st f H1 H2 I) as (_ & _ & _ & C).
      specialize (C S (T f I S)). apply in_app_or in C as [C|C].
      + rewrite (site_coverage s (proj1 U) cvgs Len _ C). specialize (Ns _ C). lra.
      + apply In_nth_error in C as [i Hi].
        destruct (nth_error_lt cvgs i _ Len) as [x Hx]; [apply nth_error_Some; fold (ads s) in Hi; congruence|].
        rewrite (nth_coverage s (proj1 U) cvgs Len i _ x Hi Hx). apply Nx. eapply nth_error_In; eauto.
    - unfold activity. destruct (str_eqb (f_site f) (L "g")) eqn:E1; [|destruct (str_eqb (f_site f) (L "l")) eqn:E2].
      + unfold value. destruct (dget (s_pressure s) (f_species_site f)) eqn:D; [eauto|lra].
      + unfold value. destruct (dget (s_conc s) (f_species_site f)) eqn:D; [eauto|lra].
      + exfalso. apply S. split; intro E; rewrite E in *; discriminate.
  Qed.

  Lemma mass_action_nonneg st k : nothing_negative s cvgs -> end_state s st -> 0 <= k -> 0 <= mass_action s cvgs k st.
  Proof.
    intros Nn H Hk. assert (G : forall f, In f st -> 0 <= activity s cvgs f) by (intros; eapply activity_nonneg; eauto).
    clear H. induction st as [|f st IH]; cbn [mass_action]; auto.
    apply Rmult_le_pos; [apply pow_le; apply G; now left|]. apply IH. intros; apply G; now right.
  Qed.

  Lemma mass_action_zero st f k : In f st -> (0 < f_stoich f)%Z -> activity s cvgs f = 0 -> mass_action s cvgs k st = 0.
  Proof.
    intros I P Z. induction st as [|g st IH]; [destruct I|]. cbn [mass_action]. destruct I as [->|I].
    - rewrite Z, pow_i by lia. ring.
    - rewrite (IH I). ring.
  Qed.

  (** A species of the surface that is not there. *)
  Lemma missing st f k name : In name (sites s ++ ads s) -> coverage s cvgs name = 0 -> end_state s st -> In f st ->
    f_species_site f = name -> (0 < f_stoich f)%Z -> mass_action s cvgs k st = 0.
  Proof.
    intros J Z H I E P. apply (mass_action_zero st f); auto. subst name.
    rewrite surface_activity; auto. eapply end_surface; eauto.
  Qed.

  (** ** A coverage at zero does not fall *)
  Lemma last_or_middle (t : list (list formula)) i st d : nth_error t i = Some st -> In st (removelast t) \/ st = last t d.
  Proof.
    revert i; induction t as [|a [|b t] IH]; intros [|i] H; try discriminate.
    - cbn in H. injection H as <-. now right.
    - destruct i; discriminate.
    - cbn in H. injection H as <-. left. now left.
    - destruct (IH i H) as [Q|Q]; [left; now right|right; exact Q].
  Qed.

  Lemma counted_nonneg name fls rf rr : In fls (l_rxns (s_lists s)) -> In name (ads s) ->
    absent name (removelast (tl fls)) -> 0 <= rf -> 0 <= rr ->
    ((exists f, In f (begins fls) /\ f_species_site f = name /\ (0 < f_stoich f)%Z) -> rf = 0) ->
    ((exists f, In f (ends fls) /\ f_species_site f = name /\ (0 < f_stoich f)%Z) -> rr = 0) ->
    0 <= counted name fls rf rr.
  Proof.
    intros Hf Hn Ab Pf Pr Zf Zr. destruct (counted_is name fls rf rr) as [[_ ->]|[(n & M & ->)|(i & n & M & ->)]]; [lra| |].
    - destruct M as (st & b & f & a & E1 & E2 & E3 & E4 & _). destruct fls as [|st0 t]; [discriminate|].
      cbn in E1. injection E1 as ->. cbn [begins hd] in Zf.
      assert (R : (0 <= f_stoich f)%Z).
      { apply readable_stoich. eapply (end_readable st f); [exists (st :: t); auto|]. subst st. apply in_or_app. right. now left. }
      subst n. destruct (Z.eq_dec (f_stoich f) 0) as [->|Nz]; [lra|].
      rewrite Zf; [|exists f; split; [subst st; apply in_or_app; right; now left|split; [auto|lia]]].
      apply IZR_le in R. apply Rmult_le_pos; lra.
    - destruct M as (st & b & f & a & E1 & E2 & E3 & E4 & _). destruct fls as [|st0 t]; [discriminate|].
      cbn [nth_error] in E1. cbn [tl] in Ab. destruct (last_or_middle t i st [] E1) as [Q|Q].
      { exfalso. apply (Ab st f Q); [subst st; apply in_or_app; right; now left|auto]. }
      assert (st = ends (st0 :: t)) as Q'.
      { rewrite Q. unfold ends. destruct t as [|st1 t]; [destruct i; discriminate|]. reflexivity. }
      assert (R : (0 <= f_stoich f)%Z).
      { apply readable_stoich. eapply (end_readable st f); [exists (st0 :: t); auto|]. rewrite E2.
        apply in_or_app. right. now left. }
      subst n. destruct (Z.eq_dec (f_stoich f) 0) as [->|Nz]; [lra|].
      rewrite Zr; [|exists f; split; [rewrite <- Q', E2; apply in_or_app; right; now left|split; [auto|lia]]].
      apply IZR_le in R. apply Rmult_le_pos; lra.
  Qed.
End States.

Lemma Rsum_nonneg {A} (f : A -> R) l : (forall x, In x l -> 0 <= f x) -> 0 <= Rsum (map f l).
Proof.
  induction l as [|x l IH]; intro H; cbn; [lra|]. specialize (H x (or_introl eq_refl)) as Hx.
  assert (0 <= Rsum (map f l)) by (apply IH; intros; apply H; now right). lra.
Qed.

Lemma reactions_In s kf kr x : In x (reactions s kf kr) ->
  In (fst x) (l_rxns (s_lists s)) /\ In (fst (snd x)) kf /\ In (snd (snd x)) kr.
Proof.
  intro H. apply In_nth_error in H as [i H]. destruct (reactions_inv _ _ _ _ _ H) as (A & B & C).
  apply nth_error_In in A, B, C. auto.
Qed.

Lemma never_negative s cvgs kf kr i name : usable_setup s -> NoDup (s_exprs s) -> length cvgs = length (ads s) ->
  length kf = length (s_exprs s) -> length kr = length (s_exprs s) ->
  (forall k, In k kf \/ In k kr -> 0 <= k) -> nothing_negative s cvgs ->
  nth_error (ads s) i = Some name -> nth_error cvgs i = Some 0 ->
  (forall fls, In fls (l_rxns (s_lists s)) -> absent name (removelast (tl fls))) ->
  exists data F y, get_data s = Ok data /\ steady_state_function s (Ok (kf, kr)) (Some data) cvgs = Ok F /\
    nth_error F i = Some y /\ 0 <= y.
Proof.
  intros U ND Len Lf Lr K Nn Hi Hx Ab. destruct (explicit s U ND cvgs kf kr Len Lf Lr) as (data & E1 & _ & _ & E4 & _).
  exists data. do 2 eexists. split; [exact E1|]. split; [exact E4|]. split; [exact (map_nth_error _ _ _ Hi)|].
  assert (In name (ads s)) as Hn by (eapply nth_error_In; eauto).
  assert (In name (sites s ++ ads s)) as Hs by (apply in_or_app; now right).
  pose proof (nth_coverage s (proj1 U) cvgs Len i name 0 Hi Hx) as Z.
  apply Rsum_nonneg. intros x Hr. destruct (reactions_In _ _ _ _ Hr) as (A & B & C).
  assert (S1 : end_state s (begins (fst x))) by (exists (fst x); auto).
  assert (S2 : end_state s (ends (fst x))) by (exists (fst x); auto).
  apply (counted_nonneg s U cvgs Len); auto.
  - apply mass_action_nonneg; auto.
  - apply mass_action_nonneg; auto.
  - intros (f & F1 & F2 & F3). eapply missing; eauto.
  - intros (f & F1 & F2 & F3). eapply missing; eauto.
Qed.

(** ** A full site does not fill further *)
Lemma covered_map site g names :
  covered site names (map g names) = Rsum (map (fun n => if str_eqb (site_tag n) site then g n else 0) names).
Proof. induction names as [|n ns IH]; cbn; auto. now rewrite IH. Qed.

Lemma Rsum_swap {A B} (g : A -> B -> R) la lb :
  Rsum (map (fun a => Rsum (map (g a) lb)) la) = Rsum (map (fun b => Rsum (map (fun a => g a b) la)) lb).
Proof.
  induction la as [|a la IH]; cbn [map Rsum]; [symmetry; now apply Rsum_zero|]. now rewrite IH, <- Rsum_add.
Qed.

Lemma Rsum_IZR (g : str -> Z) l : Rsum (map (fun n => IZR (g n)) l) = IZR (sum_Z (map g l)).
Proof. induction l as [|n l IH]; cbn [map Rsum sum_Z]; auto. now rewrite IH, plus_IZR. Qed.

Lemma sum_Z_ext {A} (f g : A -> Z) l : (forall x, In x l -> f x = g x) -> sum_Z (map f l) = sum_Z (map g l).
Proof. intro H. f_equal. now apply map_ext_in. Qed.

Lemma sum_Z_single (g : str -> Z) k K : NoDup K -> In k K ->
  sum_Z (map (fun n => if str_eqb n k then g n else 0%Z) K) = g k.
Proof.
  intros N I. induction K as [|n K IH]; [destruct I|]. inversion N as [|? ? H1 H2]; subst. cbn [map sum_Z].
  destruct I as [->|I].
  - rewrite str_eqb_refl. rewrite (sum_Z_ext _ (fun _ => 0%Z)).
    + assert (forall l : list str, sum_Z (map (fun _ => 0%Z) l) = 0%Z) as -> by (induction l; cbn; auto). lia.
    + intros m Hm. destruct (str_eqb m k) eqn:Q; auto. apply str_eqb_eq in Q. subst. contradiction.
  - rewrite (IH H2 I). destruct (str_eqb n k) eqn:Q; [apply str_eqb_eq in Q; subst; contradiction|lia].
Qed.

Lemma sites_balance s fls t : usable_setup s -> In fls (l_rxns (s_lists s)) -> surface_site t -> In (L "*_" ++ t) (sites s) ->
  (consumption fls (L "*_" ++ t)
   + sum_Z (map (fun n => (name_occupies t n * consumption fls n)%Z) (ads s)) = 0)%Z.
Proof.
  intros [P Us] Hf St Ht. destruct (parse_rxns_rxn _ _ _ (proj1 P) Hf) as (_ & _ & _ & _ & Nn).
  destruct (lfirst_ok fls Nn) as [a Ea]. destruct (llast_ok fls Nn) as [b Eb].
  destruct (Us fls Hf a b Ea Eb) as [[T1 _] [T2 _]].
  destruct (In_nth_error _ _ Hf) as [i Hi].
  destruct (rows_conserve (s_exprs s) (s_lists s) (proj1 P) i fls a b
    (map (consumption fls) (l_site (s_lists s) ++ l_ads (s_lists s)))
    (map (consumption fls) (l_gas (s_lists s) ++ l_liq (s_lists s))) _ _ (consumption_rows _ _ (proj1 P)) Hi Ea Eb) as [_ B]; auto.
  { now rewrite (map_nth_error _ i _ Hi). }
  { now rewrite (map_nth_error _ i _ Hi). }
  specialize (B t St). rewrite !weighted_map in B. rewrite map_app, sum_Z_app in B.
  rewrite (sum_Z_ext _ (fun n => if str_eqb n (L "*_" ++ t) then consumption fls n else 0%Z) (l_site (s_lists s))) in B.
  - rewrite sum_Z_single in B; auto. apply (NoDup_sites s P).
  - intros n Hn. destruct (parse_rxns_facts _ _ (proj1 P)) as (M & _ & _ & _ & _ & _ & _ & _ & _ & _ & S0).
    apply S0 in Hn as (f & O & _ & ->). pose proof (occurs_readable _ _ f M O) as R.
    destruct (readable_name f R) as (_ & _ & _ & _ & _ & _ & Ne & Ch). unfold name_occupies.
    change (L "*_" ++ f_site f) with (L "*" ++ "_"%char :: [] ++ f_site f).
    destruct (last_underscore_split (L "*") ([] ++ f_site f)) as [_ E]; [now apply no_underscore_digits_site|].
    rewrite E. destruct (after_digits_site [] (f_site f) eq_refl Ch Ne) as [E1 E2]. rewrite E1.
    unfold leading_number. rewrite E2. change (L "*_" ++ t) with (L "*" ++ "_"%char :: [] ++ t).
    destruct (str_eqb (f_site f) t) eqn:Q.
    + apply str_eqb_eq in Q. rewrite Q, str_eqb_refl. change (int_or_1 []) with 1%Z. lia.
    + destruct (str_eqb (L "*" ++ "_"%char :: [] ++ f_site f) (L "*" ++ "_"%char :: [] ++ t)) eqn:Q2; [|lia].
      apply str_eqb_eq in Q2. cbn in Q2. injection Q2 as Q2. rewrite Q2, str_eqb_refl in Q. discriminate.
Qed.

Lemma total_positive s st name : usable_setup s -> end_state s st -> (0 <= total_of_species name st)%Z /\
  ((0 < total_of_species name st)%Z -> exists f, In f st /\ f_species_site f = name /\ (0 < f_stoich f)%Z).
Proof.
  intros U H. assert (G : forall f, In f st -> (0 <= f_stoich f)%Z).
  { intros f I. apply readable_stoich. eapply end_readable; eauto. }
  clear H. unfold total_of_species. induction st as [|f st IH]; cbn [map sum_Z]; [split; lia|].
  destruct IH as [I1 I2]; [intros; apply G; now right|]. pose proof (G f (or_introl eq_refl)) as Hf.
  destruct (str_eqb (f_species_site f) name) eqn:Q.
  - split; [lia|]. intro P. destruct (Z.eq_dec (f_stoich f) 0) as [E|E].
    + destruct I2 as (g & G1 & G2 & G3); [lia|]. exists g. split; [now right|auto].
    + exists f. split; [now left|]. split; [now apply str_eqb_eq|lia].
  - split; [lia|]. intro P. destruct I2 as (g & G1 & G2 & G3); [lia|]. exists g. split; [now right|auto].
Qed.

Lemma consumption_ends fls n : fls <> [] -> consumption fls n = net_consumption n (begins fls) (ends fls).
Proof. intro N. unfold consumption. now rewrite (begins_first fls N), (ends_last fls N). Qed.

Lemma never_overfull s cvgs kf kr site : usable_setup s -> NoDup (s_exprs s) -> length cvgs = length (ads s) ->
  length kf = length (s_exprs s) -> length kr = length (s_exprs s) ->
  (forall k, In k kf \/ In k kr -> 0 <= k) -> nothing_negative s cvgs ->
  In site (sites s) -> covered site (ads s) cvgs = total s site ->
  (forall n, In n (ads s) -> site_tag n = site -> leading_number (after_last_underscore n) = 1%Z /\
     forall fls, In fls (l_rxns (s_lists s)) -> plain_in n fls) ->
  exists data F, get_data s = Ok data /\ steady_state_function s (Ok (kf, kr)) (Some data) cvgs = Ok F /\
    covered site (ads s) F <= 0.
Proof.
  intros U ND Len Lf Lr K Nn Hs Full One. destruct (explicit s U ND cvgs kf kr Len Lf Lr) as (data & E1 & _ & _ & E4 & _).
  exists data. eexists. split; [exact E1|]. split; [exact E4|].
  assert (exists t, site = L "*_" ++ t /\ surface_site t) as (t & -> & St).
  { destruct (parse_rxns_facts _ _ (proj1 (proj1 U))) as (_ & _ & _ & _ & _ & _ & _ & _ & _ & _ & S0).
    apply S0 in Hs as (f & _ & Sf & ->). eauto. }
  rewrite covered_map.
  assert (Q : forall n, In n (ads s) ->
    (if str_eqb (site_tag n) (L "*_" ++ t) then derivative s cvgs (reactions s kf kr) n else 0)
    = Rsum (map (fun x => - (IZR (name_occupies t n * consumption (fst x) n)) * (fwd s cvgs x - bwd s cvgs x)) (reactions s kf kr))).
  { intros n Hn. unfold name_occupies. unfold site_tag.
    destruct (str_eqb (after_digits (after_last_underscore n)) t) eqn:Q.
    - apply str_eqb_eq in Q. rewrite Q, str_eqb_refl. destruct (One n Hn) as [O Pl]; [unfold site_tag; now rewrite Q|].
      rewrite O. unfold derivative. apply Rsum_ext. intros x Hx. destruct (reactions_In _ _ _ _ Hx) as (A & _).
      rewrite Z.mul_1_l, consumption_ends by now apply (rxn_nonempty s U).
      apply (plain_change n (fst x) _ _ _ (Pl _ A) (counted_is n (fst x) _ _));
        [apply begins_first|apply ends_last]; now apply (rxn_nonempty s U).
    - destruct (str_eqb (L "*_" ++ after_digits (after_last_underscore n)) (L "*_" ++ t)) eqn:Q2.
      { apply str_eqb_eq in Q2. cbn in Q2. injection Q2 as Q2. rewrite Q2, str_eqb_refl in Q. discriminate. }
      symmetry. apply Rsum_zero. intros x _. change (0 * consumption (fst x) n)%Z with 0%Z. ring. }
  rewrite (Rsum_ext _ _ _ Q), Rsum_swap.
  assert (G : 0 <= Rsum (map (fun x => - IZR (consumption (fst x) (L "*_" ++ t)) * (fwd s cvgs x - bwd s cvgs x)) (reactions s kf kr))).
  { apply Rsum_nonneg. intros x Hx. destruct (reactions_In _ _ _ _ Hx) as (A & B & C).
    assert (S1 : end_state s (begins (fst x))) by (exists (fst x); auto).
    assert (S2 : end_state s (ends (fst x))) by (exists (fst x); auto).
    rewrite consumption_ends by now apply (rxn_nonempty s U). unfold net_consumption.
    destruct (total_positive s _ (L "*_" ++ t) U S1) as [P1 F1]. destruct (total_positive s _ (L "*_" ++ t) U S2) as [P2 F2].
    assert (Z : coverage s cvgs (L "*_" ++ t) = 0) by (rewrite (site_coverage s (proj1 U) cvgs Len _ Hs); lra).
    assert (Js : In (L "*_" ++ t) (sites s ++ ads s)) by (apply in_or_app; now left).
    assert (Pf : 0 <= fwd s cvgs x) by (apply mass_action_nonneg; auto).
    assert (Pr : 0 <= bwd s cvgs x) by (apply mass_action_nonneg; auto).
    set (u := total_of_species (L "*_" ++ t) (begins (fst x))) in *.
    set (v := total_of_species (L "*_" ++ t) (ends (fst x))) in *.
    assert (Zf : (0 < u)%Z -> fwd s cvgs x = 0).
    { intro Pu. destruct (F1 Pu) as (f & I1 & I2 & I3). eapply missing; eauto. }
    assert (Zr : (0 < v)%Z -> bwd s cvgs x = 0).
    { intro Pv. destruct (F2 Pv) as (f & I1 & I2 & I3). eapply missing; eauto. }
    rewrite minus_IZR. destruct (Z_lt_ge_dec v u) as [Hl|Hl].
    - rewrite Zf by lia. apply IZR_lt in Hl. replace (- (IZR u - IZR v) * (0 - bwd s cvgs x)) with ((IZR u - IZR v) * bwd s cvgs x) by ring.
      apply Rmult_le_pos; lra.
    - destruct (Z.eq_dec u v) as [->|Nq]; [right; ring|]. rewrite Zr by lia. assert (Hv : (u < v)%Z) by lia. apply IZR_lt in Hv.
      replace (- (IZR u - IZR v) * (fwd s cvgs x - 0)) with ((IZR v - IZR u) * fwd s cvgs x) by ring. apply Rmult_le_pos; lra. }
  rewrite (Rsum_ext _ (fun x => -1 * (- IZR (consumption (fst x) (L "*_" ++ t)) * (fwd s cvgs x - bwd s cvgs x)))).
  - rewrite Rsum_mul. lra.
  - intros x Hx. destruct (reactions_In _ _ _ _ Hx) as (A & _). pose proof (sites_balance s (fst x) t U A St Hs) as Bl.
    rewrite (Rsum_ext _ (fun n => - (fwd s cvgs x - bwd s cvgs x) * IZR (name_occupies t n * consumption (fst x) n))) by (intros; ring).
    rewrite Rsum_mul, Rsum_IZR.
    assert (sum_Z (map (fun n => (name_occupies t n * consumption (fst x) n)%Z) (ads s)) = (- consumption (fst x) (L "*_" ++ t))%Z) as -> by lia.
    rewrite opp_IZR. ring.
Qed.

(** ** Boltzmann weights are an equilibrium *)
Lemma exp_pow x n : exp x ^ n = exp (INR n * x).
Proof.
  induction n as [|n IH]; [cbn; now rewrite Rmult_0_l, exp_0|]. cbn [pow]. rewrite IH, S_INR, <- exp_plus. f_equal. ring.
Qed.

Lemma activities_exp s cvgs g st : (forall f, In f st -> (0 <= f_stoich f)%Z /\ activity s cvgs f = exp (g f)) ->
  activities s cvgs st = exp (state_sum g st).
Proof.
  unfold activities. intro H. induction st as [|f st IH]; cbn [mass_action]; [unfold state_sum; cbn; now rewrite exp_0|].
  destruct (H f (or_introl eq_refl)) as [P ->]. rewrite IH by (intros; apply H; now right).
  rewrite exp_pow, INR_IZR_INZ, Z2Nat.id by auto. now rewrite <- exp_plus.
Qed.

Lemma boltzmann_equilibrium ec o own s ed r xs atom site cvgs :
  usable_setup s -> NoDup (s_exprs s) -> o_rxns o = s_exprs s -> 0 < o_T o ->
  relative_from_absolute true ed (s_exprs s) = Ok r -> length cvgs = length (ads s) ->
  (forall st f, end_state s st -> In f st ->
     activity s cvgs f = exp ((reference xs atom site f - value ed (energy_name f)) / kT (o_T o))) ->
  exists data kf kr F tof,
    get_data s = Ok data /\ rate_constants ec o (L "TST") (Some r) own = Ok (kf, kr) /\
    steady_state_function s (Ok (kf, kr)) (Some data) cvgs = Ok F /\ length F = length (ads s) /\
    tofs s (Ok (kf, kr)) (Some data) cvgs = Ok tof /\
    (forall y, In y F -> y = 0) /\ (forall y, In y tof -> y = 0).
Proof.
  intros U ND EO HT Er Len Hb.
  pose proof (kT_pos _ HT) as HK.
  apply (equilibrium ec o own s r cvgs); auto.
  - destruct (relative_from_absolute_entries _ _ _ _ Er) as [En Q]. split; [exact En|].
    intros i gaf gar dg E. assert (Hl : (i < length (s_exprs s))%nat).
    { destruct En as (_ & _ & L3). rewrite <- L3. destruct E as (_ & _ & E). apply nth_error_Some. congruence. }
    destruct (nth_error_lt (s_exprs s) i _ eq_refl Hl) as [e He].
    apply (single_consistent ed e gaf gar dg). now apply (Q i e).
  - intros i fls dg Hf Hd.
    destruct (relative_from_absolute_entries _ _ _ _ Er) as [En Q].
    assert (Hl : (i < length (s_exprs s))%nat).
    { destruct En as (_ & _ & L3). rewrite <- L3. apply nth_error_Some. congruence. }
    destruct (nth_error_lt (s_exprs s) i _ eq_refl Hl) as [e He].
    pose proof (nth_error_In _ _ Hf) as If.
    assert (Ef : rxn_formula_list e = Ok fls /\ rxn_check_conservation e = Ok true).
    { pose proof (proj1 (proj1 U)) as Pp. apply parse_rxns_iff in Pp as [Fa (rxns & M & Eq)]. rewrite Forall_forall in Fa.
      split; [|apply Fa; eapply nth_error_In; eauto]. rewrite Eq in Hf. cbn [l_rxns] in Hf. apply mapM_ok_iff in M.
      clear -M He Hf. revert i He Hf. induction M; intros [|i] He Hf; cbn in *; try discriminate; [congruence|eauto]. }
    destruct Ef as [Ef Ec]. pose proof (rxn_nonempty s U fls If) as Nn.
    assert (exists a b, single_relative true ed e = Ok (a, b, dg)) as (a & b & Sr).
    { destruct En as (L1 & L2 & L3). destruct (nth_error_lt _ i _ L1 Hl) as [a Ha]. destruct (nth_error_lt _ i _ L2 Hl) as [b Hb'].
      exists a, b. apply (Q i e); auto. repeat split; auto. }
    pose proof (single_energy _ _ _ _ _ _ Ef Sr) as Edg.
    set (g := fun f => (reference xs atom site f - value ed (energy_name f)) / kT (o_T o)).
    assert (A1 : activities s cvgs (begins fls) = exp (state_sum g (begins fls))).
    { apply activities_exp. intros f I. assert (end_state s (begins fls)) as S1 by (exists fls; auto).
      split; [apply readable_stoich; eapply end_readable; eauto|eapply Hb; eauto]. }
    assert (A2 : activities s cvgs (ends fls) = exp (state_sum g (ends fls))).
    { apply activities_exp. intros f I. assert (end_state s (ends fls)) as S1 by (exists fls; auto).
      split; [apply readable_stoich; eapply end_readable; eauto|eapply Hb; eauto]. }
    split; [rewrite A1; apply exp_pos|]. split; [rewrite A2; apply exp_pos|].
    unfold free_energy. rewrite A1, A2. unfold Rdiv at 1. rewrite ln_mult, ln_Rinv, !ln_exp by (try apply Rinv_0_lt_compat; apply exp_pos).
    assert (Bal : state_sum (reference xs atom site) (begins fls) = state_sum (reference xs atom site) (ends fls)).
    { apply reference_balanced. apply (accepted_balanced e fls); auto; [now apply begins_In|now apply ends_In]. }
    assert (G : forall st, kT (o_T o) * state_sum g st
       = state_sum (reference xs atom site) st - state_sum (fun f => tab ed (energy_name f)) st).
    { intro st. unfold state_sum, g. induction st as [|f st IH]; cbn [map Rsum]; [ring|].
      rewrite Rmult_plus_distr_l, IH. change (tab ed (energy_name f)) with (value ed (energy_name f)). field. lra. }
    pose proof (G (begins fls)). pose proof (G (ends fls)). rewrite Edg.
    rewrite Rmult_plus_distr_l, Ropp_mult_distr_r_reverse. lra.
Qed.
