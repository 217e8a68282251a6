(** Solutions of the rate equations stay physical. *)
From Coq Require Import String Ascii List ZArith NArith Bool Arith Reals Lia Lra.
Import ListNotations.
From Verif Require Import PyBase PyBaseFacts Rxn_Model Rxn_Spec Rxn_Proofs Rxn_Count Species_Model Species_Spec
  Species_Proofs Species_Matrix PyReal MF_Model MF_Spec MF_Cover MF_Rate MF_More Whole_Spec Whole_Energy
  Whole_Rates Whole_Bound RDeriv Flow_Spec Flow_Real.
Local Open Scope list_scope.
Local Open Scope R_scope.

(** ** Rates at coverages that may be negative *)
Section Rates.
  Variable s : setup.
  Hypothesis U : usable_setup s.
  Hypothesis Np : forall g x, dget (s_pressure s) g = Some x -> 0 <= x.
  Hypothesis Nc : forall l x, dget (s_conc s) l = Some x -> 0 <= x.
  Let N := sites s ++ ads s.
  Variable B : R.
  Hypothesis PB : 0 <= B.
  Let fine (v : list R) : Prop := length v = length (ads s) /\ forall n, In n N -> Rabs (coverage s v n) <= B.
  (** How negative the coverages are together. *)
  Let debt (v : list R) : R := Rsum (map (fun n => neg (coverage s v n)) N).

  Lemma debt_pos v : 0 <= debt v.
  Proof. apply sum_pos. intros; apply neg_pos. Qed.
  Lemma debt_one v n : In n N -> neg (coverage s v n) <= debt v.
  Proof. intro H. apply (sum_term (fun n => neg (coverage s v n))); auto. intros; apply neg_pos. Qed.

  Lemma surface_name st f : end_state s st -> In f st -> surface_site (f_site f) -> In (f_species_site f) N.
  Proof.
    intros H I S. destruct (end_state_In s U st H) as (fls & H1 & H2 & [T _]).
    destruct (formula_columns _ _ (proj1 (proj1 U)) fls st f H1 H2 I) as (_ & _ & _ & C). apply (C S (T f I S)).
  Qed.

  Lemma other_activity v f : ~ surface_site (f_site f) -> 0 <= activity s v f.
  Proof.
    intro S. unfold activity. destruct (str_eqb (f_site f) (L "g")) eqn:E1; [|destruct (str_eqb (f_site f) (L "l")) eqn:E2].
    - unfold value. destruct (dget (s_pressure s) (f_species_site f)) eqn:D; [eauto|lra].
    - unfold value. destruct (dget (s_conc s) (f_species_site f)) eqn:D; [eauto|lra].
    - exfalso. apply S. split; intro E; rewrite E in *; discriminate.
  Qed.

  Lemma activity_bound st : end_state s st ->
    exists b, 0 <= b /\ forall v f, fine v -> In f st -> Rabs (activity s v f) <= b.
  Proof.
    intro H. assert (G : forall l, incl l st -> exists b, 0 <= b /\ forall v f, fine v -> In f l -> Rabs (activity s v f) <= b).
    { induction l as [|f l IH]; intro I; [exists 0; split; [lra|intros ? ? ? []]|].
      destruct IH as (b & P & Hb); [intros x Hx; apply I; now right|].
      set (p := Rabs (value (s_pressure s) (f_species_site f))). set (c := Rabs (value (s_conc s) (f_species_site f))).
      assert (Pp : 0 <= p) by apply Rabs_pos. assert (Pc : 0 <= c) by apply Rabs_pos.
      exists (b + p + c + B). split; [lra|]. intros v g [L1 L2] [<-|J]; [|specialize (Hb v g (conj L1 L2) J); lra].
      destruct (surface_dec (f_site f)) as [S|S].
      - rewrite (surface_activity s v) by auto. specialize (L2 _ (surface_name st f H (I f (or_introl eq_refl)) S)). lra.
      - unfold activity. destruct (str_eqb (f_site f) (L "g")) eqn:E1; [fold p; lra|].
        destruct (str_eqb (f_site f) (L "l")) eqn:E2; [fold c; lra|].
        exfalso. apply S. split; intro E; rewrite E in *; discriminate. }
    apply G. apply incl_refl.
  Qed.

  Lemma product_bound b st k : 0 <= b -> 0 <= k -> exists K, 0 <= K /\ forall v,
    (forall f, In f st -> Rabs (activity s v f) <= b) ->
    Rabs (mass_action s v k st) <= K /\
    forall f, In f st -> (0 < f_stoich f)%Z -> Rabs (mass_action s v k st) <= K * Rabs (activity s v f).
  Proof.
    intros Pb Pk. induction st as [|g st (K & PK & HK)]; cbn [mass_action].
    - exists k. split; auto. intros v _. split; [rewrite Rabs_right; lra|intros ? []].
    - set (m := Z.to_nat (f_stoich g)). assert (Pm : 0 < (1 + b) ^ m) by (apply pow_lt; lra).
      exists ((1 + b) ^ m * K). split; [nra|]. intros v Hv.
      destruct (HK v) as [H1 H2]; [intros; apply Hv; now right|].
      pose proof (Hv g (or_introl eq_refl)) as Hg. pose proof (Rabs_pos (activity s v g)) as Pg.
      set (M := mass_action s v k st) in *. pose proof (Rabs_pos M) as PM.
      assert (Q : Rabs (activity s v g ^ m) <= (1 + b) ^ m).
      { rewrite <- RPow_abs. apply pow_incr. lra. }
      pose proof (Rabs_pos (activity s v g ^ m)) as P0. rewrite Rabs_mult. split; [apply Rmult_le_compat; auto|].
      intros f [->|I] Pf.
      + assert (Rabs (activity s v f ^ m) <= (1 + b) ^ m * Rabs (activity s v f)).
        { rewrite <- RPow_abs. unfold m. destruct (Z.to_nat (f_stoich f)) as [|j] eqn:E; [lia|]. cbn [pow].
          rewrite Rmult_comm. apply Rmult_le_compat_r; auto.
          apply (Rle_trans _ ((1 + b) ^ j)); [apply pow_incr; lra|]. rewrite <- (Rmult_1_l ((1 + b) ^ j)) at 1.
          apply Rmult_le_compat_r; [apply pow_le; lra|lra]. }
        replace ((1 + b) ^ m * K * Rabs (activity s v f)) with ((1 + b) ^ m * Rabs (activity s v f) * K) by ring.
        apply Rmult_le_compat; auto.
      + rewrite Rmult_assoc. apply Rmult_le_compat; auto.
  Qed.

  Lemma all_or_one v st : (forall f, In f st -> (0 < f_stoich f)%Z -> 0 <= activity s v f) \/
    exists f, In f st /\ (0 < f_stoich f)%Z /\ activity s v f < 0.
  Proof.
    induction st as [|f st [IH|(g & H1 & H2 & H3)]]; [left; intros ? []| |right; exists g; split; [now right|auto]].
    destruct (Z_lt_ge_dec 0 (f_stoich f)) as [P|P].
    - destruct (Rlt_dec (activity s v f) 0) as [Q|Q]; [right; exists f; split; [now left|auto]|].
      left. intros g [<-|I] Hg; [lra|auto].
    - left. intros g [<-|I] Hg; [lia|auto].
  Qed.

  (** A rate is hardly negative, and small where one of its species is missing. *)
  Lemma rate_bound st k : end_state s st -> 0 <= k -> exists K, 0 <= K /\ forall v, fine v ->
    - (K * debt v) <= mass_action s v k st /\
    forall f, In f st -> (0 < f_stoich f)%Z -> In (f_species_site f) N -> coverage s v (f_species_site f) <= 0 ->
      Rabs (mass_action s v k st) <= K * debt v.
  Proof.
    intros H Pk. destruct (activity_bound st H) as (b & Pb & Hb). destruct (product_bound b st k Pb Pk) as (K & PK & HK).
    exists K. split; auto. intros v Fv. destruct (HK v) as [_ H2]; [intros; now apply Hb|].
    assert (G : forall f, In f st -> (0 < f_stoich f)%Z -> In (f_species_site f) N -> coverage s v (f_species_site f) <= 0 ->
      Rabs (mass_action s v k st) <= K * debt v).
    { intros f I Pf J C. apply (Rle_trans _ _ _ (H2 f I Pf)). apply Rmult_le_compat_l; auto.
      rewrite (surface_activity s v) by (eapply (end_surface s U); eauto).
      rewrite <- neg_abs by auto. now apply debt_one. }
    split; auto. pose proof (debt_pos v) as Pd. destruct (all_or_one v st) as [A|(f & I & Pf & Lf)].
    - assert (0 <= mass_action s v k st); [|nra]. clear -Pk A. induction st as [|f st IH]; cbn [mass_action]; auto.
      apply Rmult_le_pos; [|apply IH; intros; apply A; auto; now right].
      destruct (Z_lt_ge_dec 0 (f_stoich f)) as [P|P]; [apply pow_le, A; auto; now left|].
      replace (Z.to_nat (f_stoich f)) with O by lia. cbn. lra.
    - destruct (surface_dec (f_site f)) as [S|S]; [|pose proof (other_activity v f S); lra].
      assert (Q : Rabs (mass_action s v k st) <= K * debt v).
      { apply (G f); auto; [now apply (surface_name st)|]. rewrite <- (surface_activity s v) by auto. lra. }
      revert Q. unfold Rabs. destruct (Rcase_abs (mass_action s v k st)); nra.
  Qed.

  (** ** What is missing hardly falls *)
  Let slow (Q : list R -> Prop) (g : list R -> R) : Prop :=
    exists K, 0 <= K /\ forall v, fine v -> Q v -> - (K * debt v) <= g v.

  Lemma slow_sum {A} (Q : list R -> Prop) (g : A -> list R -> R) l :
    (forall a, In a l -> slow Q (g a)) -> slow Q (fun v => Rsum (map (fun a => g a v) l)).
  Proof.
    induction l as [|a l IH]; intro H; cbn [map Rsum].
    - exists 0. split; [lra|]. intros. lra.
    - destruct IH as (K & PK & HK); [intros; apply H; now right|]. destruct (H a (or_introl eq_refl)) as (K' & PK' & HK').
      exists (K + K'). split; [lra|]. intros v Fv Qv. specialize (HK v Fv Qv). specialize (HK' v Fv Qv). lra.
  Qed.

  Lemma counted_slow name x : In name (ads s) -> In (fst x) (l_rxns (s_lists s)) -> 0 <= fst (snd x) -> 0 <= snd (snd x) ->
    absent name (removelast (tl (fst x))) ->
    slow (fun v => coverage s v name <= 0) (fun v => counted name (fst x) (fwd s v x) (bwd s v x)).
  Proof.
    intros Hn Hf P1 P2 Ab.
    assert (S1 : end_state s (begins (fst x))) by (exists (fst x); auto).
    assert (S2 : end_state s (ends (fst x))) by (exists (fst x); auto).
    assert (J : In name N) by (apply in_or_app; now right).
    destruct (rate_bound _ _ S1 P1) as (K1 & PK1 & H1). destruct (rate_bound _ _ S2 P2) as (K2 & PK2 & H2).
    destruct (find_in_states name 0 (fst x)) as [[i n]|] eqn:E.
    2: { exists 0. split; [lra|]. intros v _ _. unfold counted. rewrite E. lra. }
    exists (Rabs (IZR n) * (K1 + K2)). split; [apply Rmult_le_pos; [apply Rabs_pos|lra]|]. intros v Fv Cv.
    destruct (H1 v Fv) as [L1 M1]. destruct (H2 v Fv) as [L2 M2]. fold (fwd s v x) in *. fold (bwd s v x) in *.
    pose proof (debt_pos v) as Pd.
    destruct (counted_is name (fst x) (fwd s v x) (bwd s v x)) as [[_ ->]|[(m & M & Em)|(j & m & M & Em)]].
    - pose proof (Rabs_pos (IZR n)). assert (0 <= Rabs (IZR n) * (K1 + K2)) by nra. nra.
    - assert (Q : m = n /\ i = O).
      { pose proof (found name (fst x) 0) as F. rewrite E in F. destruct F as (i' & -> & M').
        destruct (met_first_unique _ _ _ _ _ _ M M') as [A1 A2]. split; [congruence|lia]. }
      destruct Q as [-> ->]. rewrite Em. clear Em.
      destruct M as (st & b & f & a & F1 & F2 & F3 & F4 & _). destruct (fst x) as [|st0 t] eqn:Ex; [discriminate|].
      cbn in F1. injection F1 as ->. cbn [begins hd] in *.
      assert (I : In f st) by (subst st; apply in_or_app; right; now left).
      assert (Rf : (0 <= f_stoich f)%Z) by (apply readable_stoich; eapply (end_readable s U st f); eauto).
      subst n. destruct (Z.eq_dec (f_stoich f) 0) as [Z0|Z0]; [rewrite Z0, Rabs_R0; lra|].
      assert (Q : Rabs (fwd s v x) <= K1 * debt v) by (apply (M1 f); auto; rewrite ?F3; auto; lia).
      apply IZR_le in Rf. rewrite (Rabs_right (IZR (f_stoich f))) by lra.
      assert (fwd s v x <= K1 * debt v) by (apply (Rle_trans _ _ _ (Rle_abs _) Q)).
      assert (- ((K1 + K2) * debt v) <= bwd s v x - fwd s v x) by lra.
      replace (- (IZR (f_stoich f) * (K1 + K2) * debt v)) with (IZR (f_stoich f) * - ((K1 + K2) * debt v)) by ring.
      now apply Rmult_le_compat_l.
    - assert (Q : m = n /\ i = S j).
      { pose proof (found name (fst x) 0) as F. rewrite E in F. destruct F as (i' & -> & M').
        destruct (met_first_unique _ _ _ _ _ _ M M') as [A1 A2]. split; [congruence|lia]. }
      destruct Q as [-> ->]. rewrite Em. clear Em.
      destruct M as (st & b & f & a & F1 & F2 & F3 & F4 & _). destruct (fst x) as [|st0 t] eqn:Ex; [discriminate|].
      cbn [nth_error] in F1. cbn [tl] in Ab. 
      assert (I : In f st) by (rewrite F2; apply in_or_app; right; now left).
      destruct (last_or_middle t j st [] F1) as [Q|Q]; [exfalso; now apply (Ab st f Q)|].
      assert (Q' : st = ends (st0 :: t)).
      { rewrite Q. unfold ends. destruct t as [|st1 t]; [destruct j; discriminate|]. reflexivity. }
      rewrite <- Q' in *.
      assert (Rf : (0 <= f_stoich f)%Z) by (apply readable_stoich; eapply (end_readable s U st f); eauto).
      subst n. destruct (Z.eq_dec (f_stoich f) 0) as [Z0|Z0]; [rewrite Z0, Rabs_R0; lra|].
      assert (Q2 : Rabs (bwd s v x) <= K2 * debt v) by (apply (M2 f); auto; rewrite ?F3; auto; lia).
      apply IZR_le in Rf. rewrite (Rabs_right (IZR (f_stoich f))) by lra.
      assert (bwd s v x <= K2 * debt v) by (apply (Rle_trans _ _ _ (Rle_abs _) Q2)).
      assert (- ((K1 + K2) * debt v) <= fwd s v x - bwd s v x) by lra.
      replace (- (IZR (f_stoich f) * (K1 + K2) * debt v)) with (IZR (f_stoich f) * - ((K1 + K2) * debt v)) by ring.
      now apply Rmult_le_compat_l.
  Qed.

  Lemma site_slow site x : In site (sites s) -> In (fst x) (l_rxns (s_lists s)) -> 0 <= fst (snd x) -> 0 <= snd (snd x) ->
    slow (fun v => coverage s v site <= 0) (fun v => - IZR (consumption (fst x) site) * (fwd s v x - bwd s v x)).
  Proof.
    intros Hs Hf P1 P2.
    assert (S1 : end_state s (begins (fst x))) by (exists (fst x); auto).
    assert (S2 : end_state s (ends (fst x))) by (exists (fst x); auto).
    assert (J : In site N) by (apply in_or_app; now left).
    destruct (rate_bound _ _ S1 P1) as (K1 & PK1 & H1). destruct (rate_bound _ _ S2 P2) as (K2 & PK2 & H2).
    rewrite consumption_ends by now apply (rxn_nonempty s U). unfold net_consumption.
    destruct (total_positive s _ site U S1) as [T1 F1]. destruct (total_positive s _ site U S2) as [T2 F2].
    set (u := total_of_species site (begins (fst x))) in *. set (w := total_of_species site (ends (fst x))) in *.
    exists (Rabs (IZR (u - w)) * (K1 + K2)). split; [apply Rmult_le_pos; [apply Rabs_pos|lra]|]. intros v Fv Cv.
    destruct (H1 v Fv) as [L1 M1]. destruct (H2 v Fv) as [L2 M2]. fold (fwd s v x) in *. fold (bwd s v x) in *.
    pose proof (debt_pos v) as Pd. destruct (Z_lt_ge_dec w u) as [Hl|Hl].
    - destruct F1 as (f & I1 & I2 & I3); [lia|].
      assert (Q : Rabs (fwd s v x) <= K1 * debt v) by (apply (M1 f); auto; now rewrite I2).
      assert (fwd s v x <= K1 * debt v) by (apply (Rle_trans _ _ _ (Rle_abs _) Q)).
      assert (Pz : 0 < IZR (u - w)) by (apply IZR_lt; lia). rewrite Rabs_right by lra.
      assert (- ((K1 + K2) * debt v) <= bwd s v x - fwd s v x) by lra.
      replace (- IZR (u - w) * (fwd s v x - bwd s v x)) with (IZR (u - w) * (bwd s v x - fwd s v x)) by ring.
      replace (- (IZR (u - w) * (K1 + K2) * debt v)) with (IZR (u - w) * - ((K1 + K2) * debt v)) by ring.
      apply Rmult_le_compat_l; lra.
    - destruct (Z.eq_dec u w) as [->|Nq]; [rewrite Z.sub_diag, Rabs_R0; lra|].
      destruct F2 as (f & I1 & I2 & I3); [lia|].
      assert (Q : Rabs (bwd s v x) <= K2 * debt v) by (apply (M2 f); auto; now rewrite I2).
      assert (bwd s v x <= K2 * debt v) by (apply (Rle_trans _ _ _ (Rle_abs _) Q)).
      assert (Pz : IZR (u - w) < 0) by (apply IZR_lt; lia). rewrite Rabs_left by lra.
      assert (- ((K1 + K2) * debt v) <= fwd s v x - bwd s v x) by lra.
      replace (- (- IZR (u - w) * (K1 + K2) * debt v)) with (- IZR (u - w) * - ((K1 + K2) * debt v)) by ring.
      apply Rmult_le_compat_l; lra.
  Qed.

  Variables kf kr : list R.
  Hypothesis Pk : forall k, In k kf \/ In k kr -> 0 <= k.
  Hypothesis Sa : simple_adsorbates s.

  (** How fast an adsorbate or free site changes. *)
  Definition speed (v : list R) (n : str) : R :=
    if in_dec str_dec n (ads s) then derivative s v (reactions s kf kr) n else turnover s v (reactions s kf kr) n.

  Lemma speed_slow : exists K, 0 <= K /\ forall v n, fine v -> In n N -> coverage s v n <= 0 -> - (K * debt v) <= speed v n.
  Proof.
    assert (G : forall n, In n N -> slow (fun v => coverage s v n <= 0) (fun v => speed v n)).
    { intros n Hn. unfold speed. destruct (in_dec str_dec n (ads s)) as [Ha|Ha].
      - apply slow_sum. intros x Hx. destruct (reactions_In _ _ _ _ Hx) as (A & B' & C).
        apply counted_slow; auto. now apply Sa.
      - apply in_app_or in Hn as [Hn|Hn]; [|contradiction].
        apply slow_sum. intros x Hx. destruct (reactions_In _ _ _ _ Hx) as (A & B' & C). apply site_slow; auto. }
    assert (G' : forall l, incl l N -> exists K, 0 <= K /\
      forall v n, fine v -> In n l -> coverage s v n <= 0 -> - (K * debt v) <= speed v n).
    { induction l as [|n l IH]; intro I; [exists 0; split; [lra|intros ? ? ? []]|].
      destruct IH as (K & PK & HK); [intros y Hy; apply I; now right|].
      destruct (G n (I n (or_introl eq_refl))) as (K' & PK' & HK'). exists (K + K'). split; [lra|].
      intros v m Fv [<-|Hm] Cv; pose proof (debt_pos v); [specialize (HK' v Fv Cv)|specialize (HK v m Fv Hm Cv)]; nra. }
    apply G', incl_refl.
  Qed.

  (** The adsorbates of a site change together as the free site does not. *)
  Lemma site_speed v site : length v = length (ads s) -> In site (sites s) ->
    covered site (ads s) (map (derivative s v (reactions s kf kr)) (ads s)) = - turnover s v (reactions s kf kr) site.
  Proof.
    intros Len Hs. assert (exists t, site = L "*_" ++ t /\ surface_site t) as (t & -> & St).
    { destruct (parse_rxns_facts _ _ (proj1 (proj1 U))) as (_ & _ & _ & _ & _ & _ & _ & _ & _ & _ & S0).
      apply S0 in Hs as (f & _ & Sf & ->). eauto. }
    rewrite covered_map.
    assert (Q : forall n, In n (ads s) ->
      (if str_eqb (site_tag n) (L "*_" ++ t) then derivative s v (reactions s kf kr) n else 0)
      = Rsum (map (fun x => - (IZR (name_occupies t n * consumption (fst x) n)) * (fwd s v x - bwd s v x)) (reactions s kf kr))).
    { intros n Hn. unfold name_occupies. unfold site_tag.
      destruct (str_eqb (after_digits (after_last_underscore n)) t) eqn:Q.
      - apply str_eqb_eq in Q. rewrite Q, str_eqb_refl. destruct (Sa n Hn) as [O Pl].
        rewrite O. unfold derivative. apply Rsum_ext. intros x Hx. destruct (reactions_In _ _ _ _ Hx) as (A & _).
        rewrite Z.mul_1_l, consumption_ends by now apply (rxn_nonempty s U).
        apply (plain_change n (fst x) _ _ _ (proj1 (Pl _ A)) (counted_is n (fst x) _ _));
          [apply begins_first|apply ends_last]; now apply (rxn_nonempty s U).
      - destruct (str_eqb (L "*_" ++ after_digits (after_last_underscore n)) (L "*_" ++ t)) eqn:Q2.
        { apply str_eqb_eq in Q2. cbn in Q2. injection Q2 as Q2. rewrite Q2, str_eqb_refl in Q. discriminate. }
        symmetry. apply Rsum_zero. intros x _. change (0 * consumption (fst x) n)%Z with 0%Z. ring. }
    rewrite (Rsum_ext _ _ _ Q), Rsum_swap. unfold turnover.
    replace (- Rsum (map (fun x => - IZR (consumption (fst x) (L "*_" ++ t)) * (fwd s v x - bwd s v x)) (reactions s kf kr)))
      with (Rsum (map (fun x => -1 * (- IZR (consumption (fst x) (L "*_" ++ t)) * (fwd s v x - bwd s v x))) (reactions s kf kr)))
      by (rewrite Rsum_mul; ring).
    apply Rsum_ext. intros x Hx. destruct (reactions_In _ _ _ _ Hx) as (A & _).
    pose proof (sites_balance s (fst x) t U A St Hs) as Bal.
    rewrite (Rsum_ext _ (fun n => - (fwd s v x - bwd s v x) * IZR (name_occupies t n * consumption (fst x) n))) by (intros; ring).
    rewrite Rsum_mul, Rsum_IZR.
    replace (consumption (fst x) (L "*_" ++ t)) with (- sum_Z (map (fun n => (name_occupies t n * consumption (fst x) n)%Z) (ads s)))%Z by lia.
    rewrite opp_IZR. ring.
  Qed.
End Rates.

(** ** In the course of time *)
Lemma covered_combine {A} site (g : A -> R) : forall names l, length l = length names ->
  covered site names (map g l) = Rsum (map (fun p => if str_eqb (site_tag (fst p)) site then g (snd p) else 0) (combine names l)).
Proof.
  induction names as [|n names IH]; intros [|a l] H; try discriminate; [reflexivity|].
  cbn [map covered combine Rsum fst snd]. rewrite IH; auto.
Qed.

Lemma combine_seq {A} (l : list A) p a : In p (combine l (seq a (length l))) ->
  exists i, snd p = (a + i)%nat /\ nth_error l i = Some (fst p).
Proof.
  revert a; induction l as [|x l IH]; intros a H; [destruct H|]. cbn in H. destruct H as [<-|H].
  - exists O. split; [cbn; lia|reflexivity].
  - destruct (IH (S a) H) as (i & E & Hi). exists (S i). split; [lia|exact Hi].
Qed.

Lemma combine_fst {A B C} (f : A -> C) (l : list A) (m : list B) : length m = length l ->
  map (fun p => f (fst p)) (combine l m) = map f l.
Proof. revert m; induction l as [|x l IH]; intros [|y m] H; try discriminate; cbn; [reflexivity|]. now rewrite IH by (cbn in H; lia). Qed.

Section Time.
  Variable s : setup.
  Hypothesis U : usable_setup s.
  Hypothesis ND : NoDup (s_exprs s).
  Variables kf kr : list R.
  Hypothesis Lf : length kf = length (s_exprs s).
  Hypothesis Lr : length kr = length (s_exprs s).
  Variable T : R.
  Variable th : R -> list R.
  Hypothesis Sol : solution s kf kr T th.

  Definition pad (v : list R) : list R := map (fun i => nth i v 0) (seq 0 (length (ads s))).
  Lemma pad_length v : length (pad v) = length (ads s).
  Proof. unfold pad. now rewrite map_length, seq_length. Qed.
  Lemma pad_nth v i : (i < length (ads s))%nat -> nth_error (pad v) i = Some (nth i v 0).
  Proof.
    intro H. unfold pad. rewrite nth_error_map. replace (nth_error (seq 0 (length (ads s))) i) with (Some i); [reflexivity|].
    symmetry. rewrite nth_error_nth' with (d := O) by now rewrite seq_length. now rewrite seq_nth.
  Qed.
  Lemma pad_same v : length v = length (ads s) -> pad v = v.
  Proof.
    intro H. apply (nth_ext _ _ 0 0); [now rewrite pad_length|]. intros i Hi. rewrite pad_length in Hi.
    apply (nth_error_nth _ _ 0). now apply pad_nth.
  Qed.

  Let x (n : str) (u : R) : R := coverage s (pad (th u)) n.
  Lemma x_now n t : 0 <= t <= T -> x n t = coverage s (th t) n.
  Proof. intro H. unfold x. rewrite pad_same; [reflexivity|]. now apply Sol. Qed.

  Lemma ads_index n : In n (ads s) -> exists i, nth_error (ads s) i = Some n /\ (i < length (ads s))%nat /\
    forall u, x n u = nth i (th u) 0.
  Proof.
    intro H. apply In_nth_error in H as [i Hi]. assert (i < length (ads s))%nat as Hl by (apply nth_error_Some; congruence).
    exists i. split; auto. split; auto. intro u. apply (nth_coverage s (proj1 U) _ (pad_length _) i n); auto. now apply pad_nth.
  Qed.

  Lemma change i n t : 0 <= t <= T -> nth_error (ads s) i = Some n ->
    derivable_pt_lim (fun u => nth i (th u) 0) t (derivative s (th t) (reactions s kf kr) n).
  Proof.
    intros Ht Hi. destruct (Sol t Ht) as (Len & data & F & E1 & E2 & D). apply D.
    destruct (explicit s U ND (th t) kf kr Len Lf Lr) as (data' & E1' & _ & _ & E4 & _).
    rewrite E1 in E1'. injection E1' as <-. rewrite E2 in E4. injection E4 as ->. now apply map_nth_error.
  Qed.

  Hypothesis Sa : simple_adsorbates s.

  Lemma x_speed n t : In n (sites s ++ ads s) -> 0 <= t <= T -> derivable_pt_lim (x n) t (speed s kf kr (th t) n).
  Proof.
    intros Hn Ht. unfold speed. destruct (in_dec str_dec n (ads s)) as [Ha|Ha].
    - destruct (ads_index n Ha) as (i & Hi & _ & E). apply (d_ext (fun u => nth i (th u) 0)); [intro u; now rewrite E|].
      now apply change.
    - apply in_app_or in Hn as [Hn|Hn]; [|contradiction]. destruct (Sol t Ht) as (Len & _).
      set (on := fun p : str * nat => str_eqb (site_tag (fst p)) n).
      apply (d_ext (fun u => total s n - Rsum (map (fun p => if on p then nth (snd p) (th u) 0 else 0)
                                       (combine (ads s) (seq 0 (length (ads s))))))).
      { intro u. unfold x. rewrite (site_coverage s (proj1 U) _ (pad_length _) n Hn). unfold pad.
        now rewrite covered_combine by now rewrite seq_length. }
      apply (d_eq _ _ (0 - Rsum (map (fun p => if on p then derivative s (th t) (reactions s kf kr) (fst p) else 0)
                                       (combine (ads s) (seq 0 (length (ads s))))))).
      { pose proof (site_speed s U kf kr Sa (th t) n Len Hn) as Q. rewrite Whole_Bound.covered_map in Q.
        unfold on. rewrite (combine_fst (fun n' => if str_eqb (site_tag n') n then derivative s (th t) (reactions s kf kr) n' else 0))
          by now rewrite seq_length.
        rewrite Q. ring. }
      apply (d_minus (fun _ => total s n)); [apply d_const|].
      apply (d_sum (fun p u => if on p then nth (snd p) (th u) 0 else 0)). intros p Hp.
      destruct (combine_seq _ _ _ Hp) as (i & E & Hi). rewrite Nat.add_0_l in E.
      destruct (on p); [|apply d_const]. rewrite E. now apply change.
  Qed.

  Hypothesis Pk : forall k, In k kf \/ In k kr -> 0 <= k.

  Lemma stays t : nothing_negative s (th 0) -> 0 <= t <= T -> nothing_negative s (th t).
  Proof.
    intros (Np & Nc & Nx & Ns) Ht. set (N := sites s ++ ads s).
    destruct (all_bounded x (fun n t => speed s kf kr (th t) n) T N) as (B & PB & HB); [intros; now apply x_speed|].
    destruct (speed_slow s U Np Nc B PB kf kr Pk Sa) as (K & PK & HK).
    set (V := fun u => Rsum (map (fun n => neg (x n u) * neg (x n u)) N)).
    set (V' := fun u => Rsum (map (fun n => - 2 * neg (x n u) * speed s kf kr (th u) n) N)).
    assert (Z0 : V 0 = 0).
    { apply sum_zero. intros n Hn. rewrite neg_zero; [ring|]. assert (H0 : 0 <= 0 <= T) by lra.
      destruct (Sol 0 H0) as (Len & _). rewrite x_now by auto. apply in_app_or in Hn as [Hn|Hn].
      - rewrite (site_coverage s (proj1 U) _ Len n Hn). specialize (Ns n Hn). lra.
      - destruct (ads_index n Hn) as (i & Hi & Hl & E). rewrite <- x_now, E by auto.
        apply Nx, nth_In. now rewrite Len. }
    assert (D : V t <= V 0 * exp (2 * K * INR (length N) * t)).
    { apply (decays V V' (2 * K * INR (length N)) T); auto. intros u Hu. split.
      - apply (d_sum (fun n w => neg (x n w) * neg (x n w))). intros n Hn.
        apply (d_comp (x n) (fun y => neg y * neg y)); [now apply x_speed|apply d_neg_square].
      - destruct (Sol u Hu) as (Len & _).
        set (S := Rsum (map (fun n => neg (x n u)) N)).
        assert (PS : 0 <= S) by (apply sum_pos; intros; apply neg_pos).
        apply (Rle_trans _ (Rsum (map (fun n => 2 * K * S * neg (x n u)) N))).
        + apply sum_le. intros n Hn. pose proof (neg_pos (x n u)) as Pn.
          destruct (Rle_dec (x n u) 0) as [Le|Le].
          * assert (Q : - (K * S) <= speed s kf kr (th u) n).
            { unfold S. rewrite (map_ext_in (fun n => neg (x n u)) (fun n => neg (coverage s (th u) n)))
                by (intros; now rewrite x_now).
              apply HK; auto.
              - split; auto. intros m Hm. rewrite <- x_now by auto. now apply HB.
              - now rewrite <- x_now. }
            nra.
          * rewrite neg_zero by lra. lra.
        + rewrite sum_scal. fold S. pose proof (sum_square (fun n => neg (x n u)) N) as Q. fold S in Q. fold (V u) in Q.
          replace (2 * K * S * S) with (2 * K * (S * S)) by ring. rewrite (Rmult_assoc (2 * K)). apply Rmult_le_compat_l; [lra|exact Q]. }
    rewrite Z0, Rmult_0_l in D.
    assert (G : forall n, In n N -> 0 <= coverage s (th t) n).
    { intros n Hn. rewrite <- x_now by auto. apply zero_neg.
      assert (neg (x n t) * neg (x n t) <= V t).
      { apply (sum_term (fun n => neg (x n t) * neg (x n t))); auto. intros; nra. }
      pose proof (neg_pos (x n t)). nra. }
    destruct (Sol t Ht) as (Len & _). split; auto. split; auto. split.
    - intros y Hy. apply In_nth_error in Hy as [i Hi].
      destruct (nth_error (ads s) i) as [n|] eqn:E.
      + rewrite <- (nth_coverage s (proj1 U) _ Len i n y E Hi). apply G. apply in_or_app. right. eapply nth_error_In; eauto.
      + apply nth_error_None in E. assert (i < length (th t))%nat by (apply nth_error_Some; congruence). lia.
    - intros site Hs. assert (0 <= coverage s (th t) site) by (apply G, in_or_app; now left).
      rewrite (site_coverage s (proj1 U) _ Len site Hs) in *. lra.
  Qed.
End Time.
