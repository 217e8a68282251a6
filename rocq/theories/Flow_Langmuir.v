(** Competing adsorption approaches Langmuir's isotherm in the course of time. *)
From Coq Require Import String Ascii List ZArith NArith Bool Arith Reals Lia Lra.
Import ListNotations.
From Verif Require Import PyBase PyBaseFacts Rxn_Model Rxn_Spec Species_Model Species_Spec PyReal MF_Model MF_Spec
  MF_Cover MF_More Whole_Spec Whole_Rates RDeriv Langmuir_Spec Langmuir_Proofs Flow_Spec Flow_Real Flow_Proofs.
Local Open Scope list_scope.
Local Open Scope R_scope.

Lemma sum_filter {A} (p : A -> bool) (f : A -> R) l :
  Rsum (map (fun a => if p a then f a else 0) l) = Rsum (map f (filter p l)).
Proof. induction l as [|a l IH]; cbn [map Rsum filter]; [reflexivity|]. rewrite IH. destruct (p a); cbn [map Rsum]; lra. Qed.

Lemma sum_minus_scal {A} (f g : A -> R) c l : Rsum (map (fun a => f a - c * g a) l) = Rsum (map f l) - c * Rsum (map g l).
Proof. induction l as [|a l IH]; cbn [map Rsum]; [ring|]. rewrite IH. ring. Qed.

(** The system of one site by itself: [e' = alpha * (- sum e) - beta * e]. *)
Section Linear.
  Context {A : Type}.
  Variable l : list A.
  Variables (alpha beta q : A -> R) (x : A -> R -> R) (r : R).
  Hypothesis Pa : forall a, In a l -> 0 < alpha a.
  Hypothesis Pb : forall a, In a l -> r <= beta a.
  Hypothesis D : forall a t, In a l -> 0 <= t ->
    derivable_pt_lim (x a) t (alpha a * - Rsum (map (fun b => x b t - q b) l) - beta a * (x a t - q a)).
  Let V u := Rsum (map (fun a => / (2 * alpha a) * ((x a u - q a) * (x a u - q a))) l).

  Lemma linear_decays t : 0 <= t -> V t <= V 0 * exp (- (2 * r) * t).
  Proof.
    intro Ht.
    set (V' := fun u => Rsum (map (fun a => / (2 * alpha a) * (2 * (x a u - q a)
       * (alpha a * - Rsum (map (fun b => x b u - q b) l) - beta a * (x a u - q a)))) l)).
    apply (decays V V' (- (2 * r)) t); [|lra]. intros u Hu. split.
    - apply (d_sum (fun a w => / (2 * alpha a) * ((x a w - q a) * (x a w - q a)))). intros a Ha. apply d_scal.
      specialize (D a u Ha (proj1 Hu)).
      set (d := alpha a * - Rsum (map (fun b => x b u - q b) l) - beta a * (x a u - q a)) in *.
      assert (E : derivable_pt_lim (fun w => x a w - q a) u d).
      { apply (d_eq _ _ (d - 0)); [ring|]. apply (d_minus (x a) (fun _ => q a)); [exact D|apply d_const]. }
      apply (d_eq _ _ (d * (x a u - q a) + (x a u - q a) * d)); [ring|]. now apply (d_mult (fun w => x a w - q a) (fun w => x a w - q a)).
    - unfold V', V. set (E := Rsum (map (fun b => x b u - q b) l)).
      rewrite <- sum_scal.
      apply (Rle_trans _ (Rsum (map (fun a => - E * (x a u - q a) + - (2 * r) * (/ (2 * alpha a) * ((x a u - q a) * (x a u - q a)))) l))).
      + apply sum_le. intros a Ha. specialize (Pa a Ha). specialize (Pb a Ha). set (e := x a u - q a).
        replace (/ (2 * alpha a) * (2 * e * (alpha a * - E - beta a * e))) with (- E * e - 2 * (/ (2 * alpha a) * (e * e)) * beta a) by (field; lra).
        assert (0 <= / (2 * alpha a) * (e * e)).
        { apply Rmult_le_pos; [left; apply Rinv_0_lt_compat; lra|apply Rle_0_sqr]. }
        nra.
      + rewrite (Rsum_add (fun a => - E * (x a u - q a)) (fun a => - (2 * r) * (/ (2 * alpha a) * ((x a u - q a) * (x a u - q a))))).
        rewrite (sum_scal (- E)). fold E. assert (0 <= E * E) by apply Rle_0_sqr. lra.
  Qed.

  Lemma linear_approach a : In a l -> exists C, forall t, 0 <= t -> Rabs (x a t - q a) <= C * exp (- r * t).
  Proof.
    intro Ha. assert (PV : forall u, / (2 * alpha a) * ((x a u - q a) * (x a u - q a)) <= V u).
    { intro u. apply (sum_term (fun a => / (2 * alpha a) * ((x a u - q a) * (x a u - q a)))); auto.
      intros b Hb. apply Rmult_le_pos; [left; apply Rinv_0_lt_compat; specialize (Pa b Hb); lra|apply Rle_0_sqr]. }
    specialize (Pa a Ha) as P. assert (I : 0 < / (2 * alpha a)) by (apply Rinv_0_lt_compat; lra).
    assert (V0 : 0 <= V 0) by (apply (Rle_trans _ _ _) with (2 := PV 0); apply Rmult_le_pos; [lra|apply Rle_0_sqr]).
    exists (sqrt (2 * alpha a * V 0)). intros t Ht. pose proof (linear_decays t Ht) as Q. specialize (PV t).
    assert (P2 : 0 <= 2 * alpha a * V 0) by nra.
    pose proof (sqrt_pos (2 * alpha a * V 0)) as Ps. pose proof (sqrt_sqrt _ P2) as Es. pose proof (exp_pos (- r * t)) as Pe.
    rewrite <- (Rabs_right (sqrt (2 * alpha a * V 0) * exp (- r * t))) by nra.
    apply Rsqr_le_abs_0. unfold Rsqr.
    replace (sqrt (2 * alpha a * V 0) * exp (- r * t) * (sqrt (2 * alpha a * V 0) * exp (- r * t)))
      with (sqrt (2 * alpha a * V 0) * sqrt (2 * alpha a * V 0) * (exp (- r * t) * exp (- r * t))) by ring.
    rewrite Es, <- exp_plus. replace (- r * t + - r * t) with (- (2 * r) * t) by ring.
    set (e := (x a t - q a) * (x a t - q a)) in *.
    replace e with (2 * alpha a * (/ (2 * alpha a) * e)) by (field; lra). rewrite (Rmult_assoc (2 * alpha a) (V 0)). apply Rmult_le_compat_l; lra.
  Qed.
End Linear.

Section Approach.
  Variable s : setup.
  Hypothesis U : usable_setup s.
  Variable l : list (str * str).
  Hypothesis OA : only_adsorption s l.
  Variables kf kr : list R.
  Hypothesis Lf : length kf = length (s_exprs s).
  Hypothesis Lr : length kr = length (s_exprs s).
  Hypothesis Pf : forall k, In k kf -> 0 < k.
  Hypothesis Pr : forall k, In k kr -> 0 < k.
  Hypothesis Pp : forall gas name, In (gas, name) l -> 0 < value (s_pressure s) gas.
  Variable th : R -> list R.
  Hypothesis Sol : forall T, solution s kf kr T th.
  Variable r : R.
  Hypothesis Sr : forall k, In k kr -> r <= k.

  Lemma approach i gas name K : nth_error l i = Some (gas, name) -> nth_error (quotients kf kr) i = Some K ->
    exists C, forall t, 0 <= t ->
      Rabs (coverage s (th t) name - isotherm s l (quotients kf kr) gas name K) <= C * exp (- r * t).
  Proof.
    intros Hl HK. destruct (lengths s U l OA kf kr Lf Lr) as [L1 L2].
    assert (Hi : (i < length l)%nat) by (apply nth_error_Some; congruence).
    destruct (nth_error kf i) as [a|] eqn:Ha; [|apply nth_error_None in Ha; lia].
    destruct (nth_error kr i) as [b|] eqn:Hb; [|apply nth_error_None in Hb; lia].
    pose proof (at_Y l kf kr i _ a b Hl Ha Hb) as HY. set (Y := combine l (combine kf kr)) in *.
    set (site := site_tag name). set (on := fun y : (str * str) * (R * R) => str_eqb (site_tag (snd (fst y))) site).
    set (On := filter on Y).
    set (Kp := fun y : (str * str) * (R * R) => fst (snd y) / snd (snd y) * value (s_pressure s) (fst (fst y))).
    set (free := total s site / (1 + Rsum (map Kp On))).
    assert (Pull : pull s l (quotients kf kr) site = Rsum (map Kp On)).
    { rewrite (pull_over s U l OA kf kr Lf Lr). cbv beta. fold Y.
      apply (sum_filter on Kp). }
    assert (At : forall y, In y On -> In y Y /\ site_tag (snd (fst y)) = site).
    { intros y Hy. apply filter_In in Hy as [H1 H2]. split; auto. now apply str_eqb_eq in H2. }
    assert (Kpos : forall y, In y On -> 0 < Kp y).
    { intros y Hy. destruct (At y Hy) as [H1 _]. destruct (Y_at l kf kr y H1) as (j & J1 & J2 & J3 & _). unfold Kp.
      apply Rmult_lt_0_compat; [apply Rmult_lt_0_compat|].
      - apply Pf. eapply nth_error_In; eauto.
      - apply Rinv_0_lt_compat, Pr. eapply nth_error_In; eauto.
      - destruct (fst y) as [g n] eqn:E. apply (Pp g n). eapply nth_error_In; eauto. }
    assert (Ps : 0 <= Rsum (map Kp On)) by (apply sum_pos; intros y Hy; left; now apply Kpos).
    assert (Hs : In site (sites s)) by (apply (site_known s U l OA kf kr _ HY)).
    assert (In ((gas, name), (a, b)) On) as HOn.
    { apply filter_In. split; auto. unfold on. cbn [fst snd]. apply str_eqb_refl. }
    destruct (linear_approach On (fun y => fst (snd y) * value (s_pressure s) (fst (fst y))) (fun y => snd (snd y))
      (fun y => free * Kp y) (fun y u => coverage s (pad s (th u)) (snd (fst y))) r) with (a := ((gas, name), (a, b))) as [C HC]; auto.
    - intros y Hy. destruct (At y Hy) as [H1 _]. destruct (Y_at l kf kr y H1) as (j & J1 & J2 & J3 & _).
      apply Rmult_lt_0_compat; [apply Pf; eapply nth_error_In; eauto|].
      destruct (fst y) as [g n] eqn:E. apply (Pp g n). eapply nth_error_In; eauto.
    - intros y Hy. destruct (At y Hy) as [H1 _]. destruct (Y_at l kf kr y H1) as (j & J1 & J2 & J3 & _).
      apply Sr. eapply nth_error_In; eauto.
    - intros y t Hy Ht. destruct (At y Hy) as [H1 Ey]. destruct (Y_at l kf kr y H1) as (j & J1 & J2 & J3 & _).
      destruct y as [[g n] [a' b']]. cbn [fst snd] in *.
      assert (Hn : In n (ads s)) by (eapply (name_ads s U l OA); eauto).
      destruct (ads_index s U th n Hn) as (m & Hm & _ & E). cbv beta in E.
      apply (d_ext (fun u => nth m (th u) 0)); [intro u; now rewrite E|].
      assert (HT : 0 <= t <= t) by lra. destruct (Sol t t HT) as (Len & _).
      pose proof (change s U (exprs_NoDup s U l OA) kf kr Lf Lr t th (Sol t) m n t HT Hm) as Ch.
      rewrite (derivative_of s U l OA (th t) kf kr Len Lf Lr j g n a' b' J1 J2 J3) in Ch.
      revert Ch. apply d_eq. rewrite (pad_same s (th t) Len). rewrite Ey.
      rewrite (site_coverage s (proj1 U) (th t) Len site Hs).
      rewrite (covered_over s U l OA (th t) kf kr Len Lf Lr). cbv beta. fold Y.
      rewrite (sum_filter on (fun y => coverage s (th t) (snd (fst y)))). fold On.
      set (X := Rsum (map (fun y => coverage s (th t) (snd (fst y))) On)).
      assert (Rsum (map (fun y : str * str * (R * R) => coverage s (th t) (snd (fst y)) - free * Kp y) On) = X - free * Rsum (map Kp On)) as ->.
      { apply (sum_minus_scal (fun y => coverage s (th t) (snd (fst y)))). }
      assert (F : total s site = free * (1 + Rsum (map Kp On))) by (unfold free; field; lra).
      rewrite F. assert (0 < b') by (apply Pr; eapply nth_error_In; eauto). unfold Kp at 3. cbn [fst snd]. field. lra.
    - exists C. intros t Ht. specialize (HC t Ht). cbn [fst snd] in HC.
      assert (HT : 0 <= t <= t) by lra. destruct (Sol t t HT) as (Len & _). rewrite (pad_same s (th t) Len) in HC.
      replace (isotherm s l (quotients kf kr) gas name K) with (free * Kp ((gas, name), (a, b))); auto.
      unfold isotherm. fold site. rewrite Pull. unfold free, Kp at 2. cbn [fst snd].
      destruct (Y_at l kf kr _ HY) as (j & J1 & J2 & J3 & J4). cbn [fst snd] in *.
      assert (j = i) by (eapply names_differ; eauto). subst j. rewrite HK in J4. injection J4 as ->.
      field. assert (0 < b) by (apply Pr; eapply nth_error_In; eauto). split; lra.
  Qed.
End Approach.
