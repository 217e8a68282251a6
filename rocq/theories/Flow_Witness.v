(** Solutions of rate equations: two gases filling an empty surface, and two mechanisms that leave the
    physical range. *)
From Coq Require Import String Ascii List ZArith NArith Bool Arith Reals Lia Lra.
Import ListNotations.
From Verif Require Import PyBase PyBaseFacts Rxn_Model Rxn_Spec Species_Model Species_Spec PyReal MF_Model MF_Spec
  MF_Cover MF_More MF_Witness Whole_Spec Whole_Rates Whole_Witness RDeriv Langmuir_Spec Langmuir_Proofs Langmuir_Witness
  Flow_Spec Flow_Real Flow_Proofs.
Local Open Scope list_scope.
Local Open Scope R_scope.

(** ** Physical coverages in the sense of the bounds *)
Lemma feasible_nothing s cvgs : (forall g x, dget (s_pressure s) g = Some x -> 0 <= x) ->
  (forall l x, dget (s_conc s) l = Some x -> 0 <= x) -> feasible s cvgs -> nothing_negative s cvgs.
Proof.
  intros Np Nc (Len & B & S). split; auto. split; auto. split; auto. intros x H. apply In_nth_error in H as [i Hi].
  destruct (nth_error (ads s) i) as [n|] eqn:E.
  - now destruct (B i n x E Hi) as [[P _] _].
  - apply nth_error_None in E. assert (i < length cvgs)%nat by (apply nth_error_Some; congruence). lia.
Qed.

Lemma covered_one site names : forall cvgs i n x, length cvgs = length names -> (forall y, In y cvgs -> 0 <= y) ->
  nth_error names i = Some n -> nth_error cvgs i = Some x -> site_tag n = site -> x <= covered site names cvgs.
Proof.
  induction names as [|m names IH]; intros [|y cvgs] [|i] n x Len P Hn Hx E; try discriminate; cbn [covered].
  - cbn in Hn, Hx. injection Hn as ->. injection Hx as ->. rewrite E, str_eqb_refl.
    assert (0 <= covered site names cvgs); [|lra]. cbn in Len. injection Len as Len.
    assert (P' : forall y, In y cvgs -> 0 <= y) by (intros; apply P; now right). clear -Len P'.
    revert cvgs Len P'. induction names as [|m names IH]; intros [|y cvgs] Len P; cbn [covered]; try lra.
    specialize (P y (or_introl eq_refl)) as Py. cbn in Len. injection Len as Len.
    assert (0 <= covered site names cvgs) by (apply IH; auto; intros; apply P; now right).
    destruct (str_eqb (site_tag m) site); lra.
  - cbn in Len. injection Len as Len. assert (x <= covered site names cvgs).
    { apply (IH cvgs i n x); auto. intros; apply P; now right. }
    pose proof (P y (or_introl eq_refl)). destruct (str_eqb (site_tag m) site); lra.
Qed.

Lemma nothing_feasible s cvgs : prepared s -> length cvgs = length (ads s) ->
  (forall site, In site (sites s) -> total s site <= 1) -> nothing_negative s cvgs -> feasible s cvgs.
Proof.
  intros P Len Le (_ & _ & Nx & Ns). split; auto. split; auto. intros i n x Hn Hx.
  assert (Hs : In (site_tag n) (sites s)) by (apply (ads_site s P); eapply nth_error_In; eauto).
  assert (x <= covered (site_tag n) (ads s) cvgs) by (eapply covered_one; eauto).
  specialize (Ns _ Hs). specialize (Le _ Hs). split; [split; [apply Nx; eapply nth_error_In; eauto|lra]|lra].
Qed.

Lemma stays_feasible s kf kr T th t : usable_setup s -> NoDup (s_exprs s) ->
  length kf = length (s_exprs s) -> length kr = length (s_exprs s) -> (forall k, In k kf \/ In k kr -> 0 <= k) ->
  (forall g x, dget (s_pressure s) g = Some x -> 0 <= x) -> (forall l x, dget (s_conc s) l = Some x -> 0 <= x) ->
  (forall site, In site (sites s) -> total s site <= 1) -> simple_adsorbates s -> solution s kf kr T th ->
  feasible s (th 0) -> 0 <= t <= T -> feasible s (th t).
Proof.
  intros U ND Lf Lr Pk Np Nc Le Sa Sol F Ht. apply (nothing_feasible s (th t) (proj1 U)); auto; [now apply Sol|].
  apply (stays s U ND kf kr Lf Lr T th Sol Sa Pk); auto. now apply feasible_nothing.
Qed.

(** ** Filling an empty surface *)
Definition filling (t : R) : list R :=
  [/ 4 * (1 - exp (- 8 * t)); / 15 * (1 - exp (- 9 * t)); / 2 * (1 - exp (- 8 * t))].

Lemma d_exp c t : derivable_pt_lim (fun u => exp (c * u)) t (c * exp (c * t)).
Proof.
  apply (d_eq _ _ (exp (c * t) * c)); [ring|]. apply (d_comp (fun u => c * u) exp); [|apply derivable_pt_lim_exp].
  apply (d_eq _ _ (c * 1)); [ring|]. apply d_scal, d_id.
Qed.
Lemma d_fill a c t : derivable_pt_lim (fun u => a * (1 - exp (c * u))) t (a * (0 - c * exp (c * t))).
Proof. apply d_scal. apply d_minus; [apply d_const|apply d_exp]. Qed.

Lemma compete_distinct : NoDup (s_exprs compete_setup).
Proof. apply NoDup_ok; vm_compute; reflexivity. Qed.

Lemma filling_solves T : solution compete_setup compete_kf compete_kr T filling.
Proof.
  intros t _. split; [reflexivity|].
  destruct (explicit compete_setup compete_usable compete_distinct (filling t) compete_kf compete_kr eq_refl eq_refl eq_refl)
    as (data & E1 & _ & _ & E4 & _).
  exists data. eexists. split; [exact E1|]. split; [exact E4|].
  intros i y H. unfold filling. set (a := exp (- 8 * t)) in *. set (b := exp (- 9 * t)) in *.
  lazy -[Rmult Rminus Rplus IZR Ropp Rinv a b exp] in H.
  destruct i as [|[|[|i]]]; [| | |destruct i; discriminate]; apply (f_equal (fun o => match o with Some v => v | None => 0 end)) in H;
    cbv beta iota in H; subst y; cbn [nth].
  - apply (d_eq _ _ (/ 4 * (0 - - 8 * exp (- 8 * t)))); [fold a; lra|apply d_fill].
  - apply (d_eq _ _ (/ 15 * (0 - - 9 * exp (- 9 * t)))); [fold b; lra|apply d_fill].
  - apply (d_eq _ _ (/ 2 * (0 - - 8 * exp (- 8 * t)))); [fold a; lra|apply d_fill].
Qed.

Lemma compete_ads : ads compete_setup = [L "CO_s"; L "CO_t"; L "H2O_s"].
Proof. vm_compute. reflexivity. Qed.
Lemma compete_simple : simple_adsorbates compete_setup.
Proof.
  intros n Hn. split; [rewrite compete_ads in Hn; destruct Hn as [<-|[<-|[<-|[]]]]; reflexivity|]. intros fls Hf. split.
  - revert n fls Hn Hf. apply all_plain_ok. vm_compute. reflexivity.
  - apply counts_absent. rewrite compete_ads in Hn.
    assert (forallb (fun fls => forallb (fun n => forallb (fun st => Nat.eqb (countb n st) 0) (removelast (tl fls)))
      [L "CO_s"; L "CO_t"; L "H2O_s"]) (l_rxns (s_lists compete_setup)) = true) as Q by (vm_compute; reflexivity).
    rewrite forallb_forall in Q. specialize (Q fls Hf). rewrite forallb_forall in Q. exact (Q n Hn).
Qed.
Lemma filling_empty : filling 0 = [0; 0; 0].
Proof. unfold filling. rewrite !Rmult_0_r, exp_0, Rminus_diag_eq by reflexivity. now rewrite !Rmult_0_r. Qed.
Lemma filling_starts : feasible compete_setup (filling 0).
Proof.
  rewrite filling_empty. split; [reflexivity|]. split.
  - intros i n x Hn Hx.
    destruct i as [|[|[|[|i]]]]; try discriminate; cbn in Hx; injection Hx as <-;
      lazy -[Rle IZR Rinv] in Hn; injection Hn as <-; lazy -[Rle IZR Rinv]; lra.
  - intros site [<-|[<-|[]]]; lazy -[Rle IZR Rinv Rplus]; lra.
Qed.
Lemma compete_pressures : (forall g x, dget (s_pressure compete_setup) g = Some x -> 0 <= x) /\
  (forall l x, dget (s_conc compete_setup) l = Some x -> 0 <= x).
Proof.
  split; [|discriminate]. intros g x H. cbn in H.
  repeat match type of H with context [if ?b then _ else _] => destruct b end; injection H as <- || discriminate; lra.
Qed.

(** ** Leaving the physical range *)
Definition passes (t : R) : list R := [exp (- 1 * t); 1 - exp (- 1 * t); exp (- 1 * t) - 1].
Definition widens (t : R) : list R := [exp (- 1 * t); 2 * (1 - exp (- 1 * t))].

Lemma passes_solves T : solution passing_setup [0] [1] T passes.
Proof.
  intros t _. split; [reflexivity|].
  assert (ND : NoDup (s_exprs passing_setup)) by (apply NoDup_ok; vm_compute; reflexivity).
  destruct (explicit passing_setup passing_usable ND (passes t) [0] [1] eq_refl eq_refl eq_refl) as (data & E1 & _ & _ & E4 & _).
  exists data. eexists. split; [exact E1|]. split; [exact E4|].
  intros i y H. unfold passes. set (a := exp (- 1 * t)) in *. unfold passes in H. fold a in H.
  lazy -[Rmult Rminus Rplus IZR Ropp Rinv a exp] in H.
  destruct i as [|[|[|i]]]; [| | |destruct i; discriminate]; apply (f_equal (fun o => match o with Some v => v | None => 0 end)) in H;
    cbv beta iota in H; subst y; cbn [nth].
  - apply (d_eq _ _ (- 1 * exp (- 1 * t))); [fold a; lra|apply d_exp].
  - apply (d_eq _ _ (0 - - 1 * exp (- 1 * t))); [fold a; lra|]. apply d_minus; [apply d_const|apply d_exp].
  - apply (d_eq _ _ (- 1 * exp (- 1 * t) - 0)); [fold a; lra|]. apply d_minus; [apply d_exp|apply d_const].
Qed.

Lemma widens_solves T : solution wide_setup [1] [0] T widens.
Proof.
  intros t _. split; [reflexivity|].
  assert (ND : NoDup (s_exprs wide_setup)) by (apply NoDup_ok; vm_compute; reflexivity).
  destruct (explicit wide_setup wide_usable ND (widens t) [1] [0] eq_refl eq_refl eq_refl) as (data & E1 & _ & _ & E4 & _).
  exists data. eexists. split; [exact E1|]. split; [exact E4|].
  intros i y H. unfold widens. set (a := exp (- 1 * t)) in *. unfold widens in H. fold a in H.
  lazy -[Rmult Rminus Rplus IZR Ropp Rinv a exp] in H.
  destruct i as [|[|i]]; [| |destruct i; discriminate]; apply (f_equal (fun o => match o with Some v => v | None => 0 end)) in H;
    cbv beta iota in H; subst y; cbn [nth].
  - apply (d_eq _ _ (- 1 * exp (- 1 * t))); [fold a; lra|apply d_exp].
  - apply (d_eq _ _ (2 * (0 - - 1 * exp (- 1 * t)))); [fold a; lra|apply d_fill].
Qed.

Lemma exp_below t : 0 < t -> exp (- 1 * t) < 1.
Proof. intro H. rewrite <- exp_0. apply exp_increasing. lra. Qed.

Lemma transition_state_leaves : exists s kf kr th, usable_setup s /\ NoDup (s_exprs s) /\
  length kf = length (s_exprs s) /\ length kr = length (s_exprs s) /\ (forall k, In k kf \/ In k kr -> 0 <= k) /\
  (forall T, solution s kf kr T th) /\ nothing_negative s (th 0) /\
  (forall n, In n (ads s) -> leading_number (after_last_underscore n) = 1%Z) /\
  forall t, 0 < t -> exists i x, nth_error (th t) i = Some x /\ x < 0.
Proof.
  exists passing_setup, [0], [1], passes. split; [exact passing_usable|]. split; [apply NoDup_ok; vm_compute; reflexivity|].
  split; [reflexivity|]. split; [reflexivity|]. split; [intros k [[<-|[]]|[<-|[]]]; lra|]. split; [exact passes_solves|].
  split.
  { unfold passes. rewrite Rmult_0_r, exp_0, Rminus_diag_eq by reflexivity. split; [discriminate|]. split; [discriminate|]. split.
    - intros x [<-|[<-|[<-|[]]]]; lra.
    - intros site [<-|[]]. change (1 + (0 + (0 + 0)) <= 1). lra. }
  split; [rewrite passing_ads; intros n [<-|[<-|[<-|[]]]]; reflexivity|].
  intros t Ht. exists 2%nat. eexists. split; [reflexivity|]. pose proof (exp_below t Ht). lra.
Qed.

Lemma two_sites_leave : exists s kf kr th site, usable_setup s /\ NoDup (s_exprs s) /\
  length kf = length (s_exprs s) /\ length kr = length (s_exprs s) /\ (forall k, In k kf \/ In k kr -> 0 <= k) /\
  (forall T, solution s kf kr T th) /\ nothing_negative s (th 0) /\
  (forall n fls, In n (ads s) -> In fls (l_rxns (s_lists s)) -> plain_in n fls /\ absent n (removelast (tl fls))) /\
  In site (sites s) /\ forall t, 0 < t -> total s site < covered site (ads s) (th t).
Proof.
  exists wide_setup, [1], [0], widens, (L "*_s"). split; [exact wide_usable|]. split; [apply NoDup_ok; vm_compute; reflexivity|].
  split; [reflexivity|]. split; [reflexivity|]. split; [intros k [[<-|[]]|[<-|[]]]; lra|]. split; [exact widens_solves|].
  split.
  { unfold widens. rewrite Rmult_0_r, exp_0, Rminus_diag_eq by reflexivity. split; [discriminate|]. split; [discriminate|]. split.
    - intros x [<-|[<-|[]]]; lra.
    - intros site [<-|[]]. change (1 + (2 * 0 + 0) <= 1). lra. }
  split.
  { intros n fls Hn Hf. split; [now apply wide_plain|]. cbn in Hf. destruct Hf as [<-|[]]. intros st g []. }
  split; [now left|]. intros t Ht. pose proof (exp_below t Ht).
  change (1 < exp (- 1 * t) + (2 * (1 - exp (- 1 * t)) + 0)). lra.
Qed.
