(** Concrete mechanisms at work. *)
From Coq Require Import String Ascii List ZArith NArith Bool Arith Reals Lia Lra Permutation.
Import ListNotations.
From Verif Require Import PyBase PyBaseFacts Rxn_Model Rxn_Spec Species_Model Species_Spec
  PyReal Energy_Model Energy_Spec Thermo_Model Rate_Model Rate_Spec MF_Model MF_Spec MF_Cover MF_Rate MF_More MF_Witness
  Newton_Spec Steady_Model Steady_Spec Steady_Witness Whole_Spec Whole_Energy
  Whole_Rates Whole_Bound Whole_Order Whole_Witness Balance_Spec Balance_Proofs.
Local Open Scope list_scope.
Local Open Scope R_scope.

(** ** A search that stops near the equilibrium of dissociation *)
Definition near_search := ds_search 1 1 [] None [].
Lemma near_constrain : constrain_coverages ds_setup [5001 / 10000] = Ok [5001 / 10000].
Proof.
  destruct ds_usable as [P _].
  assert (T : forall site, In site (sites ds_setup) -> (0 <= total ds_setup site)%R).
  { intros site [<-|[]]. lazy -[IZR Rle]. lra. }
  assert (FE : feasible ds_setup [5001 / 10000]).
  { split; [reflexivity|]. split.
    - intros [|[|i]] n x E1 E2; cbn in E2; try discriminate. injection E2 as <-.
      cbn in E1. injection E1 as <-. unfold total. cbn -[IZR]. lra.
    - intros site [<-|[]]. unfold total. cbn -[IZR]. lra. }
  exact (feasible_unchanged ds_setup P T [5001 / 10000] FE).
Qed.
Lemma near_returned : exists a st, get_steady_state_cvgs near_search 1 (Some [5001 / 10000]) = (Ok (Some a), st) /\
  a_coverages a = Some [5001 / 10000].
Proof.
  eexists _, _. split.
  - unfold get_steady_state_cvgs. cbn [q_constrain near_search ds_search]. rewrite near_constrain.
    lazy -[Rltb Rleb ds_rate get_residual constrain_coverages ds_setup Rabs Rmult Rminus Rplus IZR Rinv Rsum Rmin Rdiv].
    rewrite ds_residual. 
    lazy -[Rltb Rleb ds_rate get_residual constrain_coverages ds_setup Rabs Rmult Rminus Rplus IZR Rinv Rsum Rmin Rdiv].
    rewrite (Rleb_yes _ (/ 1000)).
    2:{ rewrite Rabs_left1; lra. }
    lazy -[Rltb Rleb ds_rate get_residual constrain_coverages ds_setup Rabs Rmult Rminus Rplus IZR Rinv Rsum Rmin Rdiv].
    reflexivity.
  - reflexivity.
Qed.

(** ** A catalyst that turns CO_g into OC_g *)
Definition flow : list str := [L "CO_g + *_s -> CO_s"; L "CO_s -> OC_g + *_s"].
Definition flow_lists : lists := Eval vm_compute in lists_of flow.
Definition flow_setup : setup := setup_of flow flow_lists [(L "*_s", one)] [(L "CO_g", 1); (L "OC_g", 1)] [].
Lemma flow_usable : usable_setup flow_setup.
Proof. apply usable_setup_ok; vm_compute; reflexivity. Qed.
Lemma flow_distinct : NoDup (s_exprs flow_setup).
Proof. apply NoDup_ok. vm_compute. reflexivity. Qed.
Lemma flow_plain : forall name fls, In name (ads flow_setup) -> In fls (l_rxns (s_lists flow_setup)) -> plain_in name fls.
Proof. apply all_plain_ok. vm_compute. reflexivity. Qed.
Definition flow_table : dict R := [(L "CO_g", 0); (L "*_s", 0); (L "CO_s", 0); (L "OC_g", -1)].
Definition flow_relative : rel_energies := {| r_Gaf := [0; 0]; r_Gar := [0; 1]; r_dG := [0; -1] |}.
Lemma flow_energies : relative_from_absolute true flow_table flow = Ok flow_relative.
Proof.
  lazy -[Rmult Rminus Rplus IZR Rmax]. unfold flow_relative.
  assert (Q : forall a b c d e f a' b' c' d' e' f', a = a' -> b = b' -> c = c' -> d = d' -> e = e' -> f = f' ->
    Ok {| r_Gaf := [a; b]; r_Gar := [c; d]; r_dG := [e; f] |} = Ok {| r_Gaf := [a'; b']; r_Gar := [c'; d']; r_dG := [e'; f'] |}) by congruence.
  apply Q; try ring.
  all: rewrite ?Rmax_left, ?Rmax_right by lra; try lra.
Qed.
Definition flow_owner : owner :=
  {| o_T := 500; o_pressures := []; o_rxns := flow; o_rxns_list := []; o_Auc := 1; o_act_ratio := 1; o_corrector_str := false |}.

Lemma flow_present t : 0 < t < 1 -> all_present flow_setup [t].
Proof.
  intros Ht st f (fls & H1 & H2) H3.
  cbn in H1. destruct H1 as [<-|[<-|[]]]; (destruct H2 as [->| ->]); cbn in H3;
    repeat (destruct H3 as [<-|H3]; [lazy -[Rmult Rminus Rplus IZR Rlt]; lra|]); destruct H3.
Qed.

(** The rate constants, up to the common factor, and the steady state. *)
Definition slow : R := exp (- 1 / kT 500).
Lemma slow_pos : 0 < slow.
Proof. apply exp_pos. Qed.
Lemma flow_constants ec own : rate_constants ec flow_owner (L "TST") (Some flow_relative) own
  = Ok ([frequency 500; frequency 500], [frequency 500; frequency 500 * slow]).
Proof.
  destruct (rate_constants_TST ec flow_owner (Some flow_relative) own flow_relative) as (kf & kr & E & L1 & L2 & V).
  - cbn. lra.
  - reflexivity.
  - intros e [<-|[<-|[]]]; [exists 0, 0, 0; exists 0%nat|exists 0, 1, (-1); exists 1%nat];
      (split; [reflexivity|]); (split; [|repeat split]); intros [|j] Hj; try lia. discriminate.
  - rewrite E. f_equal. cbn in L1, L2. destruct kf as [|k1 [|k2 [|]]]; try discriminate. destruct kr as [|r1 [|r2 [|]]]; try discriminate.
    destruct (V 0%nat _ 0 0 0 eq_refl) as [V1 V2]; [exists 0%nat; split; [reflexivity|]; split; [intros; lia|repeat split]|].
    destruct (V 1%nat _ 0 1 (-1) eq_refl) as [V3 V4]; [exists 1%nat; split; [reflexivity|]; split; [intros [|j] Hj; try lia; discriminate|repeat split]|].
    cbn in V1, V2, V3, V4. injection V1 as ->. injection V2 as ->. injection V3 as ->. injection V4 as ->.
    change (o_T flow_owner) with 500. unfold slow.
    assert (exp (- 0 / kT 500) = 1) as -> by (unfold Rdiv; rewrite Ropp_0, Rmult_0_l; apply exp_0). rewrite !Rmult_1_r. reflexivity.
Qed.
Definition flow_cover : R := (1 + slow) / (3 + slow).
Lemma flow_cover_range : 0 < flow_cover < 1.
Proof.
  pose proof slow_pos. unfold flow_cover. split; [apply Rdiv_lt_0_compat; lra|].
  apply (Rmult_lt_reg_r (3 + slow)); [lra|]. unfold Rdiv. rewrite Rmult_assoc, Rinv_l; lra.
Qed.
Lemma flow_works ec own : exists data kf kr,
  get_data flow_setup = Ok data /\ rate_constants ec flow_owner (L "TST") (Some flow_relative) own = Ok (kf, kr) /\
  steady_state_function flow_setup (Ok (kf, kr)) (Some data) [flow_cover] = Ok [0] /\
  exists a b, tofs flow_setup (Ok (kf, kr)) (Some data) [flow_cover] = Ok [a; b] /\ a < 0 /\ b = - a.
Proof.
  destruct (explicit flow_setup flow_usable flow_distinct [flow_cover] [frequency 500; frequency 500] [frequency 500; frequency 500 * slow] eq_refl eq_refl eq_refl)
    as (data & E1 & _ & _ & E4 & E5).
  exists data. do 2 eexists. split; [exact E1|]. split; [apply flow_constants|].
  pose proof slow_pos as Ps.
  assert (Pf : 0 < frequency 500).
  { unfold frequency, kT, kB_eV, h_eV. apply Rdiv_lt_0_compat; [apply Rmult_lt_0_compat|]; lra. }
  split.
  - rewrite E4. assert (Z : forall x, x = 0 -> Ok [x] = Ok [0]) by congruence.
    lazy -[Rmult Rminus Rplus IZR Ropp frequency slow flow_cover]. apply Z. unfold flow_cover. field. lra.
  - rewrite E5. do 2 eexists. split; [lazy -[Rmult Rminus Rplus IZR Ropp frequency slow flow_cover]; reflexivity|].
    assert (S : slow < 1).
    { unfold slow. rewrite <- exp_0. apply exp_increasing. pose proof (kT_pos 500 ltac:(lra)) as K.
      assert (0 < / kT 500) by now apply Rinv_0_lt_compat. unfold Rdiv. lra. }
    set (nu := frequency 500) in *. clearbody nu.
    assert (E : 1 - (flow_cover + 0) - flow_cover = (1 - slow) / (3 + slow)) by (unfold flow_cover; field; lra).
    assert (Pq : 0 < (1 - slow) / (3 + slow)) by (apply Rdiv_lt_0_compat; lra).
    split.
    + match goal with |- ?x < 0 => replace x with (- (nu * ((1 - slow) / (3 + slow)))); [|rewrite <- E; ring] end.
      assert (0 < nu * ((1 - slow) / (3 + slow))) by now apply Rmult_lt_0_compat. lra.
    + unfold flow_cover. field. lra.
Qed.

(** ** Energies that do not close a cycle *)
Definition tw_lists : lists := Eval vm_compute in lists_of two_writings.
Definition tw_setup : setup := setup_of two_writings tw_lists [(L "*_s", one)] [(L "CO_g", 1)] [].
Lemma tw_usable : usable_setup tw_setup.
Proof. apply usable_setup_ok; vm_compute; reflexivity. Qed.
Lemma tw_distinct : NoDup (s_exprs tw_setup).
Proof. apply NoDup_ok. vm_compute. reflexivity. Qed.
Lemma tw_plain : forall name fls, In name (ads tw_setup) -> In fls (l_rxns (s_lists tw_setup)) -> plain_in name fls.
Proof. apply all_plain_ok. vm_compute. reflexivity. Qed.
Lemma tw_present t : 0 < t < 1 -> all_present tw_setup [t].
Proof.
  intros Ht st f (fls & H1 & H2) H3.
  cbn in H1. destruct H1 as [<-|[<-|[]]]; (destruct H2 as [->| ->]); cbn in H3;
    repeat (destruct H3 as [<-|H3]; [lazy -[Rmult Rminus Rplus IZR Rlt]; lra|]); destruct H3.
Qed.
Definition tw_relative : rel_energies := {| r_Gaf := [5; 5]; r_Gar := [4; 3]; r_dG := [1; 2] |}.
Lemma tw_consistent : consistent tw_relative 2.
Proof.
  split; [repeat split|]. intros i a b c (H1 & H2 & H3). destruct i as [|[|[|i]]]; try discriminate;
    injection H1 as <-; injection H2 as <-; injection H3 as <-; lra.
Qed.
Definition tw_owner : owner :=
  {| o_T := 500; o_pressures := []; o_rxns := two_writings; o_rxns_list := []; o_Auc := 1; o_act_ratio := 1; o_corrector_str := false |}.

(** A wheel that turns for ever: nothing is consumed or produced. *)
Lemma wheel_turns ec own : exists cvgs data kf kr nets F tof,
  length cvgs = length (ads tw_setup) /\ all_present tw_setup cvgs /\ get_data tw_setup = Ok data /\
  rate_constants ec tw_owner (L "TST") (Some tw_relative) own = Ok (kf, kr) /\
  net_rates tw_setup (Ok (kf, kr)) (Some data) cvgs = Ok nets /\
  steady_state_function tw_setup (Ok (kf, kr)) (Some data) cvgs = Ok F /\ (forall y, In y F -> y = 0) /\
  tofs tw_setup (Ok (kf, kr)) (Some data) cvgs = Ok tof /\ (forall y, In y tof -> y = 0) /\
  exists y, In y nets /\ y <> 0.
Proof.
  destruct (rate_constants_TST ec tw_owner (Some tw_relative) own tw_relative) as (kf & kr & E & L1 & L2 & V).
  { cbn. lra. } { reflexivity. }
  { intros e [<-|[<-|[]]]; [exists 5, 4, 1; exists 0%nat|exists 5, 3, 2; exists 1%nat];
      (split; [reflexivity|]); (split; [|repeat split]); intros [|j] Hj; try lia. discriminate. }
  cbn in L1, L2. destruct kf as [|k1 [|k2 [|]]]; try discriminate. destruct kr as [|r1 [|r2 [|]]]; try discriminate.
  destruct (V 0%nat _ 5 4 1 eq_refl) as [V1 V2]; [exists 0%nat; split; [reflexivity|]; split; [intros; lia|repeat split]|].
  destruct (V 1%nat _ 5 3 2 eq_refl) as [V3 V4]; [exists 1%nat; split; [reflexivity|]; split; [intros [|j] Hj; try lia; discriminate|repeat split]|].
  cbn [nth_error] in V1, V2, V3, V4. apply (f_equal (fun o => match o with Some x => x | None => 0 end)) in V1, V2, V3, V4.
  change (o_T tw_owner) with 500 in *. clear V L1 L2.
  assert (Pf : 0 < frequency 500).
  { unfold frequency, kT, kB_eV, h_eV. apply Rdiv_lt_0_compat; [apply Rmult_lt_0_compat|]; lra. }
  assert (Ek : k2 = k1) by congruence. clear V3. subst k2.
  assert (P1 : 0 < k1) by (rewrite V1; apply Rmult_lt_0_compat; auto; apply exp_pos).
  assert (P2 : 0 < r1) by (rewrite V2; apply Rmult_lt_0_compat; auto; apply exp_pos).
  assert (P3 : r1 < r2).
  { rewrite V2, V4. apply Rmult_lt_compat_l; auto. apply exp_increasing. pose proof (kT_pos 500 ltac:(lra)) as K.
    assert (0 < / kT 500) by now apply Rinv_0_lt_compat. unfold Rdiv. lra. }
  clear V1 V2 V4. set (t := 2 * k1 / (2 * k1 + r1 + r2)).
  assert (Ht : 0 < t < 1).
  { unfold t. split; [apply Rdiv_lt_0_compat; lra|]. apply (Rmult_lt_reg_r (2 * k1 + r1 + r2)); [lra|].
    unfold Rdiv. rewrite Rmult_assoc, Rinv_l; lra. }
  destruct (explicit tw_setup tw_usable tw_distinct [t] [k1; k1] [r1; r2] eq_refl eq_refl eq_refl)
    as (data & E1 & _ & E3 & E4 & E5).
  exists [t], data. do 5 eexists. split; [reflexivity|]. split; [now apply tw_present|]. split; [exact E1|]. split; [exact E|].
  split; [exact E3|]. split; [exact E4|]. split; [|split; [exact E5|split]].
  - lazy -[Rmult Rminus Rplus IZR Ropp t]. intros y [<-|[]]. unfold t. field. lra.
  - lazy -[Rmult Rminus Rplus IZR Ropp t]. intros y [<-|[]]. unfold t. field. lra.
  - eexists. split; [lazy -[Rmult Rminus Rplus IZR Ropp t]; left; reflexivity|].
    match goal with |- ?x <> 0 => replace x with (k1 * (r2 - r1) / (2 * k1 + r1 + r2)); [|unfold t; field; lra] end.
    assert (0 < k1 * (r2 - r1) / (2 * k1 + r1 + r2)); [|lra].
    apply Rdiv_lt_0_compat; [apply Rmult_lt_0_compat|]; lra.
Qed.

(** ** An adsorbate on both sides *)
Definition auto : list str := [L "CO_g + CO_s + *_s -> 2CO_s"; L "CO_s -> CO_g + *_s"].
Definition auto_lists : lists := Eval vm_compute in lists_of auto.
Definition auto_setup : setup := setup_of auto auto_lists [(L "*_s", one)] [(L "CO_g", 1)] [].
Lemma auto_usable : usable_setup auto_setup.
Proof. apply usable_setup_ok; vm_compute; reflexivity. Qed.
Lemma auto_distinct : NoDup (s_exprs auto_setup).
Proof. apply NoDup_ok. vm_compute. reflexivity. Qed.
Definition auto_rate (x : list R) : res (list R) :=
  match get_data auto_setup with
  | Ok d => steady_state_function auto_setup (Ok ([5; 1], [1; 3])) (Some d) x
  | Err e => Err e
  end.
Definition auto_search : search unit :=
  {| q_f := auto_rate; q_f0 := auto_rate; q_norm := fun v => Ok (Rsum (map Rabs v));
     q_constrain := constrain_coverages auto_setup; q_rootfinding := L "ConstrainedNewton";
     q_constrained := fun _ => tt; q_damped := fun _ => tt;
     q_next := fun it => Ok (None, it);
     q_hybrid := None; q_tolerance := (/ 1000)%R; q_max := 1;
     q_single_pt := false; q_intervals := []; q_call := fun _ _ => None |}.
Lemma auto_constrain : constrain_coverages auto_setup [/ 2] = Ok [/ 2].
Proof.
  destruct auto_usable as [P _].
  assert (T : forall site, In site (sites auto_setup) -> (0 <= total auto_setup site)%R).
  { intros site [<-|[]]. lazy -[IZR Rle]. lra. }
  assert (FE : feasible auto_setup [/ 2]).
  { split; [reflexivity|]. split.
    - intros [|[|i]] n x E1 E2; cbn in E2; try discriminate. injection E2 as <-.
      cbn in E1. injection E1 as <-. unfold total. cbn -[IZR]. lra.
    - intros site [<-|[]]. unfold total. cbn -[IZR]. lra. }
  exact (feasible_unchanged auto_setup P T [/ 2] FE).
Qed.
Lemma auto_steady : exists data, get_data auto_setup = Ok data /\ auto_rate [/ 2] = Ok [0] /\
  tofs auto_setup (Ok ([5; 1], [1; 3])) (Some data) [/ 2] = Ok [-2].
Proof.
  destruct (explicit auto_setup auto_usable auto_distinct [/ 2] [5; 1] [1; 3] eq_refl eq_refl eq_refl)
    as (data & E1 & _ & _ & E4 & E5).
  exists data. split; [exact E1|]. unfold auto_rate. rewrite E1, E4, E5.
  assert (Z : forall x y : R, x = y -> Ok [x] = Ok [y]) by congruence.
  split; lazy -[Rmult Rminus Rplus IZR Ropp Rinv]; apply Z; lra.
Qed.
Lemma auto_returned : exists a st, get_steady_state_cvgs auto_search 1 (Some [/ 2]) = (Ok (Some a), st) /\
  a_coverages a = Some [/ 2].
Proof.
  destruct auto_steady as (data & _ & E & _).
  assert (Rz : get_residual auto_rate [/ 2] = Ok (Rabs 0)) by (unfold get_residual; rewrite E; reflexivity).
  eexists _, _. split.
  - unfold get_steady_state_cvgs. cbn [q_constrain auto_search]. rewrite auto_constrain.
    lazy -[Rltb Rleb auto_rate get_residual constrain_coverages auto_setup Rabs Rmult Rminus Rplus IZR Rinv Rsum Rmin Rdiv].
    rewrite Rz.
    lazy -[Rltb Rleb auto_rate get_residual constrain_coverages auto_setup Rabs Rmult Rminus Rplus IZR Rinv Rsum Rmin Rdiv].
    rewrite (Rleb_yes _ (/ 1000)).
    2:{ rewrite Rabs_R0; lra. }
    lazy -[Rltb Rleb auto_rate get_residual constrain_coverages auto_setup Rabs Rmult Rminus Rplus IZR Rinv Rsum Rmin Rdiv].
    reflexivity.
  - reflexivity.
Qed.
Lemma auto_lost : Rabs (weighted_sum (name_atoms "C") (outside auto_setup) [-2]) = 2.
Proof.
  lazy -[Rmult Rminus Rplus IZR Ropp Rabs]. rewrite Rabs_left1; lra.
Qed.
Lemma auto_atoms : atoms_adsorbed auto_setup "C" = 1.
Proof. lazy -[IZR]. reflexivity. Qed.

Lemma vanishing : exists I (q : search I) s kf kr data fuel c0 a st cvgs tof x,
  usable_setup s /\ NoDup (s_exprs s) /\ get_data s = Ok data /\
  (forall c, q_f q c = steady_state_function s (Ok (kf, kr)) (Some data) c) /\
  get_steady_state_cvgs q fuel (Some c0) = (Ok (Some a), st) /\ feasible s c0 /\
  a_coverages a = Some cvgs /\ steady_state_function s (Ok (kf, kr)) (Some data) cvgs = Ok [0] /\
  tofs s (Ok (kf, kr)) (Some data) cvgs = Ok tof /\
  q_tolerance q * atoms_adsorbed s x < Rabs (weighted_sum (name_atoms x) (outside s) tof).
Proof.
  destruct auto_steady as (data & D & E & T). destruct auto_returned as (a & st & G & A).
  exists unit, auto_search, auto_setup, [5; 1], [1; 3], data, 1%nat, [/ 2], a, st, [/ 2], [-2], "C"%char.
  split; [exact auto_usable|]. split; [exact auto_distinct|]. split; [exact D|].
  split; [intro c; cbn [q_f auto_search]; unfold auto_rate; now rewrite D|]. split; [exact G|].
  split.
  { split; [reflexivity|]. split.
    - intros [|[|i]] n x E1 E2; cbn in E2; try discriminate. injection E2 as <-.
      cbn in E1. injection E1 as <-. unfold total. cbn -[IZR]. lra.
    - intros site [<-|[]]. unfold total. cbn -[IZR]. lra. }
  split; [exact A|]. split; [unfold auto_rate in E; now rewrite D in E|]. split; [exact T|].
  rewrite auto_lost, auto_atoms. cbn [q_tolerance auto_search]. lra.
Qed.
