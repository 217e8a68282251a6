(** Lemmas: the sum of the degrees of rate control tends to one with the perturbation (C118). *)
From Coq Require Import String Ascii List ZArith Bool Arith Reals Lra.
Import ListNotations.
From Verif Require Import PyBase Rxn_Model Rxn_Spec Species_Model Species_Spec PyReal Energy_Model Energy_Spec Thermo_Model
  Rate_Model Rate_Spec Rate_Proofs MF_Model MF_Spec MF_Witness Whole_Rates Hop_Spec Xrc_Model Xrc_Spec Control_Spec Control_Proofs Control_Xrc
  Control_Witness.
Local Open Scope list_scope.
Local Open Scope R_scope.

Lemma exp_near c d : 0 < c -> 0 < d -> exists e, 0 < e /\ forall x, Rabs x < e -> Rabs (exp (- x / c) - 1) < d.
Proof.
  intros Hc Hd. destruct (derivable_continuous_pt exp 0 (derivable_pt_exp 0) d Hd) as (a & Ha & H).
  exists (a * c). split; [apply Rmult_lt_0_compat; assumption|]. intros x Hx.
  destruct (Req_dec x 0) as [->|N].
  - replace (- 0 / c) with 0 by (field; lra). rewrite exp_0, Rminus_diag_eq, Rabs_R0 by reflexivity. exact Hd.
  - specialize (H (- x / c)). unfold dist, R_met, R_dist in H. cbn in H. rewrite exp_0 in H. apply H. split.
    + split; [exact I|]. intro E. apply N. symmetry in E. apply (f_equal (fun y => y * c)) in E.
      unfold Rdiv in E. rewrite Rmult_assoc, Rinv_l in E by lra. lra.
    + rewrite Rminus_0_r. unfold Rdiv. rewrite Rabs_mult, Rabs_Ropp, Rabs_inv, (Rabs_right c) by lra.
      apply Rmult_lt_reg_r with c; [exact Hc|]. rewrite Rmult_assoc, Rinv_l by lra. lra.
Qed.

Lemma limit_rule : forall ec o own s l r, usable_setup s -> only_hops s l -> linked s l -> supplied (Rlt 0) s ->
  (forall site, In site (sites s) -> 0 <= total s site <= 1) ->
  o_rxns o = s_exprs s -> 0 < o_T o -> entries r (length (s_exprs s)) -> forall g,
  exists kf kr, rate_constants ec o (L "TST") (Some r) own = Ok (kf, kr) /\
    forall r0 d, 0 < r0 -> 0 < d -> exists eps0, 0 < eps0 /\
    forall (W : Type) (q : tools W) data gas given h w e guess rate eps xs h' w',
      let d0 := match given with Some d => d | None => t_own q end in
      get_data s = Ok data -> exact_tools ec o own s data gas g q ->
      NoDup (map fst d0) -> separate d0 -> view h d0 = Ok e -> has_energies e r ->
      t_stored q w = Some guess -> at_rest s kf kr data guess -> turns s kf kr data guess g rate -> r0 <= Rabs rate ->
      0 < Rabs eps < eps0 -> single_xrc q gas (Some eps) given h w = (Ok xs, h', w') ->
      exists ys, xs = map Num ys /\ Rabs (Rsum ys - 1) <= d.
Proof.
  intros ec o own s l r U OH LK SU TO RX PT EN g.
  destruct (computed_rule ec o own s l r U OH LK SU TO RX PT EN g) as (K & kf & kr & HK & RC & H).
  exists kf, kr. split; [exact RC|]. intros r0 d Hr Hd.
  assert (PK : 0 < kT (o_T o)) by (apply kT_pos; exact PT).
  destruct (exp_near (kT (o_T o)) (d * r0 / (K + 1)) PK) as (e0 & He0 & HE).
  { apply Rdiv_lt_0_compat; [apply Rmult_lt_0_compat; assumption|lra]. }
  exists e0. split; [exact He0|].
  intros W q data gas given h w e guess rate eps xs h' w' d0 GD ET ND SE VW HE' ST AR TU RR [E1 E2] SX.
  assert (NR : rate <> 0) by (intros ->; rewrite Rabs_R0 in RR; lra).
  assert (NE : eps <> 0) by (intros ->; rewrite Rabs_R0 in E1; lra).
  destruct (H W q data gas given h w e guess rate eps xs h' w' GD ET ND SE VW HE' ST AR TU NR NE SX) as (ys & EX & B).
  exists ys. split; [exact EX|]. eapply Rle_trans; [exact B|].
  specialize (HE eps E2). set (x := Rabs (exp (- eps / kT (o_T o)) - 1)) in *.
  assert (0 <= x) by apply Rabs_pos.
  apply Rle_trans with (K / r0 * x).
  - apply Rmult_le_compat_r; [assumption|]. unfold Rdiv. apply Rmult_le_compat_l; [assumption|].
    apply Rinv_le_contravar; assumption.
  - apply Rle_trans with (K / r0 * (d * r0 / (K + 1))).
    + apply Rmult_le_compat_l; [|lra]. unfold Rdiv. apply Rmult_le_pos; [assumption|].
      left. now apply Rinv_0_lt_compat.
    + replace (K / r0 * (d * r0 / (K + 1))) with (d - d / (K + 1)) by (field; lra).
      assert (0 < d / (K + 1)) by (apply Rdiv_lt_0_compat; lra). lra.
Qed.

Lemma exp_off c x : 0 < c -> x <> 0 -> 0 < Rabs (exp (- x / c) - 1).
Proof.
  intros Hc N. apply Rabs_pos_lt. intro E. apply N. assert (E1 : exp (- x / c) = exp 0) by (rewrite exp_0; lra).
  apply exp_inv in E1. apply (f_equal (fun y => y * c)) in E1.
  unfold Rdiv in E1. rewrite Rmult_assoc, Rinv_l in E1 by lra. lra.
Qed.

Lemma rough_limit : forall ec o own s l r, usable_setup s -> only_hops s l -> linked s l -> supplied (Rlt 0) s ->
  (forall site, In site (sites s) -> 0 <= total s site <= 1) ->
  o_rxns o = s_exprs s -> 0 < o_T o -> entries r (length (s_exprs s)) -> forall g,
  exists kf kr, rate_constants ec o (L "TST") (Some r) own = Ok (kf, kr) /\
    forall r0 d, 0 < r0 -> 0 < d -> exists eps0, 0 < eps0 /\
    forall eps, 0 < Rabs eps < eps0 -> exists tol0, 0 < tol0 /\
    forall (W : Type) (q : tools W) data gas given h w e guess rate tol xs h' w',
      let d0 := match given with Some d => d | None => t_own q end in
      get_data s = Ok data -> 0 <= tol <= tol0 -> rough_tools ec o own s data gas g tol q ->
      NoDup (map fst d0) -> separate d0 -> view h d0 = Ok e -> has_energies e r ->
      t_stored q w = Some guess -> near_rest s kf kr data tol guess -> turns s kf kr data guess g rate -> r0 <= Rabs rate ->
      single_xrc q gas (Some eps) given h w = (Ok xs, h', w') ->
      exists ys, xs = map Num ys /\ Rabs (Rsum ys - 1) <= d.
Proof.
  intros ec o own s l r U OH LK SU TO RX PT EN g.
  destruct (rough_rule ec o own s l r U OH LK SU TO RX PT EN g) as (K & kf & kr & HK & RC & H).
  exists kf, kr. split; [exact RC|]. intros r0 d Hr Hd.
  assert (PK : 0 < kT (o_T o)) by (apply kT_pos; exact PT).
  set (b := d * r0 / (K + 1) / 2).
  assert (Hb : 0 < b).
  { unfold b. apply Rdiv_lt_0_compat; [|lra]. apply Rdiv_lt_0_compat; [apply Rmult_lt_0_compat; assumption|lra]. }
  destruct (exp_near (kT (o_T o)) b PK Hb) as (e0 & He0 & HE).
  exists e0. split; [exact He0|]. intros eps [E1 E2].
  assert (NE : eps <> 0) by (intros ->; rewrite Rabs_R0 in E1; lra).
  pose proof (exp_off _ eps PK NE) as Hf. specialize (HE eps E2).
  set (f := Rabs (exp (- eps / kT (o_T o)) - 1)) in *.
  assert (Hi : 0 < 1 + / f) by (pose proof (Rinv_0_lt_compat _ Hf); lra).
  exists (b / (1 + / f)). split; [now apply Rdiv_lt_0_compat|].
  intros W q data gas given h w e guess rate tol xs h' w' d0 GD [Ht0 Ht] RT ND SE VW HE' ST NR TU RR SX.
  assert (NZ : rate <> 0) by (intros ->; rewrite Rabs_R0 in RR; lra).
  destruct (H W q data gas given h w e guess rate eps tol xs h' w' GD Ht0 RT ND SE VW HE' ST NR TU NZ NE SX) as (ys & EX & B).
  exists ys. split; [exact EX|]. eapply Rle_trans; [exact B|]. fold f.
  assert (Hx : tol * (1 + / f) <= b).
  { apply Rle_trans with (b / (1 + / f) * (1 + / f)); [apply Rmult_le_compat_r; lra|].
    unfold Rdiv. rewrite Rmult_assoc, Rinv_l by lra. lra. }
  assert (H0 : 0 <= tol * (1 + / f)) by (apply Rmult_le_pos; lra).
  apply Rle_trans with (K / r0 * (f + tol * (1 + / f))).
  - apply Rmult_le_compat_r; [lra|]. unfold Rdiv. apply Rmult_le_compat_l; [assumption|].
    apply Rinv_le_contravar; assumption.
  - apply Rle_trans with (K / r0 * (2 * b)).
    + apply Rmult_le_compat_l; [|lra]. unfold Rdiv. apply Rmult_le_pos; [assumption|].
      left. now apply Rinv_0_lt_compat.
    + replace (K / r0 * (2 * b)) with (d - d / (K + 1)) by (unfold b; field; lra).
      assert (0 < d / (K + 1)) by (apply Rdiv_lt_0_compat; lra). lra.
Qed.
