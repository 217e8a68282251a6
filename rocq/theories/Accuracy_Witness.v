(** A search among slow steps that is content with any guess. *)
From Coq Require Import String Ascii List ZArith NArith Bool Arith Reals Relations Lia Lra.
Import ListNotations.
From Verif Require Import PyBase PyBaseFacts Rxn_Model Rxn_Spec Species_Model Species_Spec PyReal MF_Model MF_Spec MF_Cover MF_More MF_Witness
  Whole_Rates Hop_Spec Newton_Model Steady_Model Steady_Spec Steady_Witness Control_Witness Accuracy_Spec Accuracy_Proofs.
Local Open Scope list_scope.
Local Open Scope R_scope.

Definition slow_rate (k : R) (x : list R) : res (list R) :=
  steady_state_function pump_setup (Ok ([k; k], [k; k])) (Some pump_data) x.
Lemma slow_rate_is k t : slow_rate k [t] = Ok [k * (4 - 6 * t)].
Proof.
  destruct (explicit pump_setup pump_usable (proj2 pump_only) [t] [k; k] [k; k] eq_refl eq_refl eq_refl)
    as (data & E1 & _ & _ & E4 & _).
  rewrite pump_data_ok in E1. injection E1 as <-. unfold slow_rate. rewrite E4.
  assert (Q : forall y z : R, y = z -> Ok [y] = Ok [z]) by (intros; congruence).
  lazy -[Rmult Rminus Rplus IZR Ropp Rinv pump_data]. apply Q. ring.
Qed.
Lemma slow_residual k t : get_residual (slow_rate k) [t] = Ok (Rabs (k * (4 - 6 * t))).
Proof. unfold get_residual. rewrite slow_rate_is. reflexivity. Qed.
Lemma pump_feasible0 : feasible pump_setup [0].
Proof.
  split; [reflexivity|]. split.
  - intros [|[|i]] n x E1 E2; cbn in E2; try discriminate. injection E2 as <-.
    cbn in E1. injection E1 as <-. lazy -[IZR Rle]. lra.
  - intros site H. vm_compute in H. destruct H as [<-|[]]. lazy -[IZR Rle Rplus]. lra.
Qed.
Lemma pump_constrain0 : constrain_coverages pump_setup [0] = Ok [0].
Proof.
  destruct pump_usable as [P _]. refine (feasible_unchanged pump_setup P _ [0] pump_feasible0).
  intros site H. now destruct (pump_total site H).
Qed.

Definition slow_search (tol : R) : search (list (list R * R * list R)) :=
  {| q_f := slow_rate (tol / 4); q_f0 := slow_rate (tol / 4); q_norm := fun v => Ok (Rsum (map Rabs v));
     q_constrain := constrain_coverages pump_setup; q_rootfinding := L "ConstrainedNewton";
     q_constrained := fun _ => []; q_damped := fun _ => [];
     q_next := fun it => match it with [] => Ok (None, []) | i :: t => Ok (Some i, t) end;
     q_hybrid := None; q_tolerance := tol; q_max := 1;
     q_single_pt := false; q_intervals := []; q_call := fun _ _ => None |}.
Lemma slow_returned tol : 0 < tol -> exists a st, get_steady_state_cvgs (slow_search tol) 1 (Some [0]) = (Ok (Some a), st) /\
  a_coverages a = Some [0].
Proof.
  intro Ht. eexists _, _. split.
  - unfold get_steady_state_cvgs. cbn [q_constrain slow_search]. rewrite pump_constrain0.
    lazy -[Rltb Rleb slow_rate get_residual Rabs Rmult Rminus Rplus IZR Rinv Rdiv Rsum Rmin]. rewrite !slow_residual.
    rewrite (Rleb_yes _ tol) by (rewrite Rabs_pos_eq; lra).
    lazy -[Rltb Rleb slow_rate get_residual Rabs Rmult Rminus Rplus IZR Rinv Rdiv Rsum Rmin]. try rewrite !slow_residual; try rewrite !slow_rate_is.
    lazy -[Rltb Rleb slow_rate get_residual Rabs Rmult Rminus Rplus IZR Rinv Rdiv Rsum Rmin]. reflexivity.
  - reflexivity.
Qed.

(** Whatever the tolerance, there are constants for which the answer is far off. *)
Lemma far_answer : forall tol, 0 < tol -> exists s l kf kr data c0 I (q : search I) a st x,
  usable_setup s /\ only_hops s l /\ linked s l /\ supplied (Rlt 0) s /\
  (forall site, In site (sites s) -> 0 <= total s site <= 1) /\
  length kf = length (s_exprs s) /\ length kr = length (s_exprs s) /\
  (forall k, In k kf -> 0 < k) /\ (forall k, In k kr -> 0 < k) /\
  get_data s = Ok data /\ steady_within s kf kr data 0 c0 /\
  q_f q = steady_state_function s (Ok (kf, kr)) (Some data) /\ q_tolerance q = tol /\
  get_steady_state_cvgs q 1 (Some x) = (Ok (Some a), st) /\ a_coverages a = Some x /\ feasible s x /\
  ~ close (1 / 2) x c0.
Proof.
  intros tol Ht. destruct (slow_returned tol Ht) as (a & st & S & A).
  exists pump_setup, pump_steps, [tol / 4; tol / 4], [tol / 4; tol / 4], pump_data, [2 / 3], _, (slow_search tol), a, st, [0].
  split; [exact pump_usable|]. split; [exact pump_only|]. split; [exact pump_linked|]. split; [exact pump_supplied|].
  split; [exact pump_total|]. split; [reflexivity|]. split; [reflexivity|].
  split; [intros k [<-|[<-|[]]]; lra|]. split; [intros k [<-|[<-|[]]]; lra|]. split; [exact pump_data_ok|]. split.
  - split; [reflexivity|]. eexists. split; [apply slow_rate_is|]. intros y [<-|[]].
    replace (tol / 4 * (4 - 6 * (2 / 3))) with 0 by field. rewrite Rabs_R0. lra.
  - split; [reflexivity|]. split; [reflexivity|]. split; [exact S|]. split; [exact A|]. split; [exact pump_feasible0|].
    intros [_ H]. specialize (H 0%nat 0 (2 / 3) eq_refl eq_refl). rewrite Rabs_left in H; lra.
Qed.
