(** Lemmas: rates at the coverages that a search returns (C119). *)
From Coq Require Import String Ascii List ZArith Bool Arith Reals Lra.
Import ListNotations.
From Verif Require Import PyBase Rxn_Model Rxn_Spec Species_Model Species_Spec PyReal MF_Model MF_Spec Hop_Spec
  Whole_Rates Newton_Model Steady_Model Steady_Spec Steady_Proofs Accuracy_Spec Accuracy_Proofs.
Local Open Scope list_scope.
Local Open Scope R_scope.

Lemma reported_rates : forall s, usable_setup s -> forall l, only_hops s l ->
  (forall site, In site (sites s) -> 0 <= total s site <= 1) -> supplied (Rlt 0) s -> linked s l ->
  forall kf kr, length kf = length (s_exprs s) -> length kr = length (s_exprs s) ->
  (forall a, In a kf -> 0 < a) -> (forall b, In b kr -> 0 < b) ->
  exists data c0 nets0 tof0 C, get_data s = Ok data /\ feasible s c0 /\ steady_within s kf kr data 0 c0 /\ 0 <= C /\
    net_rates s (Ok (kf, kr)) (Some data) c0 = Ok nets0 /\ tofs s (Ok (kf, kr)) (Some data) c0 = Ok tof0 /\
    forall I (q : search I) fuel guess a st x, q_f q = steady_state_function s (Ok (kf, kr)) (Some data) ->
      get_steady_state_cvgs q fuel guess = (Ok (Some a), st) -> a_coverages a = Some x -> length x = length (ads s) ->
      exists nets tof, net_rates s (Ok (kf, kr)) (Some data) x = Ok nets /\ tofs s (Ok (kf, kr)) (Some data) x = Ok tof /\
        close (C * q_tolerance q) nets nets0 /\ close (C * q_tolerance q) tof tof0.
Proof.
  intros s U l HL HT HS HK kf kr L1 L2 P1 P2.
  destruct (accuracy s U l HL HT HS HK kf kr L1 L2 P1 P2) as (data & c0 & C & D & Fe & Z & PC & H).
  assert (Ex : forall c, length c = length (ads s) -> exists nets tof,
    net_rates s (Ok (kf, kr)) (Some data) c = Ok nets /\ tofs s (Ok (kf, kr)) (Some data) c = Ok tof).
  { intros c Lc. destruct (explicit s U (proj2 HL) c kf kr Lc L1 L2) as (d1 & D1 & _ & N1 & _ & T1).
    rewrite D in D1. injection D1 as <-. eauto. }
  destruct (Ex c0 (proj1 Z)) as (nets0 & tof0 & N0 & T0).
  exists data, c0, nets0, tof0, C. repeat (split; [assumption|]).
  intros I q fuel guess a st x Eq S A Len.
  apply (search_result q (fun _ => True)) in S; [|intros; exact Logic.I|intros; exact Logic.I].
  destruct S as (_ & x' & E & S). rewrite A in E. injection E as <-.
  assert (Wi : residual_within (q_f q) x (q_tolerance q)).
  { destruct S as [[_ W]|((v & A1 & A2 & A3) & _)]; [exact W|]. exists v. split; [exact A1|]. split; [exact A2|].
    intros d Hd. left. auto. }
  destruct Wi as (v & A1 & A2 & A3). rewrite Eq in A1.
  destruct (Ex x Len) as (nets & tof & N & Tf). exists nets, tof. split; [exact N|]. split; [exact Tf|].
  destruct (H x (q_tolerance q)) as (_ & HN & HTf).
  - destruct v as [|d v]; [congruence|]. eapply Rle_trans; [apply Rabs_pos|apply (A3 d); now left].
  - split; [exact Len|]. exists v. auto.
  - split; [exact (HN _ _ N N0)|exact (HTf _ _ Tf T0)].
Qed.
