(** Lemmas: searches agree, and their answers tend to the steady state with the tolerance (C119). *)
From Coq Require Import String Ascii List ZArith Bool Arith Reals Lra.
Import ListNotations.
From Verif Require Import PyBase Rxn_Model Rxn_Spec Species_Model Species_Spec PyReal MF_Model MF_Spec Hop_Spec
  Steady_Model Steady_Spec Accuracy_Spec Accuracy_Proofs.
Local Open Scope list_scope.
Local Open Scope R_scope.

Lemma close_both d e v w u : close d v u -> close e w u -> close (d + e) v w.
Proof.
  intros [L1 H1] [L2 H2]. split; [congruence|]. intros i x y Hx Hy.
  destruct (nth_error u i) as [z|] eqn:Hz.
  - specialize (H1 i x z Hx Hz). specialize (H2 i y z Hy Hz).
    replace (x - y) with ((x - z) + (z - y)) by ring. eapply Rle_trans; [apply Rabs_triang|].
    rewrite (Rabs_minus_sym z y). lra.
  - apply nth_error_None in Hz. rewrite <- L1 in Hz. apply nth_error_None in Hz. congruence.
Qed.

Lemma agreement : forall s, usable_setup s -> forall l, only_hops s l ->
  (forall site, In site (sites s) -> 0 <= total s site <= 1) -> supplied (Rlt 0) s -> linked s l ->
  forall kf kr, length kf = length (s_exprs s) -> length kr = length (s_exprs s) ->
  (forall a, In a kf -> 0 < a) -> (forall b, In b kr -> 0 < b) ->
  exists data C, get_data s = Ok data /\ 0 <= C /\
    forall I (q : search I) fuel guess a st x I' (q' : search I') fuel' guess' a' st' x',
      q_f q = steady_state_function s (Ok (kf, kr)) (Some data) ->
      get_steady_state_cvgs q fuel guess = (Ok (Some a), st) -> a_coverages a = Some x -> length x = length (ads s) ->
      q_f q' = steady_state_function s (Ok (kf, kr)) (Some data) ->
      get_steady_state_cvgs q' fuel' guess' = (Ok (Some a'), st') -> a_coverages a' = Some x' -> length x' = length (ads s) ->
      close (C * (q_tolerance q + q_tolerance q')) x x'.
Proof.
  intros s U l HL HT HS HK kf kr L1 L2 P1 P2.
  destruct (search_accuracy s U l HL HT HS HK kf kr L1 L2 P1 P2) as (data & c0 & C & D & _ & _ & HC & H).
  exists data, C. split; [exact D|]. split; [exact HC|].
  intros I q fuel guess a st x I' q' fuel' guess' a' st' x' F R A N F' R' A' N'.
  destruct (H I q fuel guess a st F R) as (y & Ey & Cy). destruct (H I' q' fuel' guess' a' st' F' R') as (y' & Ey' & Cy').
  rewrite A in Ey. injection Ey as <-. rewrite A' in Ey'. injection Ey' as <-.
  rewrite Rmult_plus_distr_l. exact (close_both _ _ _ _ _ (Cy N) (Cy' N')).
Qed.

Lemma tending : forall s, usable_setup s -> forall l, only_hops s l ->
  (forall site, In site (sites s) -> 0 <= total s site <= 1) -> supplied (Rlt 0) s -> linked s l ->
  forall kf kr, length kf = length (s_exprs s) -> length kr = length (s_exprs s) ->
  (forall a, In a kf -> 0 < a) -> (forall b, In b kr -> 0 < b) ->
  exists data c0, get_data s = Ok data /\ feasible s c0 /\ steady_within s kf kr data 0 c0 /\
    forall d, 0 < d -> exists tol, 0 < tol /\ forall I (q : search I) fuel guess a st x, q_tolerance q <= tol ->
      q_f q = steady_state_function s (Ok (kf, kr)) (Some data) ->
      get_steady_state_cvgs q fuel guess = (Ok (Some a), st) -> a_coverages a = Some x -> length x = length (ads s) ->
      close d x c0.
Proof.
  intros s U l HL HT HS HK kf kr L1 L2 P1 P2.
  destruct (search_accuracy s U l HL HT HS HK kf kr L1 L2 P1 P2) as (data & c0 & C & D & Fe & St & HC & H).
  exists data, c0. split; [exact D|]. split; [exact Fe|]. split; [exact St|].
  intros d Hd. exists (d / (C + 1)). split; [apply Rdiv_lt_0_compat; lra|].
  intros I q fuel guess a st x T F R A N.
  destruct (H I q fuel guess a st F R) as (y & Ey & Cy). rewrite A in Ey. injection Ey as <-.
  refine (close_more _ _ _ _ _ (Cy N)).
  apply Rle_trans with (C * (d / (C + 1))); [apply Rmult_le_compat_l; assumption|].
  replace (C * (d / (C + 1))) with (d - d / (C + 1)) by (field; lra).
  assert (0 < d / (C + 1)) by (apply Rdiv_lt_0_compat; lra). lra.
Qed.
