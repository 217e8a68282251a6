(** Competing adsorption as a mechanism of single-site steps. *)
From Coq Require Import String Ascii List ZArith NArith Bool Arith Reals Relations Lia Lra.
Import ListNotations.
From Verif Require Import PyBase PyBaseFacts Rxn_Model Rxn_Spec Species_Model Species_Spec
  PyReal MF_Model MF_Spec MF_More MF_Witness Whole_Witness Langmuir_Witness Flow_Spec Flow_Witness Hop_Spec Hop_Witness Relax_Proofs.
Local Open Scope list_scope.
Local Open Scope R_scope.

Definition compete_steps : list (str * str) := [(L "*_s", L "CO_s"); (L "*_s", L "H2O_s"); (L "*_t", L "CO_t")].
Lemma compete_hops : only_hops compete_setup compete_steps.
Proof.
  split; [|apply NoDup_ok; vm_compute; reflexivity].
  cbv [s_lists compete_setup setup_of compete_lists l_rxns compete_steps].
  repeat (constructor; [cbn [fst snd]|]); [..|constructor].
  - eexists [_], _, [], [_], [], _, []. hops. intros st f [<-|[]] [<-|[]] (_ & H & _). apply H. cbn. auto.
  - eexists [], _, [_], [], [], _, []. hops.
  - eexists [_], _, [], [], [], _, []. hops.
Qed.
Lemma compete_linked : linked compete_setup compete_steps.
Proof.
  intros n Hn. vm_compute in Hn. destruct Hn as [<-|[<-|[<-|[]]]]; apply rst_sym, rst_step; vm_compute; auto.
Qed.
Lemma compete_supplied : supplied (Rlt 0) compete_setup.
Proof.
  intros f (r & st & Hr & Hst & Hf).
  cbv [s_lists compete_setup setup_of compete_lists l_rxns] in Hr.
  repeat (destruct Hr as [<-|Hr]); try contradiction;
  repeat (destruct Hst as [<-|Hst]); try contradiction;
  repeat (destruct Hf as [<-|Hf]); try contradiction;
  (split; intro H; try discriminate H; lazy -[Rlt IZR]; lra).
Qed.
Lemma stay_apart : exists s l kf kr th th' d, usable_setup s /\ only_hops s l /\
  (forall a, In a kf -> 0 < a) /\ (forall b, In b kr -> 0 < b) /\ supplied (Rlt 0) s /\
  (forall site, In site (sites s) -> 0 <= total s site <= 1) /\
  (forall T, solution s kf kr T th) /\ (forall T, solution s kf kr T th') /\ feasible s (th 0) /\ feasible s (th' 0) /\
  0 < d /\ forall t, exists i x y, nth_error (th t) i = Some x /\ nth_error (th' t) i = Some y /\ d <= Rabs (x - y).
Proof.
  destruct links_needed as (s & l & kf & kr & data & c & c' & U & OH & Pf & Pr & Sup & Tot & D & Fc & Fc' & N
    & (F & EF & ZF) & (F' & EF' & ZF')).
  assert (Ex : exists i x y, nth_error c i = Some x /\ nth_error c' i = Some y /\ x <> y).
  { assert (Q : length c = length c') by (rewrite (proj1 Fc), (proj1 Fc'); reflexivity). clear -N Q.
    revert c' N Q. induction c as [|a c IH]; intros [|b c'] N Q; try discriminate Q; [congruence|].
    destruct (Req_dec a b) as [->|Hn]; [|exists O, a, b; auto].
    destruct (IH c') as (i & x & y & H); [congruence|now injection Q|]. exists (S i), x, y. exact H. }
  destruct Ex as (i & x & y & Hx & Hy & Hn).
  exists s, l, kf, kr, (fun _ => c), (fun _ => c'), (Rabs (x - y)).
  do 6 (split; [assumption|]).
  split; [exact (steady_solves s kf kr data c F D (proj1 Fc) EF ZF)|].
  split; [exact (steady_solves s kf kr data c' F' D (proj1 Fc') EF' ZF')|].
  split; [exact Fc|]. split; [exact Fc'|]. split; [apply Rabs_pos_lt; lra|].
  intros _. exists i, x, y. split; [exact Hx|]. split; [exact Hy|]. lra.
Qed.
