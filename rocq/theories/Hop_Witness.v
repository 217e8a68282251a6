(** An isomerization on one kind of site and a reaction with a gas on another. *)
From Coq Require Import String Ascii List ZArith NArith Bool Arith Reals Relations Lia Lra.
Import ListNotations.
From Verif Require Import PyBase PyBaseFacts Rxn_Model Rxn_Spec Species_Model Species_Spec
  PyReal Energy_Model Energy_Spec Thermo_Model Rate_Model Rate_Spec MF_Model MF_Spec MF_More MF_Witness Whole_Witness
  Steady_Model Steady_Spec Whole_Rates Hop_Spec Hop_Proofs.
Local Open Scope list_scope.
Local Open Scope R_scope.

Definition turn : list str :=
  [L "HCN_g + *_s -> HCN_s"; L "HCN_s <-> H-CN_s -> HNC_s"; L "HNC_s -> HNC_g + *_s";
   L "*_t + CO_g -> CO_t"; L "CO_t + H2_g -> H2CO_t"].
Definition turn_lists : lists := Eval vm_compute in lists_of turn.
Definition turn_setup : setup :=
  setup_of turn turn_lists [(L "*_s", one); (L "*_t", tenth)]
    [(L "HCN_g", 2); (L "HNC_g", 1); (L "CO_g", 1); (L "H2_g", 3)] [].
Lemma turn_usable : usable_setup turn_setup.
Proof. apply usable_setup_ok; vm_compute; reflexivity. Qed.
Definition turn_steps : list (str * str) :=
  [(L "*_s", L "HCN_s"); (L "HCN_s", L "HNC_s"); (L "HNC_s", L "*_s"); (L "*_t", L "CO_t"); (L "CO_t", L "H2CO_t")].
Ltac hops :=
  repeat (first [reflexivity | discriminate | split]);
  try (left; split; [split; discriminate|split; intros H; cbn in H; intuition discriminate]);
  try (right; reflexivity);
  try (intros f H; cbn in H; repeat (destruct H as [<-|H]); try contradiction; intros [H1 H2]; (now apply H1) || (now apply H2));
  try (now intros st f []).
Lemma turn_only : only_hops turn_setup turn_steps.
Proof.
  split; [|apply NoDup_ok; vm_compute; reflexivity].
  cbv [s_lists turn_setup setup_of turn_lists l_rxns turn_steps].
  repeat (constructor; [cbn [fst snd]|]); [..|constructor].
  - eexists [_], _, [], [], [], _, []. hops.
  - eexists [], _, [], [_], [], _, []. hops. intros st f [<-|[]] [<-|[]] (_ & H & _). apply H. cbn. auto.
  - eexists [], _, [], [], [_], _, []. hops.
  - eexists [], _, [_], [], [], _, []. hops.
  - eexists [], _, [_], [], [], _, []. hops.
Qed.
Lemma turn_linked : linked turn_setup turn_steps.
Proof.
  assert (S : forall a b, In (a, b) turn_steps -> clos_refl_sym_trans str (fun a b => In (a, b) turn_steps) a b) by (intros; now apply rst_step).
  intros n Hn. vm_compute in Hn.
  destruct Hn as [<-|[<-|[<-|[<-|[]]]]].
  - apply rst_sym, S. vm_compute. auto.
  - eapply rst_trans; [apply rst_sym, (S (L "CO_t")); vm_compute; auto 6|apply rst_sym, S; vm_compute; auto].
  - apply rst_sym, S. vm_compute. auto.
  - apply S. vm_compute. auto.
Qed.
Lemma turn_supplied : supplied (Rlt 0) turn_setup.
Proof.
  intros f (r & st & Hr & Hst & Hf).
  cbv [s_lists turn_setup setup_of turn_lists l_rxns] in Hr.
  repeat (destruct Hr as [<-|Hr]); try contradiction;
  repeat (destruct Hst as [<-|Hst]); try contradiction;
  repeat (destruct Hf as [<-|Hf]); try contradiction;
  (split; intro H; try discriminate H; lazy -[Rlt IZR]; lra).
Qed.
Definition turn_kf : list R := [1; 2; 3; 1; 1].
Definition turn_kr : list R := [2; 1; 1; 1; 1].
Lemma turn_constants : (forall a, In a turn_kf -> 0 < a) /\ (forall b, In b turn_kr -> 0 < b) /\
  (forall site, In site (sites turn_setup) -> 0 <= total turn_setup site <= 1).
Proof.
  split; [intros a H; repeat (destruct H as [<-|H]; [lra|]); destruct H|].
  split; [intros a H; repeat (destruct H as [<-|H]; [lra|]); destruct H|].
  intros site [<-|[<-|[]]]; lazy -[Rle IZR Rinv]; lra.
Qed.
Lemma turn_steady : exists data,
  get_data turn_setup = Ok data /\
  ads turn_setup = [L "CO_t"; L "H2CO_t"; L "HCN_s"; L "HNC_s"] /\
  steady_state_function turn_setup (Ok (turn_kf, turn_kr)) (Some data) [/ 50; 3 / 50; 9 / 31; 8 / 31] = Ok [0; 0; 0; 0].
Proof.
  destruct (explicit turn_setup turn_usable (proj2 turn_only) [/ 50; 3 / 50; 9 / 31; 8 / 31] turn_kf turn_kr eq_refl eq_refl eq_refl)
    as (data & E1 & _ & _ & E4 & _).
  exists data. split; [exact E1|]. split; [vm_compute; reflexivity|]. rewrite E4.
  assert (Z : forall x y z u : R, x = 0 -> y = 0 -> z = 0 -> u = 0 -> Ok [x; y; z; u] = Ok [0; 0; 0; 0]) by congruence.
  lazy -[Rmult Rminus Rplus IZR Ropp Rinv]. apply Z; lra.
Qed.

(** Without adsorption or desorption the number of adsorbates is what it was. *)
Definition closed_lists : lists := Eval vm_compute in lists_of [L "HCN_s -> HNC_s"].
Definition closed_setup : setup := setup_of [L "HCN_s -> HNC_s"] closed_lists [(L "*_s", one)] [] [].
Lemma closed_usable : usable_setup closed_setup.
Proof. apply usable_setup_ok; vm_compute; reflexivity. Qed.
Lemma closed_only : only_hops closed_setup [(L "HCN_s", L "HNC_s")].
Proof.
  split; [|apply NoDup_ok; vm_compute; reflexivity].
  cbv [s_lists closed_setup setup_of closed_lists l_rxns].
  repeat (constructor; [cbn [fst snd]|]); [..|constructor].
  eexists [], _, [], [], [], _, []. hops.
Qed.
Lemma closed_steady c : exists data, get_data closed_setup = Ok data /\
  steady_state_function closed_setup (Ok ([1], [1])) (Some data) [c; c] = Ok [0; 0].
Proof.
  destruct (explicit closed_setup closed_usable (proj2 closed_only) [c; c] [1] [1] eq_refl eq_refl eq_refl)
    as (data & E1 & _ & _ & E4 & _).
  exists data. split; [exact E1|]. rewrite E4.
  assert (Z : forall x y : R, x = 0 -> y = 0 -> Ok [x; y] = Ok [0; 0]) by congruence.
  lazy -[Rmult Rminus Rplus IZR Ropp Rinv]. apply Z; lra.
Qed.
Lemma links_needed : exists s l kf kr data c c', usable_setup s /\ only_hops s l /\
  (forall a, In a kf -> 0 < a) /\ (forall b, In b kr -> 0 < b) /\ supplied (Rlt 0) s /\
  (forall site, In site (sites s) -> 0 <= total s site <= 1) /\
  get_data s = Ok data /\ feasible s c /\ feasible s c' /\ c <> c' /\
  (exists F, steady_state_function s (Ok (kf, kr)) (Some data) c = Ok F /\ forall y, In y F -> y = 0) /\
  (exists F, steady_state_function s (Ok (kf, kr)) (Some data) c' = Ok F /\ forall y, In y F -> y = 0).
Proof.
  destruct (closed_steady (/ 4)) as (data & E1 & E2). destruct (closed_steady (/ 2)) as (data' & E1' & E2').
  assert (data' = data) by congruence. subst data'.
  exists closed_setup, [(L "HCN_s", L "HNC_s")], [1], [1], data, [/ 4; / 4], [/ 2; / 2].
  split; [exact closed_usable|]. split; [exact closed_only|].
  split; [intros a [<-|[]]; lra|]. split; [intros a [<-|[]]; lra|].
  split.
  { intros f (r & st & Hr & Hst & Hf). cbv [s_lists closed_setup setup_of closed_lists l_rxns] in Hr.
    repeat (destruct Hr as [<-|Hr]); try contradiction;
    repeat (destruct Hst as [<-|Hst]); try contradiction;
    repeat (destruct Hf as [<-|Hf]); try contradiction;
    (split; intro H; discriminate H). }
  split; [intros site [<-|[]]; lazy -[Rle IZR Rinv]; lra|]. split; [exact E1|].
  assert (Fe : forall c, 0 <= c <= / 2 -> feasible closed_setup [c; c]).
  { intros c Hc. split; [reflexivity|]. split.
    - intros [|[|[|i]]] n x Hn Hx; try discriminate Hx; injection Hx as <-; injection Hn as <-;
        lazy -[Rle IZR Rinv]; lra.
    - intros site [<-|[]]. lazy -[Rle IZR Rinv Rplus]. lra. }
  split; [apply Fe; lra|]. split; [apply Fe; lra|]. split; [intro H; injection H as H _; lra|].
  split; [exists [0; 0]; split; [exact E2|]|exists [0; 0]; split; [exact E2'|]]; intros y [<-|[<-|[]]]; reflexivity.
Qed.
