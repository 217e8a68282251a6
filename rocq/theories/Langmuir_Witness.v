(** Two gases that compete for one kind of site; one of them also adsorbs on another. *)
From Coq Require Import String Ascii List ZArith NArith Bool Arith Reals Lia Lra.
Import ListNotations.
From Verif Require Import PyBase PyBaseFacts Rxn_Model Rxn_Spec Species_Model Species_Spec
  PyReal Energy_Model Energy_Spec Thermo_Model Rate_Model Rate_Spec MF_Model MF_Spec MF_More MF_Witness Whole_Witness
  Steady_Model Steady_Spec Whole_Rates Langmuir_Spec Langmuir_Proofs.
Local Open Scope list_scope.
Local Open Scope R_scope.

Definition compete : list str := [L "CO_g + *_s <-> C-O_s -> CO_s"; L "*_s + H2O_g -> H2O_s"; L "CO_g + *_t -> CO_t"].
Definition compete_lists : lists := Eval vm_compute in lists_of compete.
Definition compete_setup : setup :=
  setup_of compete compete_lists [(L "*_s", one); (L "*_t", tenth)] [(L "CO_g", 2); (L "H2O_g", 1)] [].
Lemma compete_usable : usable_setup compete_setup.
Proof. apply usable_setup_ok; vm_compute; reflexivity. Qed.
Definition compete_pairs : list (str * str) :=
  [(L "CO_g", L "CO_s"); (L "H2O_g", L "H2O_s"); (L "CO_g", L "CO_t")].
Lemma compete_only : only_adsorption compete_setup compete_pairs.
Proof.
  split; [|apply NoDup_ok; vm_compute; reflexivity].
  cbv [s_lists compete_setup setup_of compete_lists l_rxns compete_pairs].
  constructor; [|constructor; [|constructor; [|constructor]]]; cbn [fst snd].
  - do 3 eexists. exists [[{| f_text := L "C-O_s"; f_stoich := 1; f_species_site := L "C-O_s"; f_species := L "C-O"; f_nsite := 1; f_site := L "s" |}]].
    split; [left; reflexivity|]. repeat (split; [reflexivity|]).
    split; [split; discriminate|]. split; [reflexivity|]. split; [split; [split; discriminate|split; intros H; cbn in H; intuition discriminate]|].
    split; [reflexivity|]. intros st f [<-|[]] [<-|[]] (_ & H & _). apply H. cbn. auto.
  - do 3 eexists. exists []. split; [right; reflexivity|]. repeat (split; [reflexivity|]).
    split; [split; discriminate|]. split; [reflexivity|]. split; [split; [split; discriminate|split; intros H; cbn in H; intuition discriminate]|].
    split; [reflexivity|]. intros st f [].
  - do 3 eexists. exists []. split; [left; reflexivity|]. repeat (split; [reflexivity|]).
    split; [split; discriminate|]. split; [reflexivity|]. split; [split; [split; discriminate|split; intros H; cbn in H; intuition discriminate]|].
    split; [reflexivity|]. intros st f [].
Qed.

(** The coverages for equilibrium constants 1/2, 2 and 1: on s, CO and H2O have K p = 1 and 2 and a
    quarter of the sites is free; on t, CO has K p = 2 and a third of the sites is free. *)
Definition compete_kf : list R := [1; 4; 3].
Definition compete_kr : list R := [2; 2; 3].
Lemma compete_langmuir : exists data,
  get_data compete_setup = Ok data /\
  ads compete_setup = [L "CO_s"; L "CO_t"; L "H2O_s"] /\
  steady_state_function compete_setup (Ok (compete_kf, compete_kr)) (Some data) [/ 4; / 15; / 2] = Ok [0; 0; 0].
Proof.
  assert (ND : NoDup (s_exprs compete_setup)) by (apply NoDup_ok; vm_compute; reflexivity).
  destruct (explicit compete_setup compete_usable ND [/ 4; / 15; / 2] compete_kf compete_kr eq_refl eq_refl eq_refl)
    as (data & E1 & _ & _ & E4 & _).
  exists data. split; [exact E1|]. split; [vm_compute; reflexivity|]. rewrite E4.
  assert (Z : forall x y z : R, x = 0 -> y = 0 -> z = 0 -> Ok [x; y; z] = Ok [0; 0; 0]) by congruence.
  lazy -[Rmult Rminus Rplus IZR Ropp Rinv]. apply Z; lra.
Qed.
Lemma compete_constants : (forall a, In a compete_kf -> 0 <= a) /\ (forall b, In b compete_kr -> 0 < b) /\
  (forall gas name, In (gas, name) compete_pairs -> 0 <= value (s_pressure compete_setup) gas) /\
  (forall site, In site (sites compete_setup) -> 0 <= total compete_setup site <= 1).
Proof.
  split; [intros a [<-|[<-|[<-|[]]]]; lra|]. split; [intros a [<-|[<-|[<-|[]]]]; lra|].
  split.
  - intros gas name [H|[H|[H|[]]]]; injection H as <- <-; lazy -[Rle IZR]; lra.
  - intros site [<-|[<-|[]]]; lazy -[Rle IZR Rinv]; lra.
Qed.
