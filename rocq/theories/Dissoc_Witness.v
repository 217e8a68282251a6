(** Oxygen that dissociates beside carbon monoxide that does not, and nitrogen on other sites. *)
From Coq Require Import String Ascii List ZArith NArith Bool Arith Reals Lia Lra.
Import ListNotations.
From Verif Require Import PyBase PyBaseFacts Rxn_Model Rxn_Spec Species_Model Species_Spec
  PyReal Energy_Model Energy_Spec Thermo_Model Rate_Model Rate_Spec MF_Model MF_Spec MF_More MF_Witness Whole_Witness
  Steady_Model Steady_Spec Whole_Rates Langmuir_Spec Dissoc_Spec Dissoc_Proofs.
Local Open Scope list_scope.
Local Open Scope R_scope.

Definition split_rxns : list str :=
  [L "O2_g + 2*_s <-> O-O_s + *_s -> 2O_s"; L "*_s + CO_g -> CO_s"; L "N2_g + 2*_t -> 2N_t"].
Definition split_lists : lists := Eval vm_compute in lists_of split_rxns.
Definition split_setup : setup :=
  setup_of split_rxns split_lists [(L "*_s", one); (L "*_t", tenth)] [(L "O2_g", 2); (L "CO_g", 1); (L "N2_g", 3)] [].
Lemma split_usable : usable_setup split_setup.
Proof. apply usable_setup_ok; vm_compute; reflexivity. Qed.
Definition split_items : list (str * str * nat) :=
  [(L "O2_g", L "O_s", 2%nat); (L "CO_g", L "CO_s", 1%nat); (L "N2_g", L "N_t", 2%nat)].
Lemma split_only : only_dissociation split_setup split_items.
Proof.
  split; [|apply NoDup_ok; vm_compute; reflexivity].
  cbv [s_lists split_setup setup_of split_lists l_rxns split_items].
  constructor; [|constructor; [|constructor; [|constructor]]]; cbn [fst snd].
  - do 3 eexists. exists [[{| f_text := L "O-O_s"; f_stoich := 1; f_species_site := L "O-O_s"; f_species := L "O-O"; f_nsite := 1; f_site := L "s" |};
      {| f_text := L "*_s"; f_stoich := 1; f_species_site := L "*_s"; f_species := L "*"; f_nsite := 1; f_site := L "s" |}]].
    split; [left; reflexivity|]. split; [lia|]. repeat (split; [reflexivity|]).
    split; [split; discriminate|]. split; [reflexivity|]. split; [split; [split; discriminate|split; intros H; cbn in H; intuition discriminate]|].
    split; [reflexivity|]. intros st f [<-|[]] [<-|[<-|[]]] (_ & H & H'); [apply H|apply H']; cbn; auto.
  - do 3 eexists. exists []. split; [right; reflexivity|]. split; [lia|]. repeat (split; [reflexivity|]).
    split; [split; discriminate|]. split; [reflexivity|]. split; [split; [split; discriminate|split; intros H; cbn in H; intuition discriminate]|].
    split; [reflexivity|]. intros st f [].
  - do 3 eexists. exists []. split; [left; reflexivity|]. split; [lia|]. repeat (split; [reflexivity|]).
    split; [split; discriminate|]. split; [reflexivity|]. split; [split; [split; discriminate|split; intros H; cbn in H; intuition discriminate]|].
    split; [reflexivity|]. intros st f [].
Qed.

(** Equilibrium constants 2, 1 and 3: the roots are 2, 1 and 3, so that a quarter of the sites s and
    of the sites t is free. *)
Definition split_kf : list R := [2; 5; 9].
Definition split_kr : list R := [1; 5; 3].
Lemma split_nodup : NoDup (s_exprs split_setup).
Proof. apply NoDup_ok; vm_compute; reflexivity. Qed.
Lemma split_at x : length x = 3%nat -> exists data, get_data split_setup = Ok data /\
  steady_state_function split_setup (Ok (split_kf, split_kr)) (Some data) x
  = Ok (map (derivative split_setup x (reactions split_setup split_kf split_kr)) (ads split_setup)).
Proof.
  intro Hx. destruct (explicit split_setup split_usable split_nodup x split_kf split_kr Hx eq_refl eq_refl)
    as (data & E1 & _ & _ & E4 & _). exists data. split; [exact E1|exact E4].
Qed.
Lemma split_steady : exists data,
  get_data split_setup = Ok data /\
  ads split_setup = [L "CO_s"; L "N_t"; L "O_s"] /\
  steady_state_function split_setup (Ok (split_kf, split_kr)) (Some data) [/ 4; 3 / 40; / 2] = Ok [0; 0; 0].
Proof.
  destruct (split_at [/ 4; 3 / 40; / 2] eq_refl) as (data & E1 & E4).
  exists data. split; [exact E1|]. split; [vm_compute; reflexivity|]. rewrite E4.
  assert (Z : forall x y z : R, x = 0 -> y = 0 -> z = 0 -> Ok [x; y; z] = Ok [0; 0; 0]) by congruence.
  lazy -[Rmult Rminus Rplus IZR Ropp Rinv]. apply Z; lra.
Qed.
Lemma split_constants : (forall a, In a split_kf -> 0 <= a) /\ (forall b, In b split_kr -> 0 < b) /\
  (forall gas name n, In (gas, name, n) split_items -> 0 <= value (s_pressure split_setup) gas) /\
  (forall site, In site (sites split_setup) -> 0 <= total split_setup site <= 1).
Proof.
  split; [intros a [<-|[<-|[<-|[]]]]; lra|]. split; [intros a [<-|[<-|[<-|[]]]]; lra|].
  split.
  - intros gas name n [H|[H|[H|[]]]]; injection H as <- <- <-; lazy -[Rle IZR]; lra.
  - intros site [<-|[<-|[]]]; lazy -[Rle IZR Rinv]; lra.
Qed.

(** Another steady state has more nitrogen than there are sites t. *)
Lemma split_negative : exists data,
  get_data split_setup = Ok data /\
  steady_state_function split_setup (Ok (split_kf, split_kr)) (Some data) [/ 4; 3 / 20; / 2] = Ok [0; 0; 0] /\
  coverage split_setup [/ 4; 3 / 20; / 2] (L "*_t") < 0.
Proof.
  destruct (split_at [/ 4; 3 / 20; / 2] eq_refl) as (data & E1 & E4).
  exists data. split; [exact E1|]. split.
  - rewrite E4. assert (Z : forall x y z : R, x = 0 -> y = 0 -> z = 0 -> Ok [x; y; z] = Ok [0; 0; 0]) by congruence.
    lazy -[Rmult Rminus Rplus IZR Ropp Rinv]. apply Z; lra.
  - lazy -[Rmult Rminus Rplus IZR Ropp Rinv Rlt]. lra.
Qed.
Lemma split_spurious : exists s l kf kr data c, usable_setup s /\ only_dissociation s l /\
  length kf = length (s_exprs s) /\ length kr = length (s_exprs s) /\
  (forall a, In a kf -> 0 <= a) /\ (forall b, In b kr -> 0 < b) /\
  (forall gas name n, In (gas, name, n) l -> 0 <= value (s_pressure s) gas) /\
  (forall site, In site (sites s) -> 0 <= total s site <= 1) /\
  get_data s = Ok data /\ length c = length (ads s) /\ (forall x, In x c -> 0 <= x <= 1) /\
  (exists F, steady_state_function s (Ok (kf, kr)) (Some data) c = Ok F /\ forall y, In y F -> y = 0) /\
  ~ isotherms s l (quotients kf kr) c.
Proof.
  destruct split_negative as (data & E1 & E2 & N). destruct split_constants as (H1 & H2 & H3 & H4).
  exists split_setup, split_items, split_kf, split_kr, data, [/ 4; 3 / 20; / 2].
  split; [exact split_usable|]. split; [exact split_only|]. split; [reflexivity|]. split; [reflexivity|].
  split; [exact H1|]. split; [exact H2|]. split; [exact H3|]. split; [exact H4|]. split; [exact E1|].
  split; [reflexivity|]. split; [intros x [<-|[<-|[<-|[]]]]; lra|]. split.
  - exists [0; 0; 0]. split; [exact E2|]. intros y [<-|[<-|[<-|[]]]]; reflexivity.
  - intro I. assert (T : forall site, In site (sites split_setup) -> 0 <= total split_setup site) by (intros; now apply H4).
    pose proof (isotherm_nonneg split_setup split_usable split_items split_only [/ 4; 3 / 20; / 2] split_kf split_kr
      eq_refl eq_refl eq_refl T I (L "*_t")) as Q.
    assert (In (L "*_t") (sites split_setup)) by (vm_compute; auto). specialize (Q (or_intror H)). lra.
Qed.
