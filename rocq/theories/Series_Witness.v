(** A cycle of three steps and a branch that leads nowhere. *)
From Coq Require Import String Ascii List ZArith NArith Bool Arith Reals Relations Lia Lra.
Import ListNotations.
From Verif Require Import PyBase PyBaseFacts Rxn_Model Rxn_Spec Species_Model Species_Spec
  PyReal MF_Model MF_Spec MF_More MF_Witness Whole_Spec Whole_Witness Whole_Rates Langmuir_Witness Hop_Spec Hop_Witness Series_Spec.
Local Open Scope list_scope.
Local Open Scope R_scope.

Lemma turn_plain : forall name fls, In name (ads turn_setup) -> In fls (l_rxns (s_lists turn_setup)) -> plain_in name fls.
Proof. apply all_plain_ok. vm_compute. reflexivity. Qed.
Ltac others := intros k fk Hk; repeat (destruct k as [|k]; [injection Hk as <-; intros; try (exfalso; cbn in *; intuition congruence); try (vm_compute; reflexivity)|]);
  destruct k; discriminate Hk.
Lemma turn_branch : dead_ends turn_setup [3; 4]%nat.
Proof.
  apply one_more; [apply one_more; [apply no_dead_end|]|].
  - exists (L "H2CO_t"). eexists. split; [vm_compute; auto|]. split; [intros; apply turn_plain; [vm_compute; auto|assumption]|].
    split; [reflexivity|]. split; [vm_compute; discriminate|]. others.
  - exists (L "CO_t"). eexists. split; [vm_compute; auto|]. split; [intros; apply turn_plain; [vm_compute; auto|assumption]|].
    split; [reflexivity|]. split; [vm_compute; discriminate|]. others.
Qed.
Lemma turn_row : in_series turn_setup [3; 4]%nat 0 1 1 1 /\ in_series turn_setup [3; 4]%nat 1 2 1 1.
Proof.
  split.
  - exists (L "HCN_s"). do 2 eexists. split; [vm_compute; auto|]. split; [intros; apply turn_plain; [vm_compute; auto|assumption]|].
    split; [lia|]. split; [reflexivity|]. split; [reflexivity|]. split; [vm_compute; reflexivity|]. split; [vm_compute; reflexivity|]. others.
  - exists (L "HNC_s"). do 2 eexists. split; [vm_compute; auto|]. split; [intros; apply turn_plain; [vm_compute; auto|assumption]|].
    split; [lia|]. split; [reflexivity|]. split; [reflexivity|]. split; [vm_compute; reflexivity|]. split; [vm_compute; reflexivity|]. others.
Qed.
Lemma turn_nets : exists data,
  get_data turn_setup = Ok data /\
  steady_state_function turn_setup (Ok (turn_kf, turn_kr)) (Some data) [/ 50; 3 / 50; 9 / 31; 8 / 31] = Ok [0; 0; 0; 0] /\
  net_rates turn_setup (Ok (turn_kf, turn_kr)) (Some data) [/ 50; 3 / 50; 9 / 31; 8 / 31] = Ok [10 / 31; 10 / 31; 10 / 31; 0; 0].
Proof.
  destruct turn_steady as (data & D & _ & E). exists data. split; [exact D|]. split; [exact E|].
  destruct (explicit turn_setup turn_usable (proj2 turn_only) [/ 50; 3 / 50; 9 / 31; 8 / 31] turn_kf turn_kr eq_refl eq_refl eq_refl)
    as (data' & E1 & _ & E3 & _). assert (data' = data) by congruence. subst data'. rewrite E3.
  assert (Z : forall x y z u v : R, x = 10 / 31 -> y = 10 / 31 -> z = 10 / 31 -> u = 0 -> v = 0 ->
    Ok [x; y; z; u; v] = Ok [10 / 31; 10 / 31; 10 / 31; 0; 0]) by congruence.
  lazy -[Rmult Rminus Rplus IZR Ropp Rinv Rdiv]. apply Z; lra.
Qed.
Lemma compete_plain : forall name fls, In name (ads compete_setup) -> In fls (l_rxns (s_lists compete_setup)) -> plain_in name fls.
Proof. apply all_plain_ok. vm_compute. reflexivity. Qed.
Lemma compete_branches : dead_ends compete_setup [0; 1; 2]%nat.
Proof.
  apply one_more; [apply one_more; [apply one_more; [apply no_dead_end|]|]|];
    [exists (L "CO_t")|exists (L "H2O_s")|exists (L "CO_s")]; eexists;
    (split; [vm_compute; auto|]); (split; [intros; apply compete_plain; [vm_compute; auto|assumption]|]);
    (split; [reflexivity|]); (split; [vm_compute; discriminate|]); others.
Qed.
