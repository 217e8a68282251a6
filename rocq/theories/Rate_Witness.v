(** Concrete reactions for C20, C21 and C24. *)
From Coq Require Import String Ascii List ZArith QArith Qreals Bool Arith Reals Lra Lia.
Import ListNotations.
From Verif Require Import PyBase PyBaseFacts Rxn_Model Rxn_Spec Rxn_Proofs Rxn_Count Rxn_More
  Mol_Model PyReal Energy_Model Energy_Spec Energy_Proofs Thermo_Model Rate_Model Rate_Spec Rate_Proofs.
Open Scope list_scope.
Open Scope R_scope.

Definition co_rxn : str := L "CO_g + *_s -> CO_s".
Definition co2_rxn : str := L "2CO_g + 2*_s -> 2CO_s".
Definition co_owner (T p : R) : owner :=
  {| o_T := T; o_pressures := [(L "CO_g", Some p)]; o_rxns := [co_rxn; co2_rxn];
     o_rxns_list := []; o_Auc := 1; o_act_ratio := 1; o_corrector_str := false |}.
Definition co_energies : rel_energies := {| r_Gaf := [3; 3]; r_Gar := [2; 2]; r_dG := [1; 1] |}.

Lemma co_energies_of : energies_of (co_owner 300 1) co_energies co_rxn 3 2 1.
Proof. exists 0%nat. split; [reflexivity|]. split; [intros; lia|]. repeat split. Qed.

Lemma co_parsed : exists a b c,
  rxn_formula_list co_rxn = Ok [[a; b]; [c]] /\
  f_text a = L "CO_g" /\ f_stoich a = 1%Z /\ f_species_site a = L "CO_g" /\ f_site a = L "g" /\
  f_species a = L "CO" /\ f_site b = L "s" /\ f_site c = L "s".
Proof. do 3 eexists. split; [vm_compute; reflexivity|]. vm_compute. repeat split; reflexivity. Qed.

Lemma co2_parsed : exists a b c,
  rxn_formula_list co2_rxn = Ok [[a; b]; [c]] /\
  f_text a = L "2CO_g" /\ f_stoich a = 2%Z /\ f_species_site a = L "CO_g" /\ f_site a = L "g" /\
  f_site b = L "s" /\ f_site c = L "s".
Proof. do 3 eexists. split; [vm_compute; reflexivity|]. vm_compute. repeat split; reflexivity. Qed.

Lemma gases_one a b : f_site a = L "g" -> f_site b = L "s" -> gases [a; b] = [a].
Proof. intros A B. unfold gases. cbn [filter]. rewrite A, B. reflexivity. Qed.
Lemma gases_none c : f_site c = L "s" -> gases [c] = [].
Proof. intros A. unfold gases. cbn [filter]. rewrite A. reflexivity. Qed.

Lemma co_pressures : exists states first last,
  rxn_formula_list co_rxn = Ok states /\ lfirst states = Ok first /\ llast states = Ok last /\
  Forall unnumbered (gases first ++ gases last) /\
  knows_pressures (co_owner 300 1) (fun _ => 1) [first; last].
Proof.
  destruct co_parsed as (a & b & c & E & Ta & Sa & Na & Ga & _ & Gb & Gc).
  exists [[a; b]; [c]], [a; b], [c]. split; auto. split; [reflexivity|]. split; [reflexivity|].
  rewrite (gases_one a b Ga Gb), (gases_none c Gc). split.
  - cbn. constructor; [|constructor]. split; congruence.
  - intros fs f [<-|[<-|[]]]; [rewrite (gases_one a b Ga Gb)|rewrite (gases_none c Gc)].
    + intros [<-|[]]. now rewrite Na.
    + intros [].
Qed.

Lemma numbered_gas_fails : exists o e r states first last P rf rr,
  rates_TST o e r false = Ok (rf, rr) /\
  rxn_formula_list e = Ok states /\ lfirst states = Ok first /\ llast states = Ok last /\
  knows_pressures o P [first; last] /\ rates_TST o e r true = Err KeyError.
Proof.
  destruct co2_parsed as (a & b & c & E & Ta & Sa & Na & Ga & Gb & Gc).
  assert (EO : energies_of (co_owner 300 1) co_energies co2_rxn 3 2 1).
  { exists 1%nat. split; [reflexivity|]. split; [|repeat split].
    intros j Hj. assert (j = 0)%nat as -> by lia. discriminate. }
  pose proof (rates_TST_plain (co_owner 300 1) co2_rxn co_energies _ _ _ ltac:(cbn; lra) EO) as R0.
  exists (co_owner 300 1), co2_rxn, co_energies, [[a; b]; [c]], [a; b], [c], (fun _ => 1).
  do 2 eexists. split; [exact R0|]. split; auto. split; [reflexivity|]. split; [reflexivity|]. split.
  - intros fs f [<-|[<-|[]]]; [rewrite (gases_one a b Ga Gb)|rewrite (gases_none c Gc)].
    + intros [<-|[]]. now rewrite Na.
    + intros [].
  - eapply (rates_TST_unknown _ _ _ _ _ _ a); eauto; try reflexivity.
    + rewrite (gases_one a b Ga Gb). now left.
    + rewrite Ta. reflexivity.
Qed.

Lemma rates_CT_surface_sites ec o e r fls f0 f1 incl :
  0 < o_Auc o -> o_corrector_str o = false ->
  rxn_formula_list e = Ok fls -> lfirst fls = Ok f0 -> llast fls = Ok f1 ->
  (forall f, In f f0 \/ In f f1 -> f_site f <> L "g") ->
  rates_CT ec o e r incl = rates_TST o e r false.
Proof.
  intros A B C D E N. eapply rates_CT_surface; eauto; apply first_gas_none; intros f Hf; apply N; auto.
Qed.

Lemma gas_and_pressure fs f o p :
  (first_gas fs = Some f <->
   exists before after, fs = before ++ f :: after /\ f_site f = L "g" /\
     forall g, In g before -> f_site g <> L "g") /\
  gas_pressure o false (f_text f) = Ok P0 /\
  (dget (o_pressures o) (f_text f) = Some (Some p) -> gas_pressure o true (f_text f) = Ok (P0 * p)).
Proof.
  split; [apply first_gas_iff|]. split; [reflexivity|]. intro D.
  unfold gas_pressure, pressure_of, dindex. now rewrite D.
Qed.

Lemma co_rates_CT : exists rf rr,
  rates_CT (fun _ _ _ _ => Ok 0) (co_owner 300 1) co_rxn co_energies true = Ok (rf, rr) /\ 0 < rf /\
  rr <= frequency 300.
Proof.
  destruct co_parsed as (a & b & c & E & Ta & Sa & Na & Ga & Sp & Gb & Gc).
  assert (M : exists m, molecular_mass (L "CO") true = Ok m /\ 0 < Q2R m).
  { eexists. split; [vm_compute; reflexivity|].
    replace 0 with (Q2R 0) by (unfold Q2R; cbn; lra). apply Qlt_Rlt. reflexivity. }
  destruct M as (m & M & Mp).
  destruct (rates_CT_adsorption (fun _ _ _ _ => Ok 0) (co_owner 300 1) co_rxn co_energies [[a; b]; [c]] [a; b] [c]
    a m (P0 * 1) 0 3 2 1 true) as (rf & rr & R1 & _ & R2 & R3); try (cbn; lra); try reflexivity; auto.
  - exact co_energies_of.
  - cbn [first_gas]. now rewrite (proj2 (is_gas_iff a) Ga).
  - now rewrite Sp.
  - unfold gas_pressure, pressure_of, dindex. rewrite Ta. reflexivity.
  - pose proof P0_pos. lra.
  - exists rf, rr. split; auto. split; auto. rewrite R3. apply Rmin_l.
Qed.
