(** Concrete cases for the properties of the scripts that collect results. *)
From Coq Require Import String Ascii List ZArith Bool Arith QArith Permutation Sorted Lia.
Import ListNotations.
From Verif Require Import PyBase PyBaseFacts PyBase_Spec PyBase_Sound Rxn_Model Collect_Model Collect_Spec.
Local Open Scope list_scope.

Definition number (s : str) : option Q :=
  if str_eqb s (L "0.1") then Some (1 # 10)%Q
  else if str_eqb s (L "0.2") then Some (1 # 5)%Q
  else if str_eqb s (L "0.3") then Some (3 # 10)%Q
  else None.

(** Merged coverages *)
Definition surface : cov_file :=
  {| c_types := map L ["O_s"; "CO_s"; "O_r"; "Vac"]%string;
     c_coverages := [[1#4; 1#2]; [1#4; 1#8]; [1#4; 1#8]; [1#4; 1#4]]%Q |}.
Definition nitrogen : cov_file :=
  {| c_types := map L ["O_s"; "N_s"]%string; c_coverages := [[1#4; 1#2]; [3#4; 1#2]]%Q |}.
Definition chlorine : cov_file :=
  {| c_types := map L ["Cl_s"; "Vac"]%string; c_coverages := [[1#4]; [3#4]]%Q |}.

(** Collected coverages *)
Definition five (c : str) : cov_file :=
  {| c_types := map L ["O_s"; "O_r"; "O_u"; "O_d"; "O_l"]%string ++ [c];
     c_coverages := [[0; 1#8]; [1#8]; [0]; [0]; [1#16]; [0; 1#2]]%Q |}.
Definition dirs : list (str * option cov_file) :=
  [(L "./0.2", Some (five (L "C"))); (L "./0.3", None); (L "./0.1", Some (five (L "C")))].

(** A sort by position for the results above. *)
Fixpoint insert_by (p : list Q) (i : nat) (l : list nat) : list nat :=
  match l with
  | [] => [i]
  | j :: t => if Qle_bool (nth i p 0%Q) (nth j p 0%Q) then i :: l else j :: insert_by p i t
  end.
Definition argsort (p : list Q) : list nat := fold_right (insert_by p) [] (seq 0 (length p)).

Lemma insert_by_perm p i l : Permutation (i :: l) (insert_by p i l).
Proof.
  induction l as [|j l IH]; cbn [insert_by]; [reflexivity|]. destruct (Qle_bool (nth i p 0%Q) (nth j p 0%Q)); [reflexivity|].
  rewrite perm_swap. now constructor.
Qed.
Lemma insert_by_sorted p i l : StronglySorted Qle (map (fun i => nth i p 0%Q) l) ->
  StronglySorted Qle (map (fun i => nth i p 0%Q) (insert_by p i l)).
Proof.
  induction l as [|j l IH]; cbn [insert_by map]; intro H; [constructor; constructor|].
  inversion H as [|? ? HS HF]; subst. destruct (Qle_bool (nth i p 0%Q) (nth j p 0%Q)) eqn:E.
  - cbn [map]. apply Qle_bool_iff in E. constructor; [assumption|]. constructor; [assumption|].
    rewrite Forall_forall in *. intros z Hz. eapply Qle_trans; [exact E|auto].
  - cbn [map]. constructor; [auto|]. rewrite Forall_forall in *. intros z Hz. apply in_map_iff in Hz as (k & <- & Hk).
    apply (Permutation_in _ (Permutation_sym (insert_by_perm p i l))) in Hk as [<-|Hk].
    + apply Qlt_le_weak. apply Qnot_le_lt. intro X. apply Qle_bool_iff in X. congruence.
    + apply HF. now apply (in_map (fun i => nth i p 0%Q)).
Qed.
Lemma argsort_orders p : orders p (argsort p).
Proof.
  unfold orders, argsort. generalize (seq 0 (length p)) as l. intro l. split.
  - induction l as [|i l IH]; [constructor|]. cbn [fold_right]. rewrite <- insert_by_perm. now constructor.
  - induction l as [|i l IH]; [constructor|]. cbn [fold_right]. now apply insert_by_sorted.
Qed.

(** Tables *)
Definition end_file (o co : Q) : cov_file := {| c_types := map L ["Vac"; "O_s"; "CO_s"]%string; c_coverages := [[1 - o - co]; [0; o]; [0; co]]%Q |}.
Definition square : list (str * list (str * option cov_file)) :=
  [(L "0.1", [(L "0.1", Some (end_file (1#2) (1#4))); (L "0.2", Some (end_file (1#4) (1#2)))]);
   (L "0.2", [(L "0.1", Some (end_file (3#4) (1#8))); (L "0.2", Some (end_file (1#2) (1#8)))])].
Definition ragged : list (str * list (str * option cov_file)) :=
  [(L "0.1", [(L "0.1", Some (end_file (1#2) (1#4)))]); (L "0.2", [(L "0.3", Some (end_file (3#4) (1#8)))])].
Definition unfinished : list (str * list (str * option cov_file)) :=
  [(L "0.1", [(L "0.1", Some (end_file (1#2) (1#4))); (L "0.2", None)])].

(** Rates *)
Definition rA : str := L "CO_s + O_s -> CO2_g + 2*_s".
Definition rB : str := L "O2_g + 2*_s -> 2O_s".
Definition rN : str := L "2N_s -> N2_g + 2*_s".
Definition rates2 : dict Q :=
  [(forward rB, 7); (reverse rB, 5); (reverse rA, 2); (forward rA, 3)]%Q.
Definition rates3 : dict Q := rates2 ++ [(forward rN, 0); (reverse rN, 0)]%Q.
Definition occ2 : dict Z := [(forward rB, 7); (reverse rB, 5); (reverse rA, 2); (forward rA, 3)]%Z.
(** Only one direction of the first reaction. *)
Definition occ_one : dict Z := [(forward rA, 3); (forward rB, 7); (reverse rB, 5)]%Z.

Lemma clean : forall r, In r [rB; rA] -> ~ In "("%char r.
Proof.
  intros r H X.
  assert (forallb (fun r => negb (has_char "(" r)) [rB; rA] = true) as E by (vm_compute; reflexivity).
  rewrite forallb_forall in E. specialize (E r H). apply negb_true_iff in E.
  assert (has_char "(" r = true); [|congruence]. unfold has_char. apply existsb_exists. exists "("%char. auto.
Qed.
Lemma rAB : rA <> rB.
Proof. intro H. assert (str_eqb rA rB = false) as X by (vm_compute; reflexivity). apply str_eqb_eq in H. congruence. Qed.
Lemma both2 {V} (d : dict V) : map fst d = [forward rB; reverse rB; reverse rA; forward rA] -> both_directions d [rB; rA].
Proof.
  intro E. split; [|split].
  - constructor; [|constructor; [intros []|constructor]]. intros [X|[]]. exact (rAB X).
  - exact clean.
  - intro n. rewrite E. split.
    + intros [<-|[<-|[<-|[<-|[]]]]]; [exists rB|exists rB|exists rA|exists rA]; cbn; auto.
    + intros (r & [<-|[<-|[]]] & [->| ->]); cbn [In]; auto.
Qed.
Lemma order2 : in_name_order [rB; rA] [rA; rB].
Proof.
  split; [apply perm_swap|]. constructor; [constructor; constructor|]. constructor; [|constructor].
  apply str_lt_before. unfold str_lt. vm_compute. reflexivity.
Qed.

(** *** Cases that go wrong *)
Lemma nitrogen_lost : exists f m, length (c_types f) = length (c_coverages f) /\
  (forall j, (j < 2)%nat -> sum_at j (c_coverages f) == 1) /\ merge 2 f = Ok m /\
  forall j, (j < 2)%nat -> nth j (m_O m) 0 + nth j (m_CO m) 0 + nth j (m_Vac m) 0 < 1.
Proof.
  exists nitrogen. eexists. split; [reflexivity|]. split; [|split; [vm_compute; reflexivity|]];
    intros [|[|j]] H; try lia; vm_compute; reflexivity.
Qed.
Lemma chlorine_as_CO : exists f m, (forall sp, In sp (c_types f) -> ~ exists x y, sp = x ++ L "CO" ++ y) /\
  merge 1 f = Ok m /\ 0 < nth 0 (m_CO m) 0.
Proof.
  exists chlorine. eexists. split; [|split; [vm_compute; reflexivity|vm_compute; reflexivity]].
  intros sp [<-|[<-|[]]] (x & y & E); cbn [L list_ascii_of_string map] in E.
  - destruct x as [|a [|b [|c [|d [|e x]]]]]; discriminate E.
  - destruct x as [|a [|b [|c [|d x]]]]; discriminate E.
Qed.
Lemma CO_not_found : exists number ds d f, In (d, Some f) ds /\ In (L "CO_s") (c_types f) /\
  (forall n, In n O_names -> In n (c_types f)) /\ (forall b, In b (c_coverages f) -> b <> []) /\
  length (c_types f) = length (c_coverages f) /\ extract_cvgs number ds = Err ValueError.
Proof.
  exists number, [(L "./0.2", Some (five (L "CO_s")))], (L "./0.2"), (five (L "CO_s")).
  split; [now left|]. split; [vm_compute; tauto|]. split; [intros n H; apply in_or_app; now left|].
  split; [|split; vm_compute; reflexivity]. intros b H. cbn in H. decompose [or] H; subst; try discriminate; contradiction.
Qed.
Lemma ragged_labels : exists (rows : list (str * list (str * option cov_file))) cs os m row i j o c v,
  extract_map number pick_O rows = Ok (cs, os, m) /\ nth_error m i = Some row /\ nth_error row j = Some v /\
  nth_error os i = Some o /\ nth_error cs j = Some c /\ ~ run_at number pick_O rows o c v.
Proof.
  exists ragged. do 4 eexists. exists 0%nat, 0%nat. do 3 eexists.
  split; [vm_compute; reflexivity|]. split; [reflexivity|]. split; [reflexivity|]. split; [reflexivity|]. split; [reflexivity|].
  intros (po & runs & pc & f & [E|[E|[]]] & HR & A & B & C); injection E as <- <-; destruct HR as [E|[]]; injection E as <- <-;
    vm_compute in A, B, C; congruence.
Qed.
Lemma wrong_place : exists f x y, In (L "O_s") (c_types f) /\ pick_O f = Ok x /\ last_of_type f (L "O_s") y /\ ~ x == y.
Proof.
  exists {| c_types := map L ["O_s"; "CO_s"; "Vac"]%string; c_coverages := [[1#2]; [1#4]; [1#8]]%Q |}, (1#4)%Q, (1#2)%Q.
  split; [now left|]. split; [reflexivity|]. split.
  - exists 0%nat, []. split; [|reflexivity]. exists [], (map L ["CO_s"; "Vac"]%string). split; [reflexivity|]. split; [intros []|reflexivity].
  - vm_compute. discriminate.
Qed.
Lemma idle_reaction : exists d r s s', both_directions d [rB; rA] /\ ~ In (forward r) (map fst d) /\ ~ In (reverse r) (map fst d) /\
  tof_at [0%nat; 2%nat] d = Ok s /\ tof_at [0%nat; 2%nat] (d ++ [(forward r, 0); (reverse r, 0)]%Q) = Ok s' /\ ~ s == s'.
Proof.
  exists rates2, rN, 10%Q, 3%Q.
  assert (forall x, str_mem x (map fst rates2) = false -> ~ In x (map fst rates2)) as X.
  { intros x H Y. apply str_mem_In in Y. congruence. }
  split; [now apply both2|]. split; [apply X; vm_compute; reflexivity|]. split; [apply X; vm_compute; reflexivity|].
  split; [vm_compute; reflexivity|]. split; [vm_compute; reflexivity|]. vm_compute. discriminate.
Qed.
Lemma shifted_bars : exists occ f r x, bars occ = Ok (f, r) /\ nth_error r 0 = Some x /\
  value_of occ (forward rB) x /\ forall n, In n (map fst occ) -> n <> reverse rA.
Proof.
  exists occ_one, [3; 5]%Z, [7]%Z, 7%Z. split; [vm_compute; reflexivity|]. split; [reflexivity|]. split.
  - exists [(forward rA, 3%Z)], [(reverse rB, 5%Z)]. split; [reflexivity|].
    intros [X|[]]. apply app_inv_tail in X. exact (rAB X).
  - intros n H ->.
    assert (existsb (str_eqb (reverse rA)) (map fst occ_one) = false) as E by (vm_compute; reflexivity).
    assert (existsb (str_eqb (reverse rA)) (map fst occ_one) = true); [|congruence].
    apply existsb_exists. exists (reverse rA). split; [assumption|]. now apply str_eqb_eq.
Qed.
Definition two_made : str := L "2CO_s + 2O_s -> 2CO2_g + 4*_s".
Definition acid_made : str := L "HCO2_s -> HCO2_g + *_s".
Definition adsorbed : str := L "CO2_g + *_s -> CO2_s".
Lemma two_counted_once : exists r, formed r (L "CO2") (L "g") 2 /\ consumed r (L "CO2") (L "g") 0 /\
  process_sign (L "CO2_g") (forward r) = Ok 1%Z.
Proof.
  exists two_made. split; [|split; [|vm_compute; reflexivity]].
  - unfold formed. destruct (rxn_formula_list two_made) as [l|] eqn:E; vm_compute in E; [|discriminate].
    injection E as <-. eexists [_], _. split; [reflexivity|]. vm_compute. reflexivity.
  - unfold consumed. destruct (rxn_formula_list two_made) as [l|] eqn:E; vm_compute in E; [|discriminate].
    injection E as <-. eexists _, _. split; [reflexivity|]. vm_compute. reflexivity.
Qed.
Lemma other_counted : exists r, formed r (L "CO2") (L "g") 0 /\ consumed r (L "CO2") (L "g") 0 /\
  process_sign (L "CO2_g") (forward r) = Ok 1%Z.
Proof.
  exists acid_made. split; [|split; [|vm_compute; reflexivity]].
  - unfold formed. destruct (rxn_formula_list acid_made) as [l|] eqn:E; vm_compute in E; [|discriminate].
    injection E as <-. eexists [_], _. split; [reflexivity|]. vm_compute. reflexivity.
  - unfold consumed. destruct (rxn_formula_list acid_made) as [l|] eqn:E; vm_compute in E; [|discriminate].
    injection E as <-. eexists _, _. split; [reflexivity|]. vm_compute. reflexivity.
Qed.
Lemma consumption_ignored : exists r, formed r (L "CO2") (L "g") 0 /\ consumed r (L "CO2") (L "g") 1 /\
  process_sign (L "CO2_g") (forward r) = Ok 0%Z /\ process_sign (L "CO2_g") (reverse r) = Ok 0%Z.
Proof.
  exists adsorbed. split; [|split; [|split; vm_compute; reflexivity]].
  - unfold formed. destruct (rxn_formula_list adsorbed) as [l|] eqn:E; vm_compute in E; [|discriminate].
    injection E as <-. eexists [_], _. split; [reflexivity|]. vm_compute. reflexivity.
  - unfold consumed. destruct (rxn_formula_list adsorbed) as [l|] eqn:E; vm_compute in E; [|discriminate].
    injection E as <-. eexists _, _. split; [reflexivity|]. vm_compute. reflexivity.
Qed.
Lemma rA_makes : makes (L "CO2_g") rA true.
Proof.
  unfold makes. destruct (rxn_tolist rA) as [l|] eqn:E; vm_compute in E; [|discriminate]. injection E as <-.
  eexists [_], _. split; [reflexivity|]. split; [|reflexivity]. intros _. exists [], (L " + 2*_s"). reflexivity.
Qed.
