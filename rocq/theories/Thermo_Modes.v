(** Lemmas: vibrations of the molecules (C105). *)
From Coq Require Import String Ascii List ZArith Bool Reals Lra Lia.
Import ListNotations.
From Verif Require Import PyBase PyBaseFacts Rxn_Model Rxn_Spec PyReal Energy_Model Energy_Spec
  Thermo_Model Rate_Spec Rate_Model Rate_Proofs RDeriv Thermo_Spec Thermo_Proofs Thermo_Entropy Thermo_Witness
  Thermo_More Thermo_Jump Thermo_Fall.
Open Scope list_scope.
Open Scope R_scope.

Lemma molecules_all g : In g entropy_gases <-> In g (map mo_gas molecules).
Proof. unfold entropy_gases, molecules. cbn [map In mo_gas]. tauto. Qed.

Lemma molecule_tables mo : In mo molecules -> exists rth vth,
  dget rotation_temperatures (mo_gas mo) = Some (mo_symmetry mo, rth) /\
  dget vibration_temperatures (mo_gas mo) = Some vth /\
  length rth = (if mo_linear mo then 1 else 3)%nat /\
  length vth = length (mo_repeats mo) /\
  fold_right Nat.add 0%nat (mo_repeats mo) = normal_modes mo.
Proof.
  intro H. unfold molecules in H. cbn [In] in H.
  repeat (destruct H as [<-|H]; [do 2 eexists; split; [reflexivity|]; split; [reflexivity|]; split; [reflexivity|];
    split; reflexivity|]). destruct H.
Qed.

Lemma modes_exact mo vth : In mo molecules -> dget vibration_temperatures (mo_gas mo) = Some vth ->
  (length vth = normal_modes mo <-> ~ In (mo_gas mo) [L "CO2_g"; L "N2O_g"; L "NH3_g"; L "CH4_g"]).
Proof.
  intros H E. unfold molecules in H. cbn [In] in H.
  repeat (destruct H as [<-|H]; [injection E as <-; cbn [length normal_modes mo_atoms mo_linear mo_gas Nat.mul Nat.add Nat.sub];
    first [split; [intros _ K; repeat (destruct K as [K|K]; [discriminate K|]); destruct K|reflexivity]
          |split; [discriminate|intro K; exfalso; apply K; clear; cbn [In]; tauto]]|]). destruct H.
Qed.

Lemma temperatures_close g rot vib : In (g, rot, vib) spectroscopy -> exists sigma rth vth,
  dget rotation_temperatures g = Some (sigma, rth) /\ dget vibration_temperatures g = Some vth /\
  Forall2 (within 0.04) vth vib /\ (g <> L "CO2_g" -> Forall2 (within 0.06) rth rot).
Proof.
  intro H. unfold spectroscopy in H. cbn [In] in H.
  repeat (destruct H as [H|H]; [injection H as <- <- <-; do 3 eexists; split; [reflexivity|]; split; [reflexivity|];
    split; [repeat (constructor; [unfold within; apply Rabs_le; split; lra|]); constructor
           |intro N; first [exfalso; apply N; reflexivity|repeat (constructor; [unfold within; apply Rabs_le; split; lra|]); constructor]]|]). destruct H.
Qed.

Lemma co2_rotation : exists sigma th, dget rotation_temperatures (L "CO2_g") = Some (sigma, [th]) /\
  In (L "CO2_g", [0.561], [960; 1930; 3380]) spectroscopy /\ ~ within 0.17 th 0.561.
Proof.
  do 2 eexists. split; [reflexivity|]. split; [do 7 right; now left|].
  unfold within, Rabs. destruct (Rcase_abs _); lra.
Qed.

(** ** The correction by its parts *)
Lemma vib_parts vth T : vth <> [] -> Forall (fun th => 0 < th) vth -> 0 < T ->
  kT T * ln (q_vib vth T) = kT T * ln_vibrations (repeat 1%nat (length vth)) vth T
                            - match vth with [th] => zero_point th | _ => 0 end.
Proof.
  intros N F HT.
  assert (K : forall l, Forall (fun th => 0 < th) l -> 0 < fold_right Rmult 1 (map (fun th => q_vib1 th T) l) /\
    ln (fold_right Rmult 1 (map (fun th => q_vib1 th T) l)) = ln_vibrations (repeat 1%nat (length l)) l T).
  { induction 1 as [|x l Hx Hl [IH1 IH2]]; cbn [map fold_right length repeat ln_vibrations]; [rewrite ln_1; lra|].
    pose proof (q_vib1_pos x T Hx HT). split; [now apply Rmult_lt_0_compat|].
    rewrite ln_mult by auto. rewrite IH2. cbn [INR]. lra. }
  destruct vth as [|a [|b l]]; [congruence| |].
  - inversion F as [|? ? Ha _]; subst. pose proof (q_vib1_pos a T Ha HT). cbn [q_vib length repeat ln_vibrations INR].
    rewrite ln_mult by (auto; apply exp_pos). rewrite ln_exp. unfold kT, zero_point. field. lra.
  - change (q_vib (a :: b :: l) T) with (fold_right Rmult 1 (map (fun th => q_vib1 th T) (a :: b :: l))).
    rewrite (proj2 (K _ F)). lra.
Qed.

Lemma correction_parts name f mo rth vth qr m p T : parse_formula name = Ok f -> f_site f = L "g" ->
  In mo molecules -> f_species_site f = mo_gas mo ->
  dget rotation_temperatures (mo_gas mo) = Some (mo_symmetry mo, rth) ->
  dget vibration_temperatures (mo_gas mo) = Some vth ->
  0 < m -> 0 < p -> 0 < T -> q_rot (mo_symmetry mo) rth T qr ->
  exists g, entropy_correction_full rotation_temperatures vibration_temperatures name m p T = Ok g /\
    g = - kT T * (ln (q_trans m p T) + ln qr + ln_vibrations (repeat 1%nat (length vth)) vth T)
        + match vth with [th] => zero_point th | _ => 0 end.
Proof.
  intros P G H E Dr Dv Hm Hp HT Q.
  assert (S1 : 0 < mo_symmetry mo /\ vth <> [] /\ Forall (fun th => 0 < th) vth).
  { clear - H Dv. unfold molecules in H. cbn [In] in H.
    repeat (destruct H as [<-|H]; [injection Dv as <-; split; [cbn [mo_symmetry]; lra|]; split; [discriminate|];
      repeat constructor; lra|]). destruct H. }
  destruct S1 as (S1 & N & F). eexists. split.
  - apply (entropy_value _ _ name f (mo_symmetry mo) rth vth qr); auto; rewrite E; auto.
  - pose proof (vib_parts vth T N F HT) as K. lra.
Qed.

(** Repeated vibrations are counted once: the correction is too high. *)
Lemma repeated_vibrations reps vth T : length reps = length vth -> Forall (fun th => 0 < th) vth -> 0 < T ->
  Forall (fun n => 1 <= n)%nat reps ->
  ln_vibrations (repeat 1%nat (length vth)) vth T <= ln_vibrations reps vth T /\
  (Exists (fun n => 2 <= n)%nat reps -> ln_vibrations (repeat 1%nat (length vth)) vth T < ln_vibrations reps vth T).
Proof.
  intros E F HT R. revert reps E R. induction F as [|x l Hx Hl IH]; intros [|n reps] E R; try discriminate.
  - cbn [length repeat ln_vibrations]. split; [lra|]. intro X. inversion X.
  - injection E as E. inversion R as [|? ? R1 R2]; subst. destruct (IH reps E R2) as [I1 I2].
    cbn [length repeat ln_vibrations INR].
    assert (Q : 0 < ln (q_vib1 x T)).
    { rewrite <- ln_1. apply ln_increasing; [lra|]. unfold q_vib1. rewrite <- Rinv_1 at 1.
      assert (X : 0 < x / T) by now apply Rdiv_lt_0_compat.
      pose proof (exp_neg_lt1 _ X). pose proof (exp_pos (- (x / T))). apply Rinv_lt_contravar; lra. }
    assert (B : 1 <= INR n) by (replace 1 with (INR 1) by reflexivity; now apply le_INR).
    split; [nra|]. intro X. inversion X as [? ? X1|? ? X1]; subst.
    + assert (2 <= INR n) by (replace 2 with (INR 2) by (cbn; lra); now apply le_INR). nra.
    + specialize (I2 X1). nra.
Qed.

Lemma too_high name f mo rth vth qr m p T : parse_formula name = Ok f -> f_site f = L "g" ->
  In mo molecules -> f_species_site f = mo_gas mo ->
  dget rotation_temperatures (mo_gas mo) = Some (mo_symmetry mo, rth) ->
  dget vibration_temperatures (mo_gas mo) = Some vth ->
  0 < m -> 0 < p -> 0 < T -> q_rot (mo_symmetry mo) rth T qr ->
  exists g, entropy_correction_full rotation_temperatures vibration_temperatures name m p T = Ok g /\
    (In (mo_gas mo) [L "CO2_g"; L "N2O_g"; L "NH3_g"; L "CH4_g"] ->
     - kT T * (ln (q_trans m p T) + ln qr + ln_vibrations (mo_repeats mo) vth T) < g).
Proof.
  intros P G H E Dr Dv Hm Hp HT Q.
  destruct (correction_parts name f mo rth vth qr m p T P G H E Dr Dv Hm Hp HT Q) as (g & C & V).
  exists g. split; [exact C|]. intro B.
  assert (A : length (mo_repeats mo) = length vth /\ Forall (fun th => 0 < th) vth /\
    Forall (fun n => 1 <= n)%nat (mo_repeats mo) /\ Exists (fun n => 2 <= n)%nat (mo_repeats mo) /\
    match vth with [th] => zero_point th | _ => 0 end = 0).
  { clear - H B Dv. unfold molecules in H. cbn [In] in H.
    repeat (destruct H as [<-|H]; [first [exfalso; repeat (destruct B as [B|B]; [discriminate B|]); exact B
      |injection Dv as <-; cbn [mo_repeats]; split; [reflexivity|]; split; [repeat constructor; lra|];
       split; [repeat constructor|]; split; [|reflexivity];
       first [apply Exists_cons_hd; lia|apply Exists_cons_tl, Exists_cons_hd; lia]]|]). destruct H. }
  destruct A as (A1 & A2 & A3 & A4 & A5). rewrite A5 in V.
  destruct (repeated_vibrations _ _ T A1 A2 HT A3) as [_ K]. specialize (K A4).
  assert (KT : 0 < kT T) by now apply kT_pos. rewrite V. nra.
Qed.
