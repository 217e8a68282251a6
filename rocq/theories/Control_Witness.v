(** A gas that turns into another one on the surface, and the control of its two steps. *)
From Coq Require Import String Ascii List ZArith NArith Bool Arith Reals Relations Lia Lra.
Import ListNotations.
From Verif Require Import PyBase PyBaseFacts Rxn_Model Rxn_Spec Species_Model Species_Spec
  PyReal Energy_Model Energy_Spec Thermo_Model Rate_Model Rate_Spec Rate_Proofs MF_Model MF_Spec MF_More MF_Witness Whole_Witness
  Whole_Rates Hop_Spec Hop_Witness Xrc_Model Xrc_Spec Xrc_Proofs Control_Spec Control_Proofs Control_Xrc.
Local Open Scope list_scope.
Local Open Scope R_scope.

Definition pump : list str := [L "HCN_g + *_s -> HCN_s"; L "HCN_s -> HNC_g + *_s"].
Definition pump_lists : lists := Eval vm_compute in lists_of pump.
Definition pump_setup : setup :=
  setup_of pump pump_lists [(L "*_s", MF_Witness.one)] [(L "HCN_g", 3); (L "HNC_g", 1)] [].
Lemma pump_usable : usable_setup pump_setup.
Proof. apply usable_setup_ok; vm_compute; reflexivity. Qed.
Definition pump_steps : list (str * str) := [(L "*_s", L "HCN_s"); (L "HCN_s", L "*_s")].
Lemma pump_only : only_hops pump_setup pump_steps.
Proof.
  split; [|apply NoDup_ok; vm_compute; reflexivity].
  cbv [s_lists pump_setup setup_of pump_lists l_rxns pump_steps].
  repeat (constructor; [cbn [fst snd]|]); [..|constructor].
  - eexists [_], _, [], [], [], _, []. hops.
  - eexists [], _, [], [], [_], _, []. hops.
Qed.
Lemma pump_linked : linked pump_setup pump_steps.
Proof. intros n Hn. vm_compute in Hn. destruct Hn as [<-|[]]. apply rst_step. vm_compute. auto. Qed.
Lemma pump_supplied : supplied (Rlt 0) pump_setup.
Proof.
  intros f (r & st & Hr & Hst & Hf).
  cbv [s_lists pump_setup setup_of pump_lists l_rxns] in Hr.
  repeat (destruct Hr as [<-|Hr]); try contradiction;
  repeat (destruct Hst as [<-|Hst]); try contradiction;
  repeat (destruct Hf as [<-|Hf]); try contradiction;
  (split; intro H; try discriminate H; lazy -[Rlt IZR]; lra).
Qed.
Lemma pump_total : forall site, In site (sites pump_setup) -> 0 <= total pump_setup site <= 1.
Proof.
  intros site H. vm_compute in H. destruct H as [<-|[]]. lazy -[Rle IZR]. lra.
Qed.

(** At rest, for any constants. *)
Definition filled (a b c d : R) : R := (3 * a + d) / (3 * a + d + b + c).
Lemma pump_rest a b c d : 0 < a -> 0 < b -> 0 < c -> 0 < d -> exists data, get_data pump_setup = Ok data /\
  at_rest pump_setup [a; c] [b; d] data [filled a b c d] /\
  turns pump_setup [a; c] [b; d] data [filled a b c d] 1 ((3 * a * c - b * d) / (3 * a + d + b + c)).
Proof.
  intros Ha Hb Hc Hd.
  destruct (explicit pump_setup pump_usable (proj2 pump_only) [filled a b c d] [a; c] [b; d] eq_refl eq_refl eq_refl)
    as (data & E1 & _ & _ & E4 & E5).
  exists data. split; [exact E1|]. split.
  - split; [reflexivity|]. eexists. split; [exact E4|]. intros y Hy.
    assert (Q : forall z, In y [z] -> z = 0 -> y = 0) by (intros z [<-|[]]; auto).
    revert Hy. lazy -[Rmult Rminus Rplus IZR Ropp Rinv In]. intro Hy. apply (Q _ Hy). unfold filled. field. lra.
  - eexists. split; [exact E5|]. lazy -[Rmult Rminus Rplus IZR Ropp Rinv]. f_equal. unfold filled. field. lra.
Qed.

(** Large changes: the sum is not one. *)
Lemma far_from_one : exists s l kf kr data c r f (kfs krs cs : nat -> list R) (rs ys : nat -> R) g,
  usable_setup s /\ only_hops s l /\ linked s l /\ supplied (Rlt 0) s /\
  (forall site, In site (sites s) -> 0 <= total s site <= 1) /\
  (forall a, In a kf -> 0 < a) /\ (forall b, In b kr -> 0 < b) /\
  get_data s = Ok data /\ at_rest s kf kr data c /\ turns s kf kr data c g r /\ r <> 0 /\ 0 < f /\ f <> 1 /\
  (forall j, (j < length (s_exprs s))%nat -> sped_up f j kf (kfs j) /\ sped_up f j kr (krs j) /\
     at_rest s (kfs j) (krs j) data (cs j) /\ turns s (kfs j) (krs j) data (cs j) g (rs j) /\
     forall k k', nth_error kf j = Some k -> nth_error (kfs j) j = Some k' -> is_control k r k' (rs j) (Num (ys j))) /\
  Rsum (map ys (seq 0 (length (s_exprs s)))) = 7 / 10.
Proof.
  destruct (pump_rest 1 1 1 1) as (data & D & R0 & T0); try lra.
  destruct (pump_rest 2 2 1 1) as (data1 & D1 & R1 & T1); try lra. assert (data1 = data) by congruence. subst data1.
  destruct (pump_rest 1 1 2 2) as (data2 & D2 & R2 & T2); try lra. assert (data2 = data) by congruence. subst data2.
  exists pump_setup, pump_steps, [1; 1], [1; 1], data, [filled 1 1 1 1], ((3 * 1 * 1 - 1 * 1) / (3 * 1 + 1 + 1 + 1)), 2.
  exists (fun j => match j with O => [2; 1] | _ => [1; 2] end), (fun j => match j with O => [2; 1] | _ => [1; 2] end).
  exists (fun j => match j with O => [filled 2 2 1 1] | _ => [filled 1 1 2 2] end).
  exists (fun j => match j with O => (3 * 2 * 1 - 2 * 1) / (3 * 2 + 1 + 2 + 1) | _ => (3 * 1 * 2 - 1 * 2) / (3 * 1 + 2 + 1 + 2) end).
  exists (fun j => match j with O => 1 / 5 | _ => 1 / 2 end), 1%nat.
  split; [exact pump_usable|]. split; [exact pump_only|]. split; [exact pump_linked|]. split; [exact pump_supplied|].
  split; [exact pump_total|]. split; [intros a [<-|[<-|[]]]; lra|]. split; [intros a [<-|[<-|[]]]; lra|].
  split; [exact D|]. split; [exact R0|]. split; [exact T0|]. split; [lra|]. split; [lra|]. split; [lra|]. split.
  - intros j Hj. change (j < 2)%nat in Hj. destruct j as [|[|j]]; [| |lia].
    + assert (Sp : sped_up 2 0 [1; 1] [2; 1]).
      { split; [reflexivity|]. intros [|[|[|i]]] x E; cbn in E |- *; try discriminate; injection E as <-; f_equal; lra. }
      split; [exact Sp|]. split; [exact Sp|]. split; [exact R1|]. split; [exact T1|].
      intros k k' E1 E2. injection E1 as <-. injection E2 as <-. right. split; [split; lra|]. eexists. split; [reflexivity|]. lra.
    + assert (Sp : sped_up 2 1 [1; 1] [1; 2]).
      { split; [reflexivity|]. intros [|[|[|i]]] x E; cbn in E |- *; try discriminate; injection E as <-; f_equal; lra. }
      split; [exact Sp|]. split; [exact Sp|]. split; [exact R2|]. split; [exact T2|].
      intros k k' E1 E2. injection E1 as <-. injection E2 as <-. right. split; [split; lra|]. eexists. split; [reflexivity|]. lra.
  - change (length (s_exprs pump_setup)) with 2%nat. cbn [seq map]. unfold Rsum. cbn [fold_right]. lra.
Qed.

(** Tools that do what they are for. *)
Definition pump_owner : owner :=
  {| o_T := 500; o_pressures := []; o_rxns := pump; o_rxns_list := []; o_Auc := 1; o_act_ratio := 1; o_corrector_str := false |}.
Definition pump_data : dict R * dict R := match get_data pump_setup with Ok d => d | Err _ => ([], []) end.
Definition pump_ks (ec : str -> R -> R -> R -> res R) (e : dict (list R)) : res (list R * list R) :=
  match dget e (L "Gaf"), dget e (L "Gar"), dget e (L "dG") with
  | Some a, Some b, Some c => rate_constants ec pump_owner (L "TST") (Some {| r_Gaf := a; r_Gar := b; r_dG := c |}) None
  | _, _, _ => Err KeyError
  end.
Definition positive4 (a b c d : R) : bool :=
  if Rlt_dec 0 a then if Rlt_dec 0 b then if Rlt_dec 0 c then if Rlt_dec 0 d then true else false else false else false else false.
Definition pump_tools (ec : str -> R -> R -> R -> res R) : tools (option (list R)) := {|
  t_stored w := w;
  t_tof c e g w := (match c with
                    | Some c => match pump_ks ec e with
                                | Ok k => match tofs pump_setup (Ok k) (Some pump_data) c with
                                          | Ok t => match nth_error t 1 with Some x => Ok x | None => Err IndexError end
                                          | Err x => Err x
                                          end
                                | Err x => Err x
                                end
                    | None => Err TypeError
                    end, w);
  t_constants e w := (match pump_ks ec e with Ok (kf, _) => Ok kf | Err x => Err x end, w);
  t_search c e w := match pump_ks ec e with
                    | Ok ([a; c], [b; d]) => if positive4 a b c d then (Ok (Some [filled a b c d]), Some [filled a b c d])
                                             else (Err ValueError, w)
                    | Ok _ => (Err ValueError, w)
                    | Err x => (Err x, w)
                    end;
  t_own := [(L "Gaf", 0%nat); (L "Gar", 1%nat); (L "dG", 2%nat)];
  t_size := 1 / 100;
  t_rxns := 2
|}.
Lemma positive4_true a b c d : positive4 a b c d = true <-> 0 < a /\ 0 < b /\ 0 < c /\ 0 < d.
Proof.
  unfold positive4. destruct (Rlt_dec 0 a), (Rlt_dec 0 b), (Rlt_dec 0 c), (Rlt_dec 0 d); split; intro H; try discriminate; tauto.
Qed.
Lemma pump_data_ok : get_data pump_setup = Ok pump_data.
Proof.
  destruct (pump_rest 1 1 1 1) as (data & D & _); try lra. unfold pump_data. now rewrite D.
Qed.
Lemma pump_ks_of ec e r : has_energies e r -> pump_ks ec e = rate_constants ec pump_owner (L "TST") (Some r) None.
Proof. intros (A & B & C). unfold pump_ks. rewrite A, B, C. destruct r; reflexivity. Qed.
Lemma pump_exact ec : exact_tools ec pump_owner None pump_setup pump_data (L "HNC_g") 1 (pump_tools ec).
Proof.
  split; [reflexivity|]. split; [|split].
  - intros e r ks w w' He. cbn [t_constants pump_tools]. rewrite (pump_ks_of ec e r He).
    destruct (rate_constants _ _ _ _ _) as [[kf kr]|x]; intro E; inversion E; subst. eauto.
  - intros guess e r kf kr c w w' He K. cbn [t_search pump_tools]. rewrite (pump_ks_of ec e r He), K.
    destruct kf as [|a [|c0 [|? ?]]]; try discriminate. destruct kr as [|b [|d [|? ?]]]; try discriminate.
    destruct (positive4 a b c0 d) eqn:P; [|discriminate]. intro E. inversion E; subst. eexists. split; [reflexivity|].
    apply positive4_true in P as (P1 & P2 & P3 & P4). destruct (pump_rest a b c0 d P1 P2 P3 P4) as (data & D & A & _).
    rewrite pump_data_ok in D. injection D as <-. exact A.
  - intros c e r kf kr x w w' He K. cbn [t_tof pump_tools]. rewrite (pump_ks_of ec e r He), K.
    destruct (tofs _ _ _ _) as [t|?] eqn:Et; [|discriminate]. destruct (nth_error t 1) eqn:En; [|discriminate].
    intro E. inversion E; subst. exists t. auto.
Qed.

Definition pump_e (a0 a1 b0 b1 : R) : dict (list R) := [(L "Gaf", [a0; a1]); (L "Gar", [b0; b1]); (L "dG", [0; 0])].
Definition pump_r (a0 a1 b0 b1 : R) : rel_energies := {| r_Gaf := [a0; a1]; r_Gar := [b0; b1]; r_dG := [0; 0] |}.
Lemma pump_has a0 a1 b0 b1 : has_energies (pump_e a0 a1 b0 b1) (pump_r a0 a1 b0 b1).
Proof. repeat split. Qed.
Lemma pump_constants ec a0 a1 b0 b1 : let k x := frequency 500 * exp (- x / kT 500) in
  rate_constants ec pump_owner (L "TST") (Some (pump_r a0 a1 b0 b1)) None = Ok ([k a0; k a1], [k b0; k b1]).
Proof.
  intro k. destruct (constants_entry ec pump_owner None (pump_r a0 a1 b0 b1)) as (kf & kr & E & L1 & L2 & V).
  - cbn. lra.
  - exact (proj2 pump_only).
  - repeat split.
  - rewrite E. destruct kf as [|x [|y [|? ?]]]; try discriminate. destruct kr as [|u [|v [|? ?]]]; try discriminate.
    destruct (V 0%nat) as (? & ? & A1 & A2 & A3 & A4); [cbn; lia|]. injection A1 as <-. injection A2 as <-. injection A3 as ->. injection A4 as ->.
    destruct (V 1%nat) as (? & ? & B1 & B2 & B3 & B4); [cbn; lia|]. injection B1 as <-. injection B2 as <-. injection B3 as ->. injection B4 as ->.
    reflexivity.
Qed.
Lemma k_pos x : 0 < frequency 500 * exp (- x / kT 500).
Proof. apply Rmult_lt_0_compat; [apply frequency_pos; lra|apply exp_pos]. Qed.
Lemma pump_finds ec a0 a1 b0 b1 : exists kf c x, forall guess w,
  t_constants (pump_tools ec) (pump_e a0 a1 b0 b1) w = (Ok kf, w) /\ length kf = 2%nat /\
  t_search (pump_tools ec) guess (pump_e a0 a1 b0 b1) w = (Ok (Some c), Some c) /\
  t_tof (pump_tools ec) (Some c) (pump_e a0 a1 b0 b1) (L "HNC_g") w = (Ok x, w).
Proof.
  pose proof (pump_constants ec a0 a1 b0 b1) as K. cbv zeta in K.
  set (a := frequency 500 * exp (- a0 / kT 500)) in *. set (c := frequency 500 * exp (- a1 / kT 500)) in *.
  set (b := frequency 500 * exp (- b0 / kT 500)) in *. set (d := frequency 500 * exp (- b1 / kT 500)) in *.
  destruct (pump_rest a b c d (k_pos _) (k_pos _) (k_pos _) (k_pos _)) as (data & D & _ & t & T1 & T2).
  rewrite pump_data_ok in D. injection D as <-.
  exists [a; c], [filled a b c d]. eexists. intros guess w. cbn [t_constants t_search t_tof pump_tools].
  rewrite (pump_ks_of ec _ _ (pump_has a0 a1 b0 b1)), K.
  assert (positive4 a b c d = true) as -> by (apply positive4_true; repeat split; apply k_pos).
  rewrite T1, T2. repeat split; reflexivity.
Qed.
Definition pump_heap : heap := [[0; 0]; [0; 0]; [0; 0]].
Definition pump_refs : refs := [(L "Gaf", 0%nat); (L "Gar", 1%nat); (L "dG", 2%nat)].
Lemma pump_raised0 eps : raised pump_refs 0 eps (pump_e 0 0 0 0) (pump_e (0 + 1 * eps) 0 (0 + 1 * eps) 0).
Proof.
  split; [reflexivity|]. intros n l H. unfold pump_e in H. apply dget_In in H.
  destruct H as [H|[H|[H|[]]]]; inversion H; subst; (eexists; split; [reflexivity|]; split; [reflexivity|]);
    intros [|[|[|j]]] x E; cbn in E; try discriminate; injection E as <-; cbn -[INR Rplus Rmult]; f_equal; cbn; lra.
Qed.
Lemma pump_raised1 eps : raised pump_refs 1 eps (pump_e 0 0 0 0) (pump_e 0 (0 + 1 * eps) 0 (0 + 1 * eps)).
Proof.
  split; [reflexivity|]. intros n l H. unfold pump_e in H. apply dget_In in H.
  destruct H as [H|[H|[H|[]]]]; inversion H; subst; (eexists; split; [reflexivity|]; split; [reflexivity|]);
    intros [|[|[|j]]] x E; cbn in E; try discriminate; injection E as <-; cbn -[INR Rplus Rmult]; f_equal; cbn; lra.
Qed.
Lemma a_control k r k' r' : exists x, is_control k r k' r' x.
Proof.
  destruct (Req_dec r 0) as [E|E]; [exists Inf; left; auto|]. destruct (Req_dec k' k) as [F|F]; [exists Inf; left; auto|].
  exists (Num (k * (r' - r) / (r * (k' - k)))). right. split; [auto|]. eexists. split; [reflexivity|]. field. split; lra.
Qed.

(** All the hypotheses hold at once: the run ends, and its rate is not zero. *)
Lemma pump_runs ec eps : exists kf kr guess rate xs h' w',
  rate_constants ec pump_owner (L "TST") (Some (pump_r 0 0 0 0)) None = Ok (kf, kr) /\
  at_rest pump_setup kf kr pump_data guess /\ turns pump_setup kf kr pump_data guess 1 rate /\ rate <> 0 /\
  single_xrc (pump_tools ec) (L "HNC_g") (Some eps) None pump_heap (Some guess) = (Ok xs, h', w') /\ length xs = 2%nat.
Proof.
  pose proof (pump_constants ec 0 0 0 0) as K. cbv zeta in K. set (k := frequency 500 * exp (- 0 / kT 500)) in *.
  pose proof (k_pos 0) as Pk. fold k in Pk.
  destruct (pump_rest k k k k Pk Pk Pk Pk) as (data & D & R0 & T0). rewrite pump_data_ok in D. injection D as <-.
  exists [k; k], [k; k], [filled k k k k]. eexists.
  destruct (pump_finds ec (0 + 1 * eps) 0 (0 + 1 * eps) 0) as (kf1 & c1 & x1 & F1).
  destruct (pump_finds ec 0 (0 + 1 * eps) 0 (0 + 1 * eps)) as (kf2 & c2 & x2 & F2).
  set (r := (3 * k * k - k * k) / (3 * k + k + k + k)) in *.
  assert (exists a a' : R, nth_error kf1 0 = Some a /\ nth_error kf2 1 = Some a') as (k1 & k2 & N1 & N2).
  { pose proof (proj1 (proj2 (F1 [] None))) as M1. pose proof (proj1 (proj2 (F2 [] None))) as M2.
    destruct kf1 as [|? [|? ?]]; try discriminate. destruct kf2 as [|? [|? ?]]; try discriminate. eexists _, _. split; reflexivity. }
  destruct (a_control k r k1 x1) as (y1 & Y1). destruct (a_control k r k2 x2) as (y2 & Y2).
  assert (Tt : forall w, t_tof (pump_tools ec) (Some [filled k k k k]) (pump_e 0 0 0 0) (L "HNC_g") w = (Ok r, w)).
  { intro w. cbn [t_tof pump_tools]. rewrite (pump_ks_of ec _ _ (pump_has 0 0 0 0)), K. destruct T0 as (t & T1 & T2). now rewrite T1, T2. }
  assert (Tc : forall w, t_constants (pump_tools ec) (pump_e 0 0 0 0) w = (Ok [k; k], w)).
  { intro w. cbn [t_constants pump_tools]. now rewrite (pump_ks_of ec _ _ (pump_has 0 0 0 0)), K. }
  destruct (proj2 (single_ok (pump_tools ec) (L "HNC_g") (Some eps) None pump_heap (Some [filled k k k k]) [y1; y2] (Some c2)
    (pump_e 0 0 0 0) ltac:(apply NoDup_ok; reflexivity) eq_refl
    ltac:(exists [0; 0], [0; 0]; repeat split; cbn; lia))) as (h' & S).
  - exists [filled k k k k], r, [k; k], (Some [filled k k k k]), (Some [filled k k k k]).
    split; [reflexivity|]. split; [apply Tt|]. split; [apply Tc|].
    destruct (F1 [filled k k k k] (Some [filled k k k k])) as (A1 & _ & A2 & _). destruct (F1 [] (Some c1)) as (_ & _ & _ & A3).
    destruct (F2 [filled k k k k] (Some c1)) as (B1 & _ & B2 & _). destruct (F2 [] (Some c2)) as (_ & _ & _ & B3).
    eapply next with (k := k); [apply pump_raised0|reflexivity|exact A1|exact N1|exact A2|exact A3|exact Y1|].
    eapply next with (k := k); [apply pump_raised1|reflexivity|exact B1|exact N2|exact B2|exact B3|exact Y2|]. constructor.
  - exists [y1; y2], h', (Some c2). split; [exact K|]. split; [exact R0|]. split; [exact T0|]. split; [|split; [exact S|reflexivity]].
    unfold r. assert (0 < (3 * k * k - k * k) / (3 * k + k + k + k)); [|lra].
    apply Rdiv_lt_0_compat; [|lra]. replace (3 * k * k - k * k) with (2 * (k * k)) by ring. apply Rmult_lt_0_compat; [lra|]. now apply Rmult_lt_0_compat.
Qed.

(** The same tools within any tolerance. *)
Lemma pump_near a b c d tol : 0 <= tol -> 0 < a -> 0 < b -> 0 < c -> 0 < d ->
  near_rest pump_setup [a; c] [b; d] pump_data tol [filled a b c d].
Proof.
  intros Ht Ha Hb Hc Hd. destruct (pump_rest a b c d Ha Hb Hc Hd) as (data & D & A & _).
  pose proof D as D'. rewrite pump_data_ok in D'. injection D' as <-.
  destruct (rest_near pump_setup pump_usable pump_steps pump_only pump_total pump_supplied pump_linked [a; c] [b; d] eq_refl eq_refl
    ltac:(intros x [<-|[<-|[]]]; assumption) ltac:(intros x [<-|[<-|[]]]; assumption) pump_data _ D A) as (F & l & E & H).
  split; [exact F|]. exists l. split; [exact E|]. intros y Hy. specialize (H y Hy). lra.
Qed.
Lemma pump_rough ec tol : 0 <= tol -> rough_tools ec pump_owner None pump_setup pump_data (L "HNC_g") 1 tol (pump_tools ec).
Proof.
  intro Ht. destruct (pump_exact ec) as (X0 & X1 & _ & X3). split; [exact X0|]. split; [exact X1|]. split; [|exact X3].
  intros guess e r kf kr c w w' He K. cbn [t_search pump_tools]. rewrite (pump_ks_of ec e r He), K.
  destruct kf as [|a [|c0 [|? ?]]]; try discriminate. destruct kr as [|b [|d [|? ?]]]; try discriminate.
  destruct (positive4 a b c0 d) eqn:P; [|discriminate]. intro E. inversion E; subst. eexists. split; [reflexivity|].
  apply positive4_true in P as (P1 & P2 & P3 & P4). now apply pump_near.
Qed.
