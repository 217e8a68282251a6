(** Lemmas: equilibrium averages on a lattice (C113). *)
From Coq Require Import String Ascii List ZArith NArith Bool Arith QArith Qreals Reals Lra Lia Permutation.
Import ListNotations.
From Verif Require Import PyBase PyBaseFacts Kmc_Model Kmc_Spec Kmc_Proofs KmcLat_Spec KmcLat_Proofs KmcLat_Witness
  KmcMean_Spec KmcMean_Proofs KmcDrift_Spec KmcDrift_Proofs KmcEq_Spec.
From Verif Require KCov_Model KCov_Spec KCov_Proofs Species_Model MF_Model MF_Spec Rate_Model Rate_Spec.
Local Open Scope list_scope.
Local Open Scope nat_scope.

Section Averages.
  Variable E : str -> R.
  Variable types : list str.
  Hypothesis some : types <> [].
  Notation z := (sum (map (fun x => exp (- E x)) types)).
  Notation W := (fun n => sum (map (weight E) (configs types n))).

  Lemma sum_pos {A} (f : A -> R) l : l <> [] -> (forall x, 0 < f x)%R -> (0 < sum (map f l))%R.
  Proof.
    intros H F. destruct l as [|x l]; [congruence|]. clear H. revert x. unfold sum.
    induction l as [|y l IH]; intro x; cbn [map fold_right]; specialize (F x) as Fx; [lra|]. specialize (IH y).
    cbn [map fold_right] in IH. lra.
  Qed.
  Lemma z_pos : (0 < z)%R.
  Proof. apply sum_pos; auto. intro x. apply exp_pos. Qed.
  Lemma configs_some n : configs types n <> [].
  Proof.
    induction n as [|n IH]; [discriminate|]. cbn [configs]. destruct types as [|t l]; [congruence|]. cbn [flat_map].
    destruct (configs (t :: l) n); [congruence|discriminate].
  Qed.
  Lemma W_pos n : (0 < W n)%R.
  Proof. apply sum_pos; [apply configs_some|]. intro X. apply exp_pos. Qed.

  Lemma weight_cons x X : weight E (x :: X) = (exp (- E x) * weight E X)%R.
  Proof. unfold weight, energy. cbn [map]. unfold sum. cbn [fold_right]. rewrite <- exp_plus. f_equal. lra. Qed.

  Lemma sum_next (f : config -> R) n : sum (map f (configs types (S n)))
    = sum (map (fun x => sum (map (fun X => f (x :: X)) (configs types n))) types).
  Proof. cbn [configs]. rewrite sum_flat_map. apply sum_ext. intros x _. now rewrite map_map. Qed.

  Lemma sum_scale' {A} c (f : A -> R) l : sum (map (fun x => c * f x)%R l) = (c * sum (map f l))%R.
  Proof. rewrite sum_scale, map_map. reflexivity. Qed.
  Lemma sum_scale_r {A} c (f : A -> R) l : sum (map (fun x => f x * c)%R l) = (sum (map f l) * c)%R.
  Proof. rewrite Rmult_comm, <- sum_scale'. apply sum_ext. intros; lra. Qed.

  Lemma W_next n : W (S n) = (z * W n)%R.
  Proof.
    cbv beta. rewrite sum_next. rewrite <- sum_scale_r. apply sum_ext. intros x _.
    rewrite <- sum_scale'. apply sum_ext. intros X _. apply weight_cons.
  Qed.

  Hypothesis distinct : NoDup types.
  Lemma site_average n : forall i t, i < n -> In t types ->
    sum (map (fun X => weight E X * (if str_eqb (nth i X []) t then 1 else 0))%R (configs types n))
    = (boltzmann E types t * W n)%R.
  Proof.
    induction n as [|n IH]; intros i t Hi Ht; [lia|]. rewrite W_next, sum_next. pose proof z_pos as Z.
    destruct i as [|i].
    - rewrite (sum_ext _ (fun x => (exp (- E x) * (if str_eqb x t then 1 else 0)) * W n)%R).
      + rewrite sum_scale_r, (sum_pick (fun x => exp (- E x)) types t distinct Ht). unfold boltzmann. field. lra.
      + intros x _. rewrite <- sum_scale'. apply sum_ext. intros X _. rewrite weight_cons. cbn [nth]. ring.
    - rewrite (sum_ext _ (fun x => exp (- E x) * (boltzmann E types t * W n))%R).
      + rewrite sum_scale_r. ring.
      + intros x _. rewrite <- (IH i t) by (auto; lia). rewrite <- sum_scale'. apply sum_ext. intros X _.
        rewrite weight_cons. cbn [nth]. ring.
  Qed.

  Lemma boltzmann_total : sum (map (boltzmann E types) types) = 1%R.
  Proof.
    unfold boltzmann. rewrite (sum_ext _ (fun x => exp (- E x) * / z)%R) by reflexivity.
    rewrite sum_scale_r. field. pose proof z_pos. lra.
  Qed.

  Lemma average_ext n f g : (forall X, In X (configs types n) -> f X = g X) -> average E types n f = average E types n g.
  Proof. intro H. unfold average. f_equal. apply sum_ext. intros X HX. now rewrite H. Qed.

  (** A sum over the sites, with a coefficient for each. *)
  Fixpoint sum_below (n : nat) (f : nat -> R) : R := match n with O => 0%R | S k => (sum_below k f + f k)%R end.
  Lemma sites_average n t (c : nat -> R) : In t types -> forall k, k <= n ->
    average E types n (fun X => sum_below k (fun i => if str_eqb (nth i X []) t then c i else 0%R))
    = (sum_below k c * boltzmann E types t)%R.
  Proof.
    intro Ht. unfold average. pose proof (W_pos n) as Wp. induction k as [|k IH]; intro Hk; cbn [sum_below].
    - rewrite sum_scale_r. field. lra.
    - rewrite (sum_ext _ (fun X => weight E X * sum_below k (fun i => if str_eqb (nth i X []) t then c i else 0%R)
        + c k * (weight E X * (if str_eqb (nth k X []) t then 1 else 0)))%R)
        by (intros X _; destruct (str_eqb (nth k X []) t); ring).
      rewrite sum_plus, sum_scale', (site_average n k t) by (auto; lia).
      unfold Rdiv. rewrite Rmult_plus_distr_r. unfold Rdiv in IH. rewrite IH by lia. field. lra.
  Qed.

  Lemma Q2R_sum n f : Q2R (KCov_Spec.Qsum_below n f) = sum_below n (fun i => Q2R (f i)).
  Proof. induction n as [|n IH]; cbn [KCov_Spec.Qsum_below sum_below]; [apply RMicromega.Q2R_0|]. rewrite Q2R_plus, IH. reflexivity. Qed.

  Lemma sum_below_ext n f g : (forall i, i < n -> f i = g i) -> sum_below n f = sum_below n g.
  Proof. induction n as [|n IH]; intro H; cbn [sum_below]; [reflexivity|]. rewrite IH, (H n) by (intros; apply H || idtac; lia). reflexivity. Qed.

  Lemma configs_types n X : In X (configs types n) -> forall t, In t X -> In t types.
  Proof.
    revert X. induction n as [|n IH]; intros X HX t Ht.
    - destruct HX as [<-|[]]. destruct Ht.
    - cbn [configs] in HX. apply in_flat_map in HX as (x & Hx & HX). apply in_map_iff in HX as (Y & <- & HY).
      destruct Ht as [<-|Ht]; auto. now apply (IH Y).
  Qed.

  Lemma recorded_average empty ratios n k j t : In empty types -> ratios <> [] -> n = k * length ratios -> 0 < k ->
    (KCov_Spec.total ratios == 1)%Q -> nth_error types j = Some t ->
    average E types n (fun X => match KCov_Model.step_coverages types empty ratios X with
                                | Ok v => Q2R (nth j v 0%Q) | Err _ => 0%R end) = boltzmann E types t.
  Proof.
    intros He Hr Hn Hk T Hj. assert (Hr' : length ratios <> 0) by (destruct ratios; [congruence|discriminate]).
    assert (Hn0 : 0 < n) by (subst n; nia).
    assert (Ki : IZR (Z.of_nat k) <> 0%R) by (apply not_0_IZR; lia).
    rewrite (average_ext n _ (fun X => sum_below n (fun i => if str_eqb (nth i X []) t
      then Q2R (KCov_Spec.weight ratios i) / IZR (Z.of_nat k) else 0)%R)).
    - rewrite sites_average; [|now apply nth_error_In in Hj|lia].
      assert (S1 : sum_below n (fun i => Q2R (KCov_Spec.weight ratios i) / IZR (Z.of_nat k))%R = 1%R).
      2:{ rewrite S1. lra. }
      assert (S2 : forall m f, sum_below m (fun i => f i / IZR (Z.of_nat k))%R = (sum_below m f / IZR (Z.of_nat k))%R).
      { intros m f. induction m as [|m IH]; cbn [sum_below]; [field; auto|]. rewrite IH. field. auto. }
      rewrite S2, <- Q2R_sum. subst n. rewrite (Qeq_eqR _ _ (KCov_Proofs.weights_total ratios k Hr')).
      rewrite Q2R_mult, (Qeq_eqR _ _ T). replace (Q2R (inject_Z (Z.of_nat k))) with (IZR (Z.of_nat k)).
      + rewrite RMicromega.Q2R_1. field. auto.
      + unfold Q2R, inject_Z. cbn. field.
    - intros X HX. pose proof (configs_length _ _ _ HX) as HL.
      destruct (KCov_Proofs.step_fractions types empty ratios X distinct He) as (v & Ev & F); auto.
      + split; [intro; subst X; cbn in HL; lia|]. split; auto. exists k. congruence.
      + now apply (configs_types n).
      + rewrite Ev.
        assert (V : (nth j v 0 == KCov_Spec.fraction ratios X t)%Q).
        { clear - F Hj. revert j Hj. induction F as [|a b l m H F IH]; intros [|j] Hj; try discriminate.
          - injection Hj as <-. exact H.
          - now apply IH. }
        rewrite (Qeq_eqR _ _ V). unfold KCov_Spec.fraction. rewrite HL.
        replace (n / length ratios) with k by (subst n; rewrite Nat.div_mul; auto).
        rewrite Q2R_div. 2:{ unfold Qeq. cbn. lia. }
        replace (Q2R (inject_Z (Z.of_nat k))) with (IZR (Z.of_nat k)) by (unfold Q2R, inject_Z; cbn; field).
        rewrite Q2R_sum.
        assert (S2 : forall m f, sum_below m (fun i => f i / IZR (Z.of_nat k))%R = (sum_below m f / IZR (Z.of_nat k))%R).
        { intros m f. induction m as [|m IH]; cbn [sum_below]; [field; auto|]. rewrite IH. field. auto. }
        rewrite <- S2. apply sum_below_ext. intros i _. destruct (str_eqb (nth i X []) t); [reflexivity|].
        rewrite RMicromega.Q2R_0. field. auto.
  Qed.

  (** Independent sites: the products of the shares are the weights. *)
  Lemma product_boltzmann l : product (map (boltzmann E types) l) = (weight E l / z ^ length l)%R.
  Proof.
    pose proof z_pos as Z. induction l as [|x l IH].
    - unfold product, weight, energy, sum. cbn. rewrite Ropp_0, exp_0. field.
    - unfold product in *. cbn [map fold_right length pow]. rewrite IH, weight_cons. unfold boltzmann. field.
      split; try apply pow_nonzero; apply Rgt_not_eq; exact Z.
  Qed.
End Averages.

Lemma same_length p : same_wildcards p -> length (named (d_before p)) = length (named (d_after p)).
Proof.
  unfold same_wildcards, named. intro F. induction F as [|b c l m H F IH]; [reflexivity|]. cbn [filter].
  destruct (str_eqb_spec b (L "*")) as [Eb|Nb], (str_eqb_spec c (L "*")) as [Ec|Nc]; cbn [negb length]; auto; exfalso; tauto.
Qed.

(** With balanced rates the shares of all definitions vanish at the coverages of equilibrium. *)
Lemma no_drift neighbour basis n E q (o : owner R) mapping ds ps m :
  get_processes o mapping ds = (Ok ps, m) ->
  (forall d, In d ds -> flag d "redist" false /\ forall p, describes d p -> same_wildcards p /\ roomy neighbour n p) ->
  (forall d p rf rr, In d ds -> describes d p -> rate_pair o (d_reaction p) rf rr -> balanced E p rf rr) ->
  NoDup (possible_element_types o) -> possible_element_types o <> [] ->
  drift neighbour basis n (possible_element_types o) (boltzmann E (possible_element_types o)) q ps = 0%R.
Proof.
  intros H F B N So.
  destruct (total_drift neighbour basis n (boltzmann E (possible_element_types o)) q o mapping ds ps m H F N
    (boltzmann_total E _ So)) as (xs & Sh & ->).
  clear H. induction Sh as [|d x ds xs Hx Sh IH]; [reflexivity|]. unfold sum in *. cbn [fold_right].
  rewrite IH by (intros; first [apply F|eapply B; eauto]; now right). clear IH.
  destruct Hx as (pd & rf & rr & D & Rp & ->). specialize (B d pd rf rr (or_introl eq_refl) D Rp).
  destruct (F d (or_introl eq_refl)) as [_ F1]. destruct (F1 pd D) as [Sw _]. apply same_length in Sw.
  rewrite !product_boltzmann, Sw by exact So. unfold balanced in B. pose proof (z_pos E _ So) as Z.
  match goal with |- (?a * (rf * (?u / ?w) - rr * (?v / ?w)) + 0)%R = _ =>
    replace (a * (rf * (u / w) - rr * (v / w)) + 0)%R with (a * ((rf * u - rr * v) * / w))%R by (unfold Rdiv; ring) end.
  rewrite B. ring.
Qed.

(** ... so that they solve the coverage equations. *)
Lemma equilibrium_steady neighbour basis n k E (o : owner R) mapping ds ps m ro r s cvgs (occ : str -> str) kfs krs i name x :
  get_processes o mapping ds = (Ok ps, m) -> rate_algo o = L "TST" ->
  NoDup (possible_element_types o) -> possible_element_types o <> [] -> 0 < k ->
  MF_Spec.usable_setup s -> NoDup (MF_Model.s_exprs s) -> length cvgs = length (MF_Spec.ads s) ->
  length kfs = length (MF_Model.s_exprs s) -> length krs = length (MF_Model.s_exprs s) -> length ds = length (MF_Model.s_exprs s) ->
  (forall j d, nth_error ds j = Some d -> exists pd fls f0 f1 kf kr,
     nth_error (Species_Model.l_rxns (MF_Model.s_lists s)) j = Some fls /\ nth_error kfs j = Some kf /\ nth_error krs j = Some kr /\
     stands_for neighbour basis n k o ro r s cvgs (boltzmann E (possible_element_types o)) occ d pd fls f0 f1 kf kr) ->
  (forall d p rf rr, In d ds -> describes d p -> rate_pair o (d_reaction p) rf rr -> balanced E p rf rr) ->
  nth_error (MF_Spec.ads s) i = Some name ->
  (forall fls, In fls (Species_Model.l_rxns (MF_Model.s_lists s)) -> MF_Spec.plain_in name fls) ->
  (forall e, In e (possible_element_types o) -> (occ e = name <-> e = x)) ->
  exists data F, MF_Model.get_data s = Ok data /\
    MF_Model.steady_state_function s (Ok (kfs, krs)) (Some data) cvgs = Ok F /\ nth_error F i = Some 0%R.
Proof.
  intros H A N So Hk U Ne Lc Lf Lr Ld St B Hi Pl Oc.
  destruct (same_equations neighbour basis n k (boltzmann E (possible_element_types o)) o mapping ds ps m ro r s cvgs occ kfs krs i name x
    H A N (boltzmann_total E _ So) U Ne Lc Lf Lr Ld St Hi Pl Oc) as (data & F & y & G & Ss & Fy & Dr).
  exists data, F. split; [exact G|]. split; [exact Ss|]. rewrite Fy. f_equal.
  rewrite (no_drift neighbour basis n E (is x) o mapping ds ps m H) in Dr; auto.
  - symmetry in Dr. apply Rmult_integral in Dr as [Dr|Dr]; [|exact Dr]. exfalso; apply (not_0_INR k); [lia|exact Dr].
  - intros d Hd. apply In_nth_error in Hd as [j Hj]. destruct (St j d Hj) as (pd & fls & f0 & f1 & kf & kr & _ & _ & _ & Sf).
    split; [apply (sf_redist _ _ _ _ _ _ _ _ _ _ _ _ _ _ _ _ _ _ Sf)|].
    intros p D. rewrite (describes_unique _ _ _ D (sf_describes _ _ _ _ _ _ _ _ _ _ _ _ _ _ _ _ _ _ Sf)).
    split; [apply (sf_wildcards _ _ _ _ _ _ _ _ _ _ _ _ _ _ _ _ _ _ Sf)|apply (sf_roomy _ _ _ _ _ _ _ _ _ _ _ _ _ _ _ _ _ _ Sf)].
Qed.
