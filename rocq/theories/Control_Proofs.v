(** The sum of the degrees of rate control: lemmas. *)
From Coq Require Import String Ascii List ZArith NArith Bool Arith Reals Relations Lia Lra.
Import ListNotations.
From Verif Require Import PyBase PyBaseFacts Rxn_Model Rxn_Spec Species_Model Species_Spec PyReal MF_Model MF_Spec
  MF_Cover MF_Rate MF_More Whole_Spec Whole_Energy Whole_Rates Whole_Bound Flow_Real Hop_Spec Markov_Proofs Hop_Proofs Relax_Markov
  Control_Core Control_Spec.
Local Open Scope list_scope.
Local Open Scope R_scope.

Lemma nth_seq {A} (l : list A) d : map (fun i => nth i l d) (seq 0 (length l)) = l.
Proof.
  induction l as [|a l IH]; [reflexivity|]. cbn [length seq map nth]. f_equal. rewrite <- seq_shift, map_map. exact IH.
Qed.
Lemma sum_seq {A} (f : A -> R) l d : Rsum (map f l) = Rsum (map (fun i => f (nth i l d)) (seq 0 (length l))).
Proof. rewrite <- (nth_seq l d) at 1. now rewrite map_map. Qed.
Lemma sum_pick (a : nat -> R) j : forall l, NoDup l -> In j l -> Rsum (map (fun i => if Nat.eqb i j then a i else 0) l) = a j.
Proof.
  induction l as [|i l IH]; intros ND H; [destruct H|]. inversion ND as [|? ? NI ND']; subst. cbn [map Rsum].
  destruct (Nat.eqb_spec i j) as [->|N].
  - rewrite Rsum_zero; [ring|]. intros i Hi. destruct (Nat.eqb_spec i j); [congruence|reflexivity].
  - destruct H as [->|H]; [congruence|]. rewrite IH; auto. ring.
Qed.
Lemma sum_one (a : nat -> R) f j l : NoDup l -> In j l ->
  Rsum (map (fun i => (if Nat.eqb i j then f else 1) * a i) l) = Rsum (map a l) + (f - 1) * a j.
Proof.
  intros ND H. rewrite (Rsum_ext _ (fun i => a i + (if Nat.eqb i j then (f - 1) * a i else 0))).
  - rewrite Rsum_add, (sum_pick (fun i => (f - 1) * a i)); auto.
  - intros i _. destruct (Nat.eqb i j); ring.
Qed.

Section Control.
  Variable s : setup.
  Hypothesis U : usable_setup s.
  Let P : prepared s := proj1 U.
  Variable l : list (str * str).
  Hypothesis OH : only_hops s l.
  Let ND : NoDup (s_exprs s) := proj2 OH.
  Hypothesis Tot : forall site, In site (sites s) -> 0 <= total s site <= 1.
  Hypothesis Sup : supplied (Rlt 0) s.
  Hypothesis Lk : linked s l.
  Let here (n : str) : Prop := In n (ads s) \/ In n (sites s).

  Lemma setup_coercive E : map fst E = l -> (forall e, In e E -> 0 < fst (snd e) /\ 0 < snd (snd e)) ->
    exists C, 0 <= C /\ forall v d, (forall site, In site (sites s) -> Rsum (map v (states s site)) = 0) -> 0 <= d ->
      (forall n, In n (ads s) -> Rabs (Rsum (map (e_change v n) E)) <= d) -> forall n, here n -> Rabs (v n) <= C * d.
  Proof.
    intros El Pe.
    assert (K0 : forall i j, 0 <= rate_of E i j) by (apply rate_nonneg; intros e He; destruct (Pe e He); lra).
    assert (One : forall site, In site (sites s) -> exists C, 0 <= C /\ forall v d, Rsum (map v (states s site)) = 0 ->
      0 <= d -> (forall n, In n (ads s) -> Rabs (Rsum (map (e_change v n) E)) <= d) -> forall n, In n (states s site) -> Rabs (v n) <= C * d).
    { intros site Hs.
      destruct (coercive (states s site) (rate_of E) K0 (states_linked s U l OH Lk E site El Pe Hs) (states_NoDup s U site Hs)
                 ltac:(discriminate)) as (C & PC & H).
      set (N := Rsum (map (fun _ => 1) (states s site))).
      assert (N1 : 1 <= N).
      { unfold N. cbn [states map Rsum]. pose proof (sum_pos (fun _ : str => 1) (on site (ads s)) ltac:(intros; lra)). lra. }
      exists (C * N). split; [nra|]. intros v d Z Pd Hd n Hn. rewrite Rmult_assoc. apply H; auto.
      assert (Ads : forall i, In i (on site (ads s)) -> Rabs (inflow (states s site) (rate_of E) v i) <= d).
      { intros i Hi. rewrite (inflow_is s U l OH E El v site i Hs (or_intror Hi)). apply Hd. now apply on_In in Hi. }
      intros i [<-|Hi].
      - pose proof (inflow_sum (states s site) (rate_of E) v) as Q. cbn [states map Rsum] in Q. fold (states s site) in Q.
        replace (inflow (states s site) (rate_of E) v site)
          with (- Rsum (map (inflow (states s site) (rate_of E) v) (on site (ads s)))) by lra.
        rewrite Rabs_Ropp. eapply Rle_trans; [apply (sum_abs _ (fun _ => d * 1)); intros; rewrite Rmult_1_r; now apply Ads|].
        rewrite (Rsum_mul (fun _ => 1)). unfold N. cbn [states map Rsum]. lra.
      - eapply Rle_trans; [now apply Ads|]. nra. }
    assert (G : forall m, incl m (sites s) -> exists C, 0 <= C /\ forall site, In site m -> forall v d, Rsum (map v (states s site)) = 0 ->
      0 <= d -> (forall n, In n (ads s) -> Rabs (Rsum (map (e_change v n) E)) <= d) -> forall n, In n (states s site) -> Rabs (v n) <= C * d).
    { induction m as [|a m IH]; intro I; [exists 0; split; [lra|]; intros site []|].
      destruct IH as (C1 & P1 & H1); [intros b Hb; apply I; now right|].
      destruct (One a (I a (or_introl eq_refl))) as (C2 & P2 & H2). exists (C1 + C2). split; [lra|].
      intros site [<-|Hs] v d Z Pd Hd n Hn.
      - specialize (H2 v d Z Pd Hd n Hn). nra.
      - specialize (H1 site Hs v d Z Pd Hd n Hn). nra. }
    destruct (G (sites s) (incl_refl _)) as (C & PC & H). exists C. split; [exact PC|]. intros v d Z Pd Hd n Hn.
    destruct Hn as [Hn|Hn].
    - destruct (ads_site s P n Hn) as [_ Hs]. apply (H (site_tag n)); auto. apply (in_states s U); auto. now left.
    - apply (H n); auto. now left.
  Qed.

  Lemma within c n : feasible s c -> here n -> 0 <= coverage s c n <= 1.
  Proof.
    intros (Len & F1 & F2).
    assert (A : forall n, In n (ads s) -> 0 <= coverage s c n <= 1).
    { intros m Hm. destruct (In_nth_error _ _ Hm) as [i Hi]. destruct (nth_error c i) as [y|] eqn:Hy.
      - rewrite (nth_coverage s P c Len i m y Hi Hy). now apply (F1 i m y).
      - apply nth_error_None in Hy. assert (i < length (ads s))%nat by (apply nth_error_Some; congruence). lia. }
    intros [Hn|Hn]; [now apply A|]. rewrite (site_coverage s P c Len n Hn). pose proof (F2 n Hn). pose proof (Tot n Hn).
    assert (0 <= covered n (ads s) c); [|lra]. rewrite (covered_sum s P c Len n). apply sum_pos.
    intros a Ha. apply on_In in Ha as [Ha _]. now apply A.
  Qed.

  Section Base.
    Variables kf kr : list R.
    Hypothesis Lf : length kf = length (s_exprs s).
    Hypothesis Lr : length kr = length (s_exprs s).
    Hypothesis Pf : forall a, In a kf -> 0 < a.
    Hypothesis Pr : forall b, In b kr -> 0 < b.

    (** Coverages at rest are physical. *)
    Lemma rest_feasible data c : get_data s = Ok data -> at_rest s kf kr data c -> feasible s c.
    Proof.
      intros D (Len & F & EF & Z). destruct (exactly_one s U l OH kf kr Lf Lr Tot Pf Pr Sup Lk) as (data' & c0 & D' & Fe & _ & H).
      assert (data' = data) by congruence. subst data'.
      assert (c = c0) by (apply (proj1 (H c Len)); exists F; auto). now subst c0.
    Qed.
    Lemma rest_zero data c : get_data s = Ok data -> at_rest s kf kr data c ->
      forall n, In n (ads s) -> derivative s c (reactions s kf kr) n = 0.
    Proof.
      intros D (Len & F & EF & Z). destruct (explicit s U ND c kf kr Len Lf Lr) as (data' & D' & _ & _ & E & _).
      assert (data' = data) by congruence. subst data'. intros n Hn. apply Z.
      assert (F = map (derivative s c (reactions s kf kr)) (ads s)) as -> by congruence. now apply in_map.
    Qed.
    Lemma near_small data tol c : get_data s = Ok data -> near_rest s kf kr data tol c ->
      forall n, In n (ads s) -> Rabs (derivative s c (reactions s kf kr) n) <= tol.
    Proof.
      intros D ((Len & _) & F & EF & Z). destruct (explicit s U ND c kf kr Len Lf Lr) as (data' & D' & _ & _ & E & _).
      assert (data' = data) by congruence. subst data'. intros n Hn. apply Z.
      assert (F = map (derivative s c (reactions s kf kr)) (ads s)) as -> by congruence. now apply in_map.
    Qed.
    Lemma rest_near data c : get_data s = Ok data -> at_rest s kf kr data c -> near_rest s kf kr data 0 c.
    Proof.
      intros D R. split; [now apply (rest_feasible data)|]. destruct R as (_ & F & EF & Z). exists F. split; [exact EF|].
      intros y Hy. rewrite (Z y Hy), Rabs_R0. lra.
    Qed.
    Lemma turns_is data c g r : get_data s = Ok data -> length c = length (ads s) -> turns s kf kr data c g r ->
      exists name, nth_error (l_gas (s_lists s) ++ l_liq (s_lists s)) g = Some name /\ r = turnover s c (reactions s kf kr) name.
    Proof.
      intros D Len (tof & Et & Hg). destruct (explicit s U ND c kf kr Len Lf Lr) as (data' & D' & _ & _ & _ & E).
      assert (data' = data) by congruence. subst data'.
      assert (tof = map (turnover s c (reactions s kf kr)) (l_gas (s_lists s) ++ l_liq (s_lists s))) as -> by congruence.
      rewrite nth_error_map in Hg. destruct (nth_error (l_gas (s_lists s) ++ l_liq (s_lists s)) g) as [name|]; [|discriminate].
      exists name. split; [reflexivity|]. cbn in Hg. congruence.
    Qed.
  End Base.

  (** One reaction with both constants multiplied. *)
  Section One.
    Variables kf kr kf' kr' : list R.
    Hypothesis Lf : length kf = length (s_exprs s).
    Hypothesis Lr : length kr = length (s_exprs s).
    Variables (f : R) (j : nat).
    Hypothesis Sf : sped_up f j kf kf'.
    Hypothesis Sr : sped_up f j kr kr'.
    Let N := length (s_exprs s).
    Let sc (i : nat) : R := if Nat.eqb i j then f else 1.
    Variable d : rxn.
    Lemma scaled_at i : (i < N)%nat -> exists fls a b,
      nth i (reactions s kf kr) d = (fls, (a, b)) /\ nth i (reactions s kf' kr') d = (fls, (sc i * a, sc i * b)).
    Proof.
      intro Hi. pose proof (num_rxns s U) as NR.
      destruct (nth_error (l_rxns (s_lists s)) i) as [fls|] eqn:E1; [|apply nth_error_None in E1; unfold N in Hi; lia].
      destruct (nth_error kf i) as [a|] eqn:E2; [|apply nth_error_None in E2; unfold N in Hi; lia].
      destruct (nth_error kr i) as [b|] eqn:E3; [|apply nth_error_None in E3; unfold N in Hi; lia].
      exists fls, a, b. split; apply nth_error_nth.
      - now apply reactions_nth.
      - apply reactions_nth; auto.
        + rewrite (proj2 Sf i a E2). unfold sc. destruct (Nat.eqb i j); f_equal; ring.
        + rewrite (proj2 Sr i b E3). unfold sc. destruct (Nat.eqb i j); f_equal; ring.
    Qed.
    Lemma len_X : length (reactions s kf kr) = N /\ length (reactions s kf' kr') = N.
    Proof.
      pose proof (num_rxns s U) as NR. destruct Sf as [L1 _], Sr as [L2 _].
      split; apply reactions_length; unfold N; congruence.
    Qed.
    Lemma scaled_sum (g : rxn -> R) : (j < N)%nat ->
      (forall fls a b t, g (fls, (t * a, t * b)) = t * g (fls, (a, b))) ->
      Rsum (map g (reactions s kf' kr')) = Rsum (map g (reactions s kf kr)) + (f - 1) * g (nth j (reactions s kf kr) d).
    Proof.
      intros Hj Hg. destruct len_X as [L1 L2].
      rewrite (sum_seq g (reactions s kf' kr') d), (sum_seq g (reactions s kf kr) d), L1, L2.
      rewrite <- (sum_one (fun i => g (nth i (reactions s kf kr) d)) f j (seq 0 N)); [|apply seq_NoDup|apply in_seq; lia].
      apply Rsum_ext. intros i Hi. apply in_seq in Hi. destruct (scaled_at i) as (fls & a & b & -> & ->); [lia|].
      rewrite Hg. reflexivity.
    Qed.
    Lemma sped_positive : 0 < f -> (forall a, In a kf -> 0 < a) -> (forall b, In b kr -> 0 < b) ->
      (forall a, In a kf' -> 0 < a) /\ (forall b, In b kr' -> 0 < b).
    Proof.
      intro Pf. assert (G : forall k k', sped_up f j k k' -> (forall a, In a k -> 0 < a) -> forall a, In a k' -> 0 < a).
      { intros k k' [L H] Q a Ha. apply In_nth_error in Ha as [i Hi].
        destruct (nth_error k i) as [x|] eqn:Hx.
        - rewrite (H i x Hx) in Hi. pose proof (Q x (nth_error_In _ _ Hx)). injection Hi as <-.
          destruct (Nat.eqb i j); [now apply Rmult_lt_0_compat|auto].
        - apply nth_error_None in Hx. assert (i < length k')%nat by (apply nth_error_Some; congruence). lia. }
      intros H1 H2. split; eapply G; eauto.
    Qed.
  End One.

  Lemma fwd_scale c fls a b t : fwd s c (fls, (t * a, t * b)) = t * fwd s c (fls, (a, b)).
  Proof. unfold fwd. cbn [fst snd]. rewrite !(mass_action_scale s c). ring. Qed.
  Lemma bwd_scale c fls a b t : bwd s c (fls, (t * a, t * b)) = t * bwd s c (fls, (a, b)).
  Proof. unfold bwd. cbn [fst snd]. rewrite !(mass_action_scale s c). ring. Qed.

  Section Rule.
    Variables kf kr : list R.
    Hypothesis Lf : length kf = length (s_exprs s).
    Hypothesis Lr : length kr = length (s_exprs s).
    Hypothesis Pf : forall a, In a kf -> 0 < a.
    Hypothesis Pr : forall b, In b kr -> 0 < b.
    Let N := length (s_exprs s).

    Lemma near_rule g : exists K, 0 <= K /\ forall data tol c r, get_data s = Ok data -> 0 <= tol ->
      near_rest s kf kr data tol c -> turns s kf kr data c g r ->
      forall f (kfs krs cs : nat -> list R) (rs : nat -> R), 0 < f ->
      (forall j, (j < N)%nat -> sped_up f j kf (kfs j) /\ sped_up f j kr (krs j) /\
         near_rest s (kfs j) (krs j) data tol (cs j) /\ turns s (kfs j) (krs j) data (cs j) g (rs j)) ->
      Rabs (Rsum (map (fun j => rs j - r) (seq 0 N)) - (f - 1) * r) <= K * ((f - 1) * (f - 1) + tol * (1 + Rabs (f - 1))).
    Proof.
      destruct (edges_paired s U l OH kf kr Lf Lr (Rlt 0)) as (E & El & Pe & Pair); auto; [apply Rmult_lt_0_compat|lra|].
      destruct (setup_coercive E El Pe) as (C & PC & Co).
      set (X := reactions s kf kr) in *.
      assert (LX : length X = N) by (apply reactions_length; auto; apply (num_rxns s U)).
      assert (LE : length E = N).
      { rewrite <- LX. clear -Pair. induction Pair; cbn [length]; congruence. }
      set (d := ([], (0, 0)) : rxn). set (de := (([], []), (0, 0)) : edge).
      set (ed := fun j => nth j E de).
      set (name := nth g (l_gas (s_lists s) ++ l_liq (s_lists s)) []).
      set (wt := fun j => - IZR (consumption (fst (nth j X d)) name)).
      set (W := Rsum (map (fun z => strength (ed z)) (seq 0 N))).
      set (G := Rsum (map (fun z => Rabs (wt z) * strength (ed z)) (seq 0 N))).
      assert (Runs : forall j, (j < N)%nat -> runs_as s (nth j X d) (ed j)).
      { intros j Hj. unfold ed. clear -Pair Hj LX. rewrite <- LX in Hj. clear LX. revert j Hj.
        induction Pair as [|x e X E H Pair IH]; intros j Hj; cbn [length] in Hj; [lia|]. destruct j as [|j]; [exact H|].
        cbn [nth]. apply IH. lia. }
      assert (Ed : forall j, (j < N)%nat -> In (ed j) E) by (intros j Hj; apply nth_In; lia).
      assert (Pe' : forall z, In z (seq 0 N) -> 0 <= fst (snd (ed z)) /\ 0 <= snd (snd (ed z)) /\ here (e_src (ed z)) /\ here (e_dst (ed z))).
      { intros z Hz. apply in_seq in Hz. assert (He : In (ed z) E) by (apply Ed; lia). destruct (Pe _ He).
        assert (H' : In (e_src (ed z), e_dst (ed z)) l).
        { rewrite <- El. apply in_map_iff. exists (ed z). split; auto. unfold e_src, e_dst. now destruct (fst (ed z)). }
        destruct (ends_known s U l OH _ _ H') as (_ & _ & P1 & P2). unfold place in P1, P2. unfold here.
        repeat split; try lra; tauto. }
      assert (W0 : 0 <= W) by (apply (W_pos _ _ ed here Pe')).
      assert (G0 : 0 <= G) by (apply (G_pos _ _ ed wt here Pe')).
      set (M := Rsum (map (fun _ : nat => 1) (seq 0 N))).
      assert (M0 : 0 <= M) by (apply sum_pos; intros; lra).
      set (K1 := (4 * C * C * W * W + 2 * C * W) * G). set (K2 := (3 * C + 4 * C * C * W + 2 * C * M) * G). set (K := K1 + K2).
      assert (CW : 0 <= C * W) by now apply Rmult_le_pos.
      assert (K01 : 0 <= K1).
      { unfold K1. apply Rmult_le_pos; auto. assert (0 <= (C * W) * (C * W)) by apply Rle_0_sqr. lra. }
      assert (K02 : 0 <= K2).
      { unfold K2. apply Rmult_le_pos; auto. assert (0 <= C * (C * W)) by now apply Rmult_le_pos.
        assert (0 <= C * M) by now apply Rmult_le_pos. lra. }
      exists K. split; [unfold K; lra|].
      intros data tol c r D Ht Rest T f kfs krs cs rs Hf H.
      assert (Fc : feasible s c) by exact (proj1 Rest).
      assert (Each : forall j, (j < N)%nat -> feasible s (cs j) /\
        (forall n, In n (ads s) -> Rabs (derivative s (cs j) (reactions s (kfs j) (krs j)) n) <= tol)).
      { intros j Hj. destruct (H j Hj) as (S1 & S2 & R1 & _). 
        assert (M1 : length (kfs j) = length (s_exprs s)) by (rewrite (proj1 S1); exact Lf).
        assert (M2 : length (krs j) = length (s_exprs s)) by (rewrite (proj1 S2); exact Lr).
        split; [exact (proj1 R1)|now apply (near_small (kfs j) (krs j) M1 M2 data)]. }
      set (x := coverage s c). set (y := fun j n => coverage s (cs j) n - coverage s c n).
      assert (NetC : forall v w e, (forall n, v n = w n) -> e_net v e = e_net w e) by (intros v w e Q; unfold e_net; now rewrite !Q).
      assert (ChC : forall v w n e, (forall n, v n = w n) -> e_change v n e = e_change w n e)
        by (intros v w n e Q; unfold e_change; now rewrite !(NetC v w e Q)).
      assert (XYn : forall j n, x n + y j n = coverage s (cs j) n) by (intros; unfold x, y; ring).
      assert (DX : forall c' n, In n (ads s) -> derivative s c' X n = Rsum (map (fun z => e_change (coverage s c') n (ed z)) (seq 0 N))).
      { intros c' n Hn. unfold derivative. rewrite (sum_seq _ X d), LX. apply Rsum_ext. intros i Hi. apply in_seq in Hi.
        apply (proj2 (Runs i ltac:(lia))); auto. }
      assert (TX : forall c', turnover s c' X name = Rsum (map (fun z => wt z * e_net (coverage s c') (ed z)) (seq 0 N))).
      { intros c'. unfold turnover. rewrite (sum_seq _ X d), LX. apply Rsum_ext. intros i Hi. apply in_seq in Hi.
        unfold wt. now rewrite (proj1 (Runs i ltac:(lia)) c'). }
      assert (DE : forall v n, Rsum (map (fun z => e_change v n (ed z)) (seq 0 N)) = Rsum (map (e_change v n) E)).
      { intros v n. rewrite (sum_seq (e_change v n) E de), LE. reflexivity. }
      destruct (turns_is kf kr Lf Lr data c g r D (proj1 Fc) T) as (nm & Hnm & Er).
      assert (nm = name) by (unfold name; symmetry; now apply nth_error_nth). subst nm.
      assert (Rj : forall j, (j < N)%nat -> rs j - r =
        Rsum (map (fun z' => wt z' * e_net (y j) (ed z')) (seq 0 N)) + (f - 1) * (wt j * e_net (fun n => x n + y j n) (ed j))).
      { intros j Hj. destruct (H j Hj) as (S1 & S2 & R1 & T1). destruct (Each j Hj) as [Fj _].
        destruct (turns_is (kfs j) (krs j) ltac:(rewrite (proj1 S1); exact Lf) ltac:(rewrite (proj1 S2); exact Lr) data (cs j) g (rs j) D (proj1 Fj) T1)
          as (nm & Hnm' & Erj). assert (nm = name) by congruence. subst nm.
        rewrite Erj, Er. unfold turnover at 1.
        rewrite (scaled_sum kf kr (kfs j) (krs j) Lf Lr f j S1 S2 d (fun x => - IZR (consumption (fst x) name) * (fwd s (cs j) x - bwd s (cs j) x)) Hj).
        2:{ intros fls a b t. rewrite fwd_scale, bwd_scale. cbn [fst]. ring. }
        fold X. fold (turnover s (cs j) X name). rewrite (TX (cs j)), (TX c), (proj1 (Runs j Hj) (cs j)).
        rewrite (NetC (fun n => x n + y j n) (coverage s (cs j))) by apply XYn. fold (wt j).
        rewrite (Rsum_ext (fun z' => wt z' * e_net (y j) (ed z')) (fun z' => wt z' * e_net (coverage s (cs j)) (ed z') - wt z' * e_net (coverage s c) (ed z'))).
        2:{ intros z _. unfold e_net, y. ring. }
        rewrite Rsum_sub. ring. }
      rewrite (Rsum_ext _ _ _ (fun j Hj => Rj j (proj2 (proj1 (in_seq N 0 j) Hj)))).
      fold X in Er. rewrite Er, (TX c). apply (Rle_trans _ (K1 * ((f - 1) * (f - 1)) + K2 * (tol * (1 + Rabs (f - 1))))).
      2:{ assert (0 <= (f - 1) * (f - 1)) by apply Rle_0_sqr. pose proof (Rabs_pos (f - 1)).
          assert (0 <= tol * (1 + Rabs (f - 1))) by (apply Rmult_le_pos; lra).
          assert (0 <= K1 * (tol * (1 + Rabs (f - 1)))) by now apply Rmult_le_pos.
          assert (0 <= K2 * ((f - 1) * (f - 1))) by now apply Rmult_le_pos.
          unfold K. rewrite Rmult_plus_distr_r, !Rmult_plus_distr_l. lra. }
      unfold K1, K2, W, G, M.
      apply (cancel nat (seq 0 N) ed wt y x (f - 1) C here (ads s) PC Pe' (fun v => forall site, In site (sites s) -> Rsum (map v (states s site)) = 0)).
      - intros v dl Ev Pd Hd n Hn. apply Co; auto. intros m Hm. rewrite <- DE. auto.
      - intros z Hz site Hs. apply in_seq in Hz. destruct (Each z ltac:(lia)) as [Fz _]. unfold y. rewrite Rsum_sub.
        rewrite (states_sum s U (cs z) site (proj1 Fz) Hs), (states_sum s U c site (proj1 Fc) Hs). ring.
      - intros site Hs. rewrite Rsum_swap. apply Rsum_zero. intros z Hz. apply in_seq in Hz. destruct (Each z ltac:(lia)) as [Fz _].
        unfold y. rewrite Rsum_sub, (states_sum s U (cs z) site (proj1 Fz) Hs), (states_sum s U c site (proj1 Fc) Hs). ring.
      - intros z n Hz Hn. apply in_seq in Hz. destruct (Each z ltac:(lia)) as [Fz _]. rewrite XYn.
        destruct (within (cs z) n Fz Hn). rewrite Rabs_pos_eq; lra.
      - exact Ht.
      - intros n Hn. unfold x. rewrite <- (DX c n Hn). now apply (near_small kf kr Lf Lr data).
      - intros j n Hj Hn. apply in_seq in Hj. assert (Hj' : (j < N)%nat) by lia. destruct (H j Hj') as (S1 & S2 & _).
        destruct (Each j Hj') as [_ Zj]. specialize (Zj n Hn). unfold derivative in Zj.
        rewrite (scaled_sum kf kr (kfs j) (krs j) Lf Lr f j S1 S2 d (fun x => counted n (fst x) (fwd s (cs j) x) (bwd s (cs j) x)) Hj') in Zj.
        2:{ intros fls a b t. rewrite fwd_scale, bwd_scale. cbn [fst]. unfold counted. destruct (find_in_states n 0 fls) as [[[|i] m]|]; ring. }
        fold X in Zj. fold (derivative s (cs j) X n) in Zj. rewrite (DX (cs j) n Hn), (proj2 (Runs j Hj') (cs j) n Hn) in Zj.
        rewrite (ChC (fun n => x n + y j n) (coverage s (cs j))) by apply XYn.
        rewrite (Rsum_ext _ (fun z => e_change (coverage s (cs j)) n (ed z) - e_change x n (ed z))).
        2:{ intros z _. rewrite <- (ChC (fun n => x n + y j n) (coverage s (cs j))) by apply XYn. rewrite (e_change_add x (y j)). ring. }
        rewrite Rsum_sub. unfold x. rewrite <- (DX c n Hn). pose proof (near_small kf kr Lf Lr data tol c D Rest n Hn) as Z0. fold X in Z0.
        set (u := derivative s c X n) in *. set (v := Rsum (map (fun z => e_change (coverage s (cs j)) n (ed z)) (seq 0 N))) in *.
        set (w := e_change (coverage s (cs j)) n (ed j)) in *. replace (v - u + (f - 1) * w) with ((v + (f - 1) * w) + - u) by ring.
        eapply Rle_trans; [apply Rabs_triang|]. rewrite Rabs_Ropp. lra.
    Qed.

    Lemma sum_rule g : exists K, 0 <= K /\ forall data c r, get_data s = Ok data -> at_rest s kf kr data c -> turns s kf kr data c g r ->
      forall f (kfs krs cs : nat -> list R) (rs : nat -> R), 0 < f ->
      (forall j, (j < N)%nat -> sped_up f j kf (kfs j) /\ sped_up f j kr (krs j) /\
         at_rest s (kfs j) (krs j) data (cs j) /\ turns s (kfs j) (krs j) data (cs j) g (rs j)) ->
      Rabs (Rsum (map (fun j => rs j - r) (seq 0 N)) - (f - 1) * r) <= K * ((f - 1) * (f - 1)).
    Proof.
      destruct (near_rule g) as (K & PK & Q). exists K. split; [exact PK|]. intros data c r D Rest T f kfs krs cs rs Hf H.
      replace (K * ((f - 1) * (f - 1))) with (K * ((f - 1) * (f - 1) + 0 * (1 + Rabs (f - 1)))) by ring.
      apply (Q data 0 c r D ltac:(lra) (rest_near kf kr Lf Lr Pf Pr data c D Rest) T f kfs krs cs rs Hf).
      intros j Hj. destruct (H j Hj) as (S1 & S2 & R1 & T1).
      destruct (sped_positive kf kr (kfs j) (krs j) Lf Lr f j S1 S2 Hf Pf Pr) as [Q1 Q2].
      split; [exact S1|]. split; [exact S2|]. split; [|exact T1].
      apply rest_near; auto; [rewrite (proj1 S1); exact Lf|rewrite (proj1 S2); exact Lr].
    Qed.
  End Rule.
End Control.
