(** Linear exchange between finitely many states decays to its stationary shares exponentially fast. *)
From Coq Require Import String Ascii List ZArith NArith Bool Arith Reals Lia Lra.
Import ListNotations.
From Verif Require Import PyBase PyBaseFacts PyReal RDeriv MF_More Whole_Bound Flow_Real Markov_Proofs.
Local Open Scope list_scope.
Local Open Scope R_scope.

Lemma divided d a b : 0 < d -> d * a <= b -> a <= / d * b.
Proof.
  intros P H. replace a with (/ d * (d * a)) by (field; lra). apply Rmult_le_compat_l; auto. left. now apply Rinv_0_lt_compat.
Qed.

Section Relax.
  Variable Ls : list str.
  Variable k : str -> str -> R.
  Hypothesis K : forall i j, 0 <= k i j.
  Hypothesis Lk : all_linked Ls k.
  Variable q : str -> R.
  Hypothesis Q0 : forall i, In i Ls -> 0 < q i.
  Hypothesis Q1 : Rsum (map q Ls) = 1.
  Hypothesis Qb : balanced_on Ls k q.

  Definition both (f : str -> str -> R) : R := Rsum (map (fun i => Rsum (map (f i) Ls)) Ls).
  Lemma both_ext f g : (forall i j, In i Ls -> In j Ls -> f i j = g i j) -> both f = both g.
  Proof. intro H. apply Rsum_ext. intros i Hi. apply Rsum_ext. intros j Hj. auto. Qed.
  Lemma both_swap f : both f = both (fun i j => f j i).
  Proof. apply (Rsum_swap f). Qed.
  Lemma both_add f g : both (fun i j => f i j + g i j) = both f + both g.
  Proof.
    unfold both. rewrite <- Rsum_add. apply Rsum_ext. intros i _. apply (Rsum_add (f i) (g i)).
  Qed.
  Lemma both_scal c f : both (fun i j => c * f i j) = c * both f.
  Proof. unfold both. rewrite <- Rsum_mul. apply Rsum_ext. intros i _. apply (Rsum_mul (f i)). Qed.

  (** How unequal the shares are along the links. *)
  Definition uneven (x : str -> R) : R := both (fun i j => q j * k j i * ((x i - x j) * (x i - x j))).
  Lemma uneven_term x i j : In i Ls -> In j Ls -> q j * k j i * ((x i - x j) * (x i - x j)) <= uneven x.
  Proof.
    intros Hi Hj.
    assert (N : forall a b, In b Ls -> 0 <= q b * k b a * ((x a - x b) * (x a - x b))).
    { intros a b Hb. pose proof (Q0 b Hb). pose proof (K b a). apply Rmult_le_pos; [nra|apply Rle_0_sqr]. }
    apply (Rle_trans _ (Rsum (map (fun j => q j * k j i * ((x i - x j) * (x i - x j))) Ls))).
    - apply (sum_term (fun j => q j * k j i * ((x i - x j) * (x i - x j)))); auto.
    - apply (sum_term (fun i => Rsum (map (fun j => q j * k j i * ((x i - x j) * (x i - x j))) Ls))); auto.
      intros a Ha. apply sum_pos. auto.
  Qed.
  Lemma uneven_pos x : 0 <= uneven x.
  Proof.
    apply sum_pos. intros i _. apply sum_pos. intros j Hj. pose proof (Q0 j Hj). pose proof (K j i).
    apply Rmult_le_pos; [nra|apply Rle_0_sqr].
  Qed.

  Lemma dissipates v : Rsum (map (fun i => 2 * (v i / q i) * inflow Ls k v i) Ls) = - uneven (fun i => v i / q i).
  Proof.
    set (x := fun i => v i / q i).
    assert (V : forall i, In i Ls -> v i = x i * q i) by (intros i Hi; unfold x; pose proof (Q0 i Hi); field; lra).
    set (A := both (fun i j => x i * x j * (q j * k j i))).
    set (B := both (fun i j => x i * x i * (q i * k i j))).
    assert (E1 : Rsum (map (fun i => 2 * (v i / q i) * inflow Ls k v i) Ls) = 2 * A + -2 * B).
    { unfold A, B. rewrite <- !both_scal, <- both_add. apply Rsum_ext. intros i Hi. unfold inflow. rewrite <- Rsum_mul.
      apply Rsum_ext. intros j Hj. change (v i / q i) with (x i). rewrite (V i Hi), (V j Hj). ring. }
    assert (E2 : both (fun i j => x i * x i * (q j * k j i)) = B).
    { unfold B, both. apply Rsum_ext. intros i Hi. rewrite (Rsum_mul (fun j => q j * k j i)), (Rsum_mul (fun j => q i * k i j)). f_equal.
      pose proof (Qb i Hi) as Z. unfold inflow in Z. rewrite Rsum_sub in Z. lra. }
    assert (E3 : both (fun i j => x j * x j * (q j * k j i)) = B).
    { rewrite both_swap. reflexivity. }
    assert (E4 : uneven x = B + B + -2 * A).
    { rewrite <- E2 at 1. rewrite <- E3. unfold A. rewrite <- both_scal, <- !both_add.
      apply both_ext. intros i j _ _. ring. }
    rewrite E1, E4. ring.
  Qed.

  (** Shares that differ at all differ along a link. *)
  Lemma apart i : In i Ls -> forall j, In j Ls -> exists C, 0 <= C /\ forall x, (x i - x j) * (x i - x j) <= C * uneven x.
  Proof.
    intros Hi j Hj.
    apply (Lk (fun j => exists C, 0 <= C /\ forall x, (x i - x j) * (x i - x j) <= C * uneven x)) with (i := i); auto.
    - intros a b Ha Hb (C & PC & HC) Kab. pose proof (Q0 a Ha) as Pa.
      assert (Pd : 0 < q a * k a b) by now apply Rmult_lt_0_compat.
      exists (2 * C + 2 * / (q a * k a b)). pose proof (Rinv_0_lt_compat _ Pd). split; [lra|]. intro x.
      specialize (HC x). pose proof (uneven_term x b a Hb Ha) as T.
      assert (T' : (x b - x a) * (x b - x a) <= / (q a * k a b) * uneven x).
      { now apply divided. }
      assert (0 <= ((x i - x a) + (x b - x a)) * ((x i - x a) + (x b - x a))) by apply Rle_0_sqr. nra.
    - exists 0. split; [lra|]. intro x. pose proof (uneven_pos x). nra.
  Qed.

  Lemma gap : exists r, 0 < r /\ forall x, Rsum (map (fun i => q i * x i) Ls) = 0 ->
    r * Rsum (map (fun i => q i * (x i * x i)) Ls) <= uneven x.
  Proof.
    destruct Ls as [|z m] eqn:EL; [cbn in Q1; lra|]. rewrite <- EL in *.
    assert (Hz : In z Ls) by (rewrite EL; now left). clear EL m.
    assert (G : forall m, incl m Ls -> exists C, 0 <= C /\ forall x,
      Rsum (map (fun i => q i * ((x z - x i) * (x z - x i))) m) <= C * uneven x).
    { induction m as [|a m IH]; intro I.
      - exists 0. split; [lra|]. intro x. cbn [map Rsum]. lra.
      - destruct IH as (C & PC & HC); [intros b Hb; apply I; now right|].
        assert (Ha : In a Ls) by (apply I; now left). destruct (apart z Hz a Ha) as (C' & PC' & HC').
        pose proof (Q0 a Ha) as Pa. exists (q a * C' + C). split; [nra|]. intro x. cbn [map Rsum].
        specialize (HC x). specialize (HC' x). apply (Rmult_le_compat_l (q a)) in HC'; lra. }
    destruct (G Ls (incl_refl _)) as (C & PC & HC).
    exists (/ (C + 1)). assert (PI : 0 < / (C + 1)) by (apply Rinv_0_lt_compat; lra). split; [exact PI|].
    intros x Z. specialize (HC x). pose proof (uneven_pos x) as PU.
    assert (E : Rsum (map (fun i => q i * ((x z - x i) * (x z - x i))) Ls)
      = x z * x z + Rsum (map (fun i => q i * (x i * x i)) Ls)).
    { rewrite (Rsum_ext _ (fun i => (x z * x z * q i + -2 * x z * (q i * x i)) + q i * (x i * x i))) by (intros; ring).
      rewrite Rsum_add, Rsum_add, !Rsum_mul, Q1, Z. ring. }
    assert (0 <= x z * x z) by apply Rle_0_sqr.
    replace (uneven x) with (/ (C + 1) * ((C + 1) * uneven x)) by (field; lra). apply Rmult_le_compat_l; lra.
  Qed.

  (** The course in time. *)
  Lemma relaxes : exists r, 0 < r /\ forall v : str -> R -> R,
    (forall t, 0 <= t -> Rsum (map (fun i => v i t) Ls) = 0) ->
    (forall i t, In i Ls -> 0 <= t -> derivable_pt_lim (v i) t (inflow Ls k (fun j => v j t) i)) ->
    exists C, 0 <= C /\ forall i t, In i Ls -> 0 <= t -> Rabs (v i t) <= C * exp (- r * t).
  Proof.
    destruct gap as (r & Pr & G). exists (r / 2). split; [lra|]. intros v Z D.
    set (V := fun u => Rsum (map (fun i => / q i * (v i u * v i u)) Ls)).
    assert (Dec : forall t, 0 <= t -> V t <= V 0 * exp (- r * t)).
    { intros t Ht.
      apply (decays V (fun u => Rsum (map (fun i => 2 * (v i u / q i) * inflow Ls k (fun j => v j u) i) Ls)) (- r) t); [|lra].
      intros u Hu. split.
      - apply (d_eq _ _ (Rsum (map (fun i => / q i * (2 * v i u * inflow Ls k (fun j => v j u) i)) Ls))).
        { apply Rsum_ext. intros i Hi. unfold Rdiv. ring. }
        apply (d_sum (fun i w => / q i * (v i w * v i w))). intros i Hi. apply d_scal.
        specialize (D i u Hi (proj1 Hu)). set (d := inflow Ls k (fun j => v j u) i) in *.
        apply (d_eq _ _ (d * v i u + v i u * d)); [ring|]. now apply (d_mult (v i) (v i)).
      - rewrite (dissipates (fun j => v j u)). specialize (G (fun i => v i u / q i)). cbv beta in G.
        assert (E : V u = Rsum (map (fun i => q i * (v i u / q i * (v i u / q i))) Ls)).
        { apply Rsum_ext. intros i Hi. pose proof (Q0 i Hi). field. lra. }
        rewrite E. enough (r * Rsum (map (fun i => q i * (v i u / q i * (v i u / q i))) Ls) <= uneven (fun i => v i u / q i)) by lra.
        apply G. rewrite <- (Z u (proj1 Hu)). apply Rsum_ext. intros i Hi. pose proof (Q0 i Hi). field. lra. }
    assert (N : forall u i, In i Ls -> 0 <= / q i * (v i u * v i u)).
    { intros u i Hi. pose proof (Rinv_0_lt_compat _ (Q0 i Hi)). apply Rmult_le_pos; [lra|apply Rle_0_sqr]. }
    assert (V0 : 0 <= V 0) by (apply sum_pos; auto).
    exists (sqrt (V 0)). split; [apply sqrt_pos|]. intros i t Hi Ht. pose proof (Q0 i Hi) as Pi.
    assert (Q2 : q i <= 1).
    { rewrite <- Q1. apply (sum_term q); auto. intros b Hb. left. auto. }
    assert (S : v i t * v i t <= V 0 * exp (- r * t)).
    { apply Rle_trans with (2 := Dec t Ht).
      apply Rle_trans with (2 := sum_term (fun i => / q i * (v i t * v i t)) Ls i (N t) Hi).
      assert (0 <= v i t * v i t) by apply Rle_0_sqr. pose proof (N t i Hi) as Ni.
      apply divided; auto. nra. }
    pose proof (sqrt_pos (V 0)) as P1. pose proof (sqrt_sqrt _ V0) as P2. pose proof (exp_pos (- (r / 2) * t)) as P3.
    rewrite <- (Rabs_right (sqrt (V 0) * exp (- (r / 2) * t))) by nra.
    apply Rsqr_le_abs_0. unfold Rsqr.
    replace (sqrt (V 0) * exp (- (r / 2) * t) * (sqrt (V 0) * exp (- (r / 2) * t)))
      with (sqrt (V 0) * sqrt (V 0) * (exp (- (r / 2) * t) * exp (- (r / 2) * t))) by ring.
    rewrite P2, <- exp_plus. replace (- (r / 2) * t + - (r / 2) * t) with (- r * t) by field. exact S.
  Qed.
End Relax.
