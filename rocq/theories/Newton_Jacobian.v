From Coq Require Import String Ascii List ZArith Bool Arith Reals Lia Lra.
Import ListNotations.
From Verif Require Import PyBase PyBaseFacts PyReal Thermo_Model Newton_Model Newton_Spec.
Local Open Scope list_scope.
Local Open Scope nat_scope.

Lemma combine_seq_cons : forall {T} (l : list T) k, combine (seq (S k) (length l)) l
  = map (fun p => (S (fst p), snd p)) (combine (seq k (length l)) l).
Proof.
  intros T l. induction l as [|a l IH]; intro k; [reflexivity|].
  cbn [length seq combine map fst snd]. rewrite IH. reflexivity.
Qed.
Lemma shift_moved : forall x j d, shift_at x j d = moved x j d.
Proof.
  unfold moved. induction x as [|a x IH]; intros j d; [reflexivity|].
  cbn [length seq combine map fst snd]. rewrite combine_seq_cons, map_map.
  destruct j as [|j]; cbn [shift_at Nat.eqb].
  - f_equal. clear IH. cbn [fst snd].
    transitivity (map snd (combine (seq 0 (length x)) x)).
    + generalize 0. induction x as [|b x IH]; intro k; [reflexivity|]. cbn. rewrite <- IH. reflexivity.
    + apply map_ext. intros [p q]. reflexivity.
  - cbn [fst snd]. f_equal. rewrite IH. apply map_ext. intros [p q]. reflexivity.
Qed.

Lemma mapM_Ok_map : forall {A B} (g : A -> res B) (h : A -> B) l,
  (forall a, In a l -> g a = Ok (h a)) -> mapM g l = Ok (map h l).
Proof.
  intros A B g h l. induction l as [|a l IH]; intro H; [reflexivity|].
  cbn [mapM map]. rewrite (H a (or_introl eq_refl)). cbn [bind].
  rewrite IH by (intros b Hb; apply H; right; exact Hb). reflexivity.
Qed.
Lemma combine_as_map : forall (a b : list R) m, length a = m -> length b = m ->
  combine a b = map (fun i => (nth i a 0%R, nth i b 0%R)) (seq 0 m).
Proof.
  induction a as [|x a IH]; intros b m Ha Hb; subst m; [reflexivity|].
  destruct b as [|y b]; [discriminate|]. cbn [length seq map combine nth].
  f_equal. rewrite <- seq_shift, map_map. apply IH; [reflexivity|]. cbn in Hb. lia.
Qed.


Section Jac.
  Variable f : list R -> list R.
  Variable m : nat.
  Hypothesis Hm : forall x, length (f x) = m.
  Let fr x := @Ok (list R) (f x).

  Lemma step_pos : forall h x j, (0 < h)%R -> (h <= difference_step h x j)%R.
  Proof. intros. unfold difference_step. apply Rmax_r. Qed.

  Lemma column_ok : forall x num h (left : bool) j, (0 < h)%R -> num = L "gmpy" \/ num = L "mpmath" ->
    j < length x ->
    let d := signed left (difference_step h x j) in
    jacobian_column fr x (f x) num h (side_name left) j
    = Ok (map (fun i => (nth i (f (moved x j d)) 0 - nth i (f x) 0) / d)%R (seq 0 m)).
  Proof.
    intros x num h left j Hh Hn Hj d. unfold jacobian_column.
    assert (EX : lindex x j = Ok (nth j x 0%R)).
    { unfold lindex. rewrite (nth_error_nth' x 0%R Hj). reflexivity. }
    rewrite EX. cbn [bind].
    assert (KN : str_eqb num (L "gmpy") || str_eqb num (L "mpmath") = true).
    { destruct Hn as [-> | ->]; reflexivity. }
    rewrite KN.
    assert (DN : d <> 0%R).
    { subst d. pose proof (step_pos h x j Hh). destruct left; cbn [signed]; lra. }
    assert (COL : bind (col_minus (f (moved x j d)) (f x)) (fun c => bind (mapM (fun a => pydiv a d) c)
                    (fun q => Ok (Some q)))
                  = Ok (Some (map (fun i => (nth i (f (moved x j d)) 0 - nth i (f x) 0) / d)%R (seq 0 m)))).
    { unfold col_minus. rewrite !Hm, Nat.eqb_refl. cbn [bind].
      rewrite (combine_as_map _ _ m (Hm _) (Hm _)), map_map. cbn [fst snd].
      rewrite (mapM_Ok_map _ (fun a => a / d)%R).
      - cbn [bind]. rewrite map_map. reflexivity.
      - intros a _. unfold pydiv. destruct (Reqb d 0) eqn:E; [|reflexivity].
        unfold Reqb in E. destruct (Req_EM_T d 0); [contradiction|discriminate]. }
    match goal with |- bind ?c _ = _ => assert (C : c = Ok (Some (map (fun i => (nth i (f (moved x j d)) 0 - nth i (f x) 0) / d)%R (seq 0 m)))) end.
    { destruct left.
      - change (str_eqb (side_name true) (L "left")) with true. cbn match.
        unfold fr at 1. cbn [bind]. rewrite shift_moved. exact COL.
      - change (str_eqb (side_name false) (L "left")) with false.
        change (str_eqb (side_name false) (L "right")) with true. cbn match.
        unfold fr at 1. cbn [bind]. rewrite shift_moved. exact COL. }
    rewrite C. cbn [bind].
    destruct (f x) as [|y t] eqn:E; [|reflexivity].
    pose proof (Hm x) as H. rewrite E in H. cbn in H. rewrite <- H. reflexivity.
  Qed.

  Theorem jacobian_differences : forall x num h (left : bool), (0 < h)%R ->
    num = L "gmpy" \/ num = L "mpmath" ->
    numerical_jacobian fr x num h (side_name left)
    = Ok (map (fun j => let d := signed left (difference_step h x j) in
                 map (fun i => (nth i (f (moved x j d)) 0 - nth i (f x) 0) / d)%R (seq 0 m))
              (seq 0 (length x))).
  Proof.
    intros x num h left Hh Hn. unfold numerical_jacobian. unfold fr at 1. cbn [bind].
    apply mapM_Ok_map. intros j Hj. apply in_seq in Hj. apply column_ok; [exact Hh|exact Hn|lia].
  Qed.

  Lemma difference_step_scaled : forall h x j, (0 < h)%R ->
    difference_step h x j = (h * Rmax (Rabs (nth j x 0)) 1)%R.
  Proof.
    intros h x j Hh. unfold difference_step. rewrite Rabs_mult, (Rabs_pos_eq h) by lra.
    rewrite <- RmaxRmult by lra. rewrite Rmult_1_r. reflexivity.
  Qed.

  Theorem jacobian_converges : forall x i j slope (left : bool), i < m -> j < length x ->
    derivable_pt_lim (fun t => nth i (f (moved x j t)) 0%R) 0 slope ->
    forall eps, (0 < eps)%R -> exists h0, (0 < h0)%R /\ forall h num, (0 < h < h0)%R ->
      num = L "gmpy" \/ num = L "mpmath" ->
      exists cols col v, numerical_jacobian fr x num h (side_name left) = Ok cols /\
        nth_error cols j = Some col /\ nth_error col i = Some v /\ (Rabs (v - slope) < eps)%R.
  Proof.
    intros x i j slope left Hi Hj HD eps He.
    destruct (HD eps He) as [[del Hdel] HB]. cbn [pos] in HB.
    set (M := Rmax (Rabs (nth j x 0%R)) 1).
    assert (M1 : (1 <= M)%R) by apply Rmax_r.
    exists (del / M)%R. split; [apply Rdiv_lt_0_compat; lra|].
    intros h num [Hh0 Hh1] Hn.
    rewrite (jacobian_differences x num h left Hh0 Hn).
    eexists _, _, _. split; [reflexivity|]. split.
    { rewrite nth_error_map, nth_error_nth' with (d := 0) by (rewrite seq_length; exact Hj).
      rewrite seq_nth by exact Hj. reflexivity. }
    cbn zeta. split.
    { rewrite nth_error_map, nth_error_nth' with (d := 0) by (rewrite seq_length; exact Hi).
      rewrite seq_nth by exact Hi. reflexivity. }
    cbn [Nat.add]. set (d := signed left (difference_step h x j)).
    assert (AD : Rabs d = (h * M)%R).
    { subst d. rewrite difference_step_scaled by exact Hh0. fold M.
      destruct left; cbn [signed]; rewrite ?Rabs_Ropp; apply Rabs_pos_eq; nra. }
    assert (AD2 : (Rabs d < del)%R).
    { rewrite AD. apply (Rmult_lt_compat_r M) in Hh1; [|lra]. unfold Rdiv in Hh1.
      rewrite Rmult_assoc, Rinv_l, Rmult_1_r in Hh1 by lra. exact Hh1. }
    assert (DN : d <> 0%R).
    { intro Z. rewrite Z, Rabs_R0 in AD. nra. }
    specialize (HB d DN AD2). rewrite Rplus_0_l in HB.
    assert (X0 : moved x j 0 = x).
    { rewrite <- shift_moved. clear. revert j. induction x as [|a x IH]; intros [|j]; cbn; try reflexivity.
      - rewrite Rplus_0_r. reflexivity.
      - rewrite IH. reflexivity. }
    rewrite X0 in HB. exact HB.
  Qed.

  (** Exact for a component that is affine in the coordinate. *)
  Theorem jacobian_affine : forall x i j slope (left : bool) h num, i < m -> j < length x -> (0 < h)%R ->
    num = L "gmpy" \/ num = L "mpmath" ->
    (forall t, nth i (f (moved x j t)) 0%R = (nth i (f x) 0 + slope * t)%R) ->
    exists cols col, numerical_jacobian fr x num h (side_name left) = Ok cols /\
      nth_error cols j = Some col /\ nth_error col i = Some slope.
  Proof.
    intros x i j slope left h num Hi Hj Hh Hn HA.
    rewrite (jacobian_differences x num h left Hh Hn).
    eexists _, _. split; [reflexivity|]. split.
    { rewrite nth_error_map, nth_error_nth' with (d := 0) by (rewrite seq_length; exact Hj).
      rewrite seq_nth by exact Hj. reflexivity. }
    cbn zeta.
    rewrite nth_error_map, nth_error_nth' with (d := 0) by (rewrite seq_length; exact Hi).
    rewrite seq_nth by exact Hi. cbn [option_map Nat.add]. f_equal. rewrite HA.
    pose proof (step_pos h x j Hh). destruct left; cbn [signed]; field; lra.
  Qed.

  Theorem jacobian_rejects : forall x h, x <> [] -> m <> 0 ->
    (forall num dir, dir <> L "left" -> dir <> L "right" ->
       numerical_jacobian fr x num h dir = Err UnboundLocalError) /\
    (forall num (left : bool), (0 < h)%R -> num <> L "gmpy" -> num <> L "mpmath" ->
       numerical_jacobian fr x num h (side_name left) = Err TypeError) /\
    (forall num (left : bool), h = 0%R -> numerical_jacobian fr x num h (side_name left) = Err ZeroDivisionError).
  Proof.
    intros x h NX NM.
    destruct x as [|a x]; [congruence|].
    assert (NF : exists y t, f (a :: x) = y :: t).
    { pose proof (Hm (a :: x)) as H. destruct (f (a :: x)) as [|y t]; [cbn in H; congruence|eauto]. }
    destruct NF as (y & t & NF).
    assert (EQF : forall s1 s2, str_eqb s1 s2 = true -> s1 = s2) by (intros; apply str_eqb_eq; assumption).
    repeat split.
    - intros num dir N1 N2. unfold numerical_jacobian. unfold fr at 1. cbn [bind length seq mapM].
      unfold jacobian_column at 1. cbn [lindex nth_error bind].
      destruct (str_eqb dir (L "left")) eqn:E1; [apply EQF in E1; contradiction|].
      destruct (str_eqb dir (L "right")) eqn:E2; [apply EQF in E2; contradiction|].
      cbn [bind]. rewrite NF. reflexivity.
    - intros num left Hh N1 N2.
      assert (C : jacobian_column fr (a :: x) (f (a :: x)) num h (side_name left) 0 = Err TypeError).
      { pose proof (column_ok (a :: x) (L "gmpy") h left 0 Hh (or_introl eq_refl)) as C.
        specialize (C ltac:(cbn; lia)). cbn zeta in C.
        unfold jacobian_column in C |- *. cbn [lindex nth_error bind] in C |- *.
        assert (KN : str_eqb num (L "gmpy") || str_eqb num (L "mpmath") = false).
        { apply orb_false_iff. split; (destruct (str_eqb num _) eqn:E; [apply EQF in E; contradiction|reflexivity]). }
        rewrite KN. change (str_eqb (L "gmpy") (L "gmpy") || _) with true in C.
        match type of C with bind ?c _ = _ => destruct c as [[q|]|e] eqn:Q end.
        - cbn [bind]. rewrite NF. reflexivity.
        - cbn [bind] in C. rewrite NF in C. discriminate.
        - discriminate. }
      unfold numerical_jacobian. unfold fr at 1. cbn [bind length seq mapM]. rewrite C. reflexivity.
    - intros num left ->.
      unfold numerical_jacobian. unfold fr at 1. cbn [bind length seq mapM].
      unfold jacobian_column at 1. cbn [lindex nth_error bind].
      assert (Z : Rmax (Rabs (0 * a)) 0 = 0%R).
      { rewrite Rmult_0_l, Rabs_R0. apply Rmax_left. lra. }
      rewrite Z.
      assert (PD : forall q, pydiv q 0 = Err ZeroDivisionError).
      { intro q. unfold pydiv, Reqb. destruct (Req_EM_T 0 0); [reflexivity|congruence]. }
      assert (CM : forall d, exists c cs, col_minus (f (shift_at (a :: x) 0 d)) (f (a :: x)) = Ok (c :: cs)).
      { intro d. unfold col_minus. rewrite !Hm, Nat.eqb_refl.
        pose proof (Hm (shift_at (a :: x) 0 d)) as H. rewrite NF.
        destruct (f (shift_at (a :: x) 0 d)) as [|p ps]; [cbn in H; congruence|]. cbn. eauto. }
      destruct left; cbn [side_name].
      + change (str_eqb (L "left") (L "left")) with true. cbn match. unfold fr at 1. cbn [bind].
        destruct (CM (- 0)%R) as (c & cs & ->). cbn [bind mapM]. rewrite Ropp_0, PD. reflexivity.
      + change (str_eqb (L "right") (L "left")) with false. change (str_eqb (L "right") (L "right")) with true.
        cbn match. unfold fr at 1. cbn [bind].
        destruct (CM 0%R) as (c & cs & ->). cbn [bind mapM]. rewrite PD. reflexivity.
  Qed.
End Jac.
