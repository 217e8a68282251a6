(** Linear exchange, disturbed at one link after the other: the first-order effects cancel. *)
From Coq Require Import String Ascii List ZArith NArith Bool Arith Reals Lia Lra.
Import ListNotations.
From Verif Require Import PyBase PyBaseFacts PyReal MF_More Whole_Bound Flow_Real Markov_Proofs Hop_Proofs Relax_Markov.
Local Open Scope list_scope.
Local Open Scope R_scope.

Lemma sum_abs {A} (f g : A -> R) l : (forall a, In a l -> Rabs (f a) <= g a) -> Rabs (Rsum (map f l)) <= Rsum (map g l).
Proof.
  induction l as [|a l IH]; intro H; cbn [map Rsum]; [rewrite Rabs_R0; lra|].
  eapply Rle_trans; [apply Rabs_triang|]. apply Rplus_le_compat; [apply H; now left|]. apply IH. intros; apply H; now right.
Qed.
Lemma greatest (f : str -> R) : forall l, l <> [] -> exists a, In a l /\ forall b, In b l -> f b <= f a.
Proof.
  induction l as [|x l IH]; intro N; [congruence|]. destruct l as [|y l'].
  - exists x. split; [now left|]. intros b [<-|[]]. lra.
  - destruct (IH ltac:(discriminate)) as (a & Ha & H). destruct (Rle_lt_dec (f a) (f x)).
    + exists x. split; [now left|]. intros b [<-|Hb]; [lra|]. specialize (H b Hb). lra.
    + exists a. split; [now right|]. intros b [<-|Hb]; [lra|auto].
Qed.

(** Small flows mean small shares. *)
Lemma coercive Ls k : (forall i j, 0 <= k i j) -> all_linked Ls k -> NoDup Ls -> Ls <> [] ->
  exists C, 0 <= C /\ forall v d, Rsum (map v Ls) = 0 -> (forall i, In i Ls -> Rabs (inflow Ls k v i) <= d) ->
    forall i, In i Ls -> Rabs (v i) <= C * d.
Proof.
  intros K Lk ND NE. destruct (stationary_exists Ls ND NE k K) as (q & Q0 & Q1 & Qb).
  assert (Qp : forall i, In i Ls -> 0 < q i).
  { apply (all_positive Ls k K Lk q Qb); [rewrite Q1; lra|auto]. }
  destruct (gap Ls k K Lk q Qp Q1 Qb) as (r & Pr & G).
  set (S := Rsum (map (fun i => / q i) Ls)).
  assert (PS : 0 <= S).
  { apply sum_pos. intros a Ha. left. apply Rinv_0_lt_compat. auto. }
  exists (2 * S / r). split.
  { apply Rmult_le_pos; [lra|]. left. now apply Rinv_0_lt_compat. }
  intros v d Z H i Hi. destruct (greatest (fun i => Rabs (v i)) Ls NE) as (m & Hm & M).
  apply (Rle_trans _ (Rabs (v m))); [now apply M|]. set (x := Rabs (v m)) in *.
  assert (Px : 0 <= x) by apply Rabs_pos.
  assert (Pd : 0 <= d) by (eapply Rle_trans; [apply Rabs_pos|apply (H i Hi)]).
  assert (Low : x * x <= Rsum (map (fun i => q i * (v i / q i * (v i / q i))) Ls)).
  { assert (Q2 : q m <= 1) by (rewrite <- Q1; apply (sum_term q); auto).
    apply (Rle_trans _ (q m * (v m / q m * (v m / q m)))).
    - replace (x * x) with (v m * v m) by (unfold x; rewrite <- Rabs_mult, Rabs_pos_eq; [reflexivity|apply Rle_0_sqr]).
      specialize (Qp m Hm). replace (q m * (v m / q m * (v m / q m))) with (/ q m * (v m * v m)) by (field; lra).
      apply divided; auto. assert (0 <= v m * v m) by apply Rle_0_sqr. nra.
    - apply (sum_term (fun i => q i * (v i / q i * (v i / q i)))); auto. intros b Hb. specialize (Qp b Hb).
      apply Rmult_le_pos; [lra|apply Rle_0_sqr]. }
  assert (Z' : Rsum (map (fun i => q i * (v i / q i)) Ls) = 0).
  { rewrite <- Z. apply Rsum_ext. intros a Ha. specialize (Qp a Ha). field. lra. }
  specialize (G (fun i => v i / q i) Z'). cbv beta in G.
  pose proof (dissipates Ls k q Qp Qb v) as Ds.
  assert (Up : uneven Ls k q (fun i => v i / q i) <= 2 * x * d * S).
  { replace (uneven Ls k q (fun i => v i / q i)) with (- Rsum (map (fun i => 2 * (v i / q i) * inflow Ls k v i) Ls)) by (rewrite Ds; ring).
    apply (Rle_trans _ (Rabs (Rsum (map (fun i => 2 * (v i / q i) * inflow Ls k v i) Ls)))).
    { rewrite <- Rabs_Ropp. apply Rle_abs. }
    unfold S. rewrite <- Rsum_mul. apply sum_abs. intros a Ha. specialize (Qp a Ha). specialize (M a Ha). specialize (H a Ha).
    pose proof (Rinv_0_lt_compat _ Qp) as PI. unfold Rdiv. rewrite !Rabs_mult, (Rabs_pos_eq 2), (Rabs_pos_eq (/ q a)) by lra.
    replace (2 * x * d * / q a) with (2 * (x * / q a) * d) by ring.
    pose proof (Rabs_pos (v a)). pose proof (Rabs_pos (inflow Ls k v a)).
    assert (Rabs (v a) * / q a <= x * / q a) by (apply Rmult_le_compat_r; lra).
    assert (0 <= Rabs (v a) * / q a) by (apply Rmult_le_pos; lra).
    apply Rmult_le_compat; try lra. }
  destruct (Req_dec x 0) as [->|Nx].
  { apply Rmult_le_pos; [|exact Pd]. apply Rmult_le_pos; [lra|]. left. now apply Rinv_0_lt_compat. }
  assert (x * x * r <= 2 * x * d * S).
  { apply (Rmult_le_compat_l r) in Low; lra. }
  assert (x * r <= 2 * S * d) by (apply (Rmult_le_reg_l x); lra).
  replace (2 * S / r * d) with (/ r * (2 * S * d)) by (field; lra). apply divided; lra.
Qed.

(** Linearity. *)
Lemma e_net_add v w e : e_net (fun n => v n + w n) e = e_net v e + e_net w e.
Proof. unfold e_net. ring. Qed.
Lemma e_net_sum {A} (y : A -> str -> R) l e : e_net (fun n => Rsum (map (fun a => y a n) l)) e = Rsum (map (fun a => e_net (y a) e) l).
Proof.
  induction l as [|a l IH]; cbn [map Rsum]; [unfold e_net; ring|].
  rewrite (e_net_add (y a) (fun n => Rsum (map (fun a => y a n) l))). now rewrite IH.
Qed.
Lemma e_change_add v w n e : e_change (fun n => v n + w n) n e = e_change v n e + e_change w n e.
Proof. unfold e_change. rewrite e_net_add. destruct (str_eqb (e_dst e) n), (str_eqb (e_src e) n); ring. Qed.
Lemma e_change_sum {A} (y : A -> str -> R) l n e :
  e_change (fun n => Rsum (map (fun a => y a n) l)) n e = Rsum (map (fun a => e_change (y a) n e) l).
Proof.
  induction l as [|a l IH]; cbn [map Rsum].
  - unfold e_change, e_net. destruct (str_eqb (e_dst e) n), (str_eqb (e_src e) n); ring.
  - rewrite (e_change_add (y a) (fun n => Rsum (map (fun a => y a n) l))). now rewrite IH.
Qed.

Definition strength (e : edge) : R := fst (snd e) + snd (snd e).

Section Core.
  Variables (A : Type) (Z : list A) (ed : A -> edge) (wt : A -> R) (y : A -> str -> R) (x : str -> R) (h C : R).
  Variable place : str -> Prop.
  Variable names : list str.
  Let D (v : str -> R) (n : str) : R := Rsum (map (fun z => e_change v n (ed z)) Z).
  Hypothesis HC : 0 <= C.
  Hypothesis Pe : forall z, In z Z -> 0 <= fst (snd (ed z)) /\ 0 <= snd (snd (ed z)) /\ place (e_src (ed z)) /\ place (e_dst (ed z)).
  Variable even : (str -> R) -> Prop.
  Hypothesis Co : forall v d, even v -> 0 <= d -> (forall n, In n names -> Rabs (D v n) <= d) -> forall n, place n -> Rabs (v n) <= C * d.
  Hypothesis Ev : forall z, In z Z -> even (y z).
  Hypothesis EvS : even (fun n => Rsum (map (fun z => y z n) Z)).
  Hypothesis X1 : forall z n, In z Z -> place n -> Rabs (x n + y z n) <= 1.
  Variable t : R.
  Hypothesis T0 : 0 <= t.
  Hypothesis Dx : forall n, In n names -> Rabs (D x n) <= t.
  Hypothesis Dy : forall z n, In z Z -> In n names -> Rabs (D (y z) n + h * e_change (fun m => x m + y z m) n (ed z)) <= 2 * t.

  Let W := Rsum (map (fun z => strength (ed z)) Z).
  Let G := Rsum (map (fun z => Rabs (wt z) * strength (ed z)) Z).
  Lemma strong z : In z Z -> 0 <= strength (ed z).
  Proof. intro H. destruct (Pe z H) as (? & ? & _). unfold strength. lra. Qed.
  Lemma W_pos : 0 <= W.
  Proof. apply sum_pos. apply strong. Qed.
  Lemma strong_W z : In z Z -> strength (ed z) <= W.
  Proof. intro H. apply (sum_term (fun z => strength (ed z))); auto. apply strong. Qed.
  Lemma G_pos : 0 <= G.
  Proof. apply sum_pos. intros z Hz. apply Rmult_le_pos; [apply Rabs_pos|now apply strong]. Qed.

  Lemma net_bound v b z : In z Z -> (forall n, place n -> Rabs (v n) <= b) -> Rabs (e_net v (ed z)) <= b * strength (ed z).
  Proof.
    intros Hz H. destruct (Pe z Hz) as (P1 & P2 & S1 & S2). pose proof (H _ S1) as B1. pose proof (H _ S2) as B2.
    unfold e_net, strength. unfold Rminus. eapply Rle_trans; [apply Rabs_triang|].
    rewrite Rabs_Ropp, !Rabs_mult, (Rabs_pos_eq _ P1), (Rabs_pos_eq _ P2). nra.
  Qed.
  Lemma change_bound v b n z : In z Z -> (forall n, place n -> Rabs (v n) <= b) -> Rabs (e_change v n (ed z)) <= 2 * b * strength (ed z).
  Proof.
    intros Hz H. pose proof (net_bound v b z Hz H) as B. unfold e_change. set (q := e_net v (ed z)) in *.
    pose proof (Rabs_pos q) as Pt.
    destruct (str_eqb (e_dst (ed z)) n), (str_eqb (e_src (ed z)) n).
    - replace (q - q) with 0 by ring. rewrite Rabs_R0. lra.
    - replace (q - 0) with q by ring. lra.
    - replace (0 - q) with (- q) by ring. rewrite Rabs_Ropp. lra.
    - replace (0 - 0) with 0 by ring. rewrite Rabs_R0. lra.
  Qed.

  Let B := Rabs h * (2 * W) + 2 * t.
  Lemma B_pos : 0 <= B.
  Proof. pose proof W_pos. pose proof (Rabs_pos h). unfold B. assert (0 <= Rabs h * (2 * W)) by (apply Rmult_le_pos; lra). lra. Qed.
  Lemma each z n : In z Z -> place n -> Rabs (y z n) <= C * B.
  Proof.
    intros Hz Hn. apply (Co (y z)); auto; [apply B_pos|]. intros m Hm. pose proof (Dy z m Hz Hm) as Q.
    assert (M : Rabs (h * e_change (fun m => x m + y z m) m (ed z)) <= Rabs h * (2 * W)).
    { rewrite Rabs_mult. apply Rmult_le_compat_l; [apply Rabs_pos|].
      eapply Rle_trans; [apply (change_bound _ 1 m z Hz); intros; now apply X1|]. pose proof (strong_W z Hz). lra. }
    set (u := h * e_change (fun m => x m + y z m) m (ed z)) in *.
    replace (D (y z) m) with ((D (y z) m + u) + - u) by ring.
    eapply Rle_trans; [apply Rabs_triang|]. rewrite Rabs_Ropp. unfold B. lra.
  Qed.
  Let Y (n : str) : R := Rsum (map (fun z => y z n) Z).
  Let M := Rsum (map (fun _ => 1) Z).
  Let A0 := Rabs h * t + Rabs h * (2 * (C * B) * W) + 2 * t * M.
  Lemma M_pos : 0 <= M.
  Proof. apply sum_pos. intros. lra. Qed.
  Lemma A0_pos : 0 <= A0.
  Proof.
    pose proof B_pos. pose proof W_pos. pose proof (Rabs_pos h). pose proof M_pos. unfold A0.
    assert (0 <= C * B) by now apply Rmult_le_pos.
    assert (0 <= Rabs h * t) by now apply Rmult_le_pos.
    assert (0 <= Rabs h * (2 * (C * B) * W)) by (apply Rmult_le_pos; [lra|]; apply Rmult_le_pos; lra).
    assert (0 <= 2 * t * M) by (apply Rmult_le_pos; lra). lra.
  Qed.
  Lemma all_of_them n : place n -> Rabs (Y n) <= C * A0.
  Proof.
    intro Hn. apply (Co Y); auto; [apply A0_pos|]. intros m Hm.
    assert (E : D Y m = - h * D x m + - h * Rsum (map (fun z => e_change (y z) m (ed z)) Z) +
      Rsum (map (fun z => D (y z) m + h * e_change (fun m => x m + y z m) m (ed z)) Z)).
    { unfold D at 1. unfold Y. rewrite (Rsum_ext _ (fun z' => Rsum (map (fun z => e_change (y z) m (ed z')) Z))) by (intros; apply e_change_sum).
      rewrite Rsum_swap.
      rewrite (Rsum_ext (fun z => D (y z) m + h * e_change (fun m => x m + y z m) m (ed z))
        (fun z => D (y z) m + h * (e_change x m (ed z) + e_change (y z) m (ed z)))) by (intros; now rewrite (e_change_add x (y x0))).
      rewrite (Rsum_add (fun z => D (y z) m)), (Rsum_mul (fun z => e_change x m (ed z) + e_change (y z) m (ed z))), Rsum_add.
      fold (D x m). change (Rsum (map (fun z => Rsum (map (fun z' => e_change (y z) m (ed z')) Z)) Z)) with (Rsum (map (fun z => D (y z) m) Z)). ring. }
    rewrite E. clear E.
    assert (E1 : Rabs (- h * D x m) <= Rabs h * t).
    { rewrite Rabs_mult, Rabs_Ropp. apply Rmult_le_compat_l; [apply Rabs_pos|auto]. }
    assert (E2 : Rabs (- h * Rsum (map (fun z => e_change (y z) m (ed z)) Z)) <= Rabs h * (2 * (C * B) * W)).
    { rewrite Rabs_mult, Rabs_Ropp. apply Rmult_le_compat_l; [apply Rabs_pos|].
      unfold W. rewrite <- Rsum_mul. apply sum_abs. intros z Hz. apply change_bound; auto. intros; now apply each. }
    assert (E3 : Rabs (Rsum (map (fun z => D (y z) m + h * e_change (fun m => x m + y z m) m (ed z)) Z)) <= 2 * t * M).
    { unfold M. rewrite <- Rsum_mul. apply sum_abs. intros z Hz. rewrite Rmult_1_r. now apply Dy. }
    unfold A0. eapply Rle_trans; [apply Rabs_triang|]. apply Rplus_le_compat; [|exact E3].
    eapply Rle_trans; [apply Rabs_triang|]. lra.
  Qed.

  Lemma cancel :
    Rabs (Rsum (map (fun z => Rsum (map (fun z' => wt z' * e_net (y z) (ed z')) Z) +
                              h * (wt z * e_net (fun n => x n + y z n) (ed z))) Z) -
          h * Rsum (map (fun z => wt z * e_net x (ed z)) Z))
    <= ((4 * C * C * W * W + 2 * C * W) * G) * (h * h) + ((3 * C + 4 * C * C * W + 2 * C * M) * G) * (t * (1 + Rabs h)).
  Proof.
    rewrite Rsum_add.
    rewrite (Rsum_mul (fun z => wt z * e_net (fun n => x n + y z n) (ed z))).
    rewrite (Rsum_ext (fun z => wt z * e_net (fun n => x n + y z n) (ed z)) (fun z => wt z * e_net x (ed z) + wt z * e_net (y z) (ed z)))
      by (intros; rewrite (e_net_add x (y x0)); ring).
    rewrite Rsum_add, Rsum_swap.
    rewrite (Rsum_ext _ (fun z' => wt z' * e_net Y (ed z'))).
    2:{ intros z' _. rewrite (Rsum_mul (fun z => e_net (y z) (ed z'))). f_equal. symmetry. apply e_net_sum. }
    set (a := Rsum (map (fun z' => wt z' * e_net Y (ed z')) Z)). set (b := Rsum (map (fun z => wt z * e_net (y z) (ed z)) Z)).
    set (c := Rsum (map (fun z => wt z * e_net x (ed z)) Z)).
    replace (a + h * (c + b) - h * c) with (a + h * b) by ring.
    assert (Ba : Rabs a <= C * A0 * G).
    { unfold G. rewrite <- Rsum_mul. apply sum_abs. intros z Hz. rewrite Rabs_mult.
      pose proof (net_bound Y _ z Hz all_of_them) as Q. pose proof (Rabs_pos (wt z)). nra. }
    assert (Bb : Rabs b <= C * B * G).
    { unfold G. rewrite <- Rsum_mul. apply sum_abs. intros z Hz. rewrite Rabs_mult.
      pose proof (net_bound (y z) _ z Hz (fun n Hn => each z n Hz Hn)) as Q. pose proof (Rabs_pos (wt z)). nra. }
    eapply Rle_trans; [apply Rabs_triang|]. rewrite Rabs_mult.
    assert (Hh : h * h = Rabs h * Rabs h) by (rewrite <- Rabs_mult; symmetry; apply Rabs_pos_eq, Rle_0_sqr). rewrite Hh.
    pose proof (Rabs_pos h) as Ph. apply (Rmult_le_compat_l _ _ _ Ph) in Bb.
    set (k := Rabs h) in *. clearbody k.
    apply (Rle_trans _ (C * A0 * G + k * (C * B * G))); [lra|]. unfold A0, B.
    pose proof M_pos. pose proof W_pos. pose proof G_pos.
    assert (0 <= C * G) by now apply Rmult_le_pos. assert (0 <= C * C * W * G) by (apply Rmult_le_pos; auto; apply Rmult_le_pos; auto; apply Rmult_le_pos; auto).
    assert (0 <= C * M * G) by (apply Rmult_le_pos; auto; apply Rmult_le_pos; auto).
    assert (0 <= t * (C * G)) by now apply Rmult_le_pos. assert (0 <= t * (C * C * W * G)) by now apply Rmult_le_pos.
    assert (0 <= k * (t * (C * M * G))) by (repeat apply Rmult_le_pos; auto).
    match goal with |- ?l <= ?r => replace r with (l + (3 * (t * (C * G)) + 4 * (t * (C * C * W * G)) + 2 * (k * (t * (C * M * G))))) by ring end.
    lra.
  Qed.
End Core.
