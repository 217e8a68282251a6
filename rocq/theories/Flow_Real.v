(** Calculus for the course of coverages in time: sums, squares of negative parts, Gronwall. *)
From Coq Require Import List ZArith Bool Reals Lia Lra.
Import ListNotations.
From Verif Require Import PyBase PyReal RDeriv.
Local Open Scope list_scope.
Local Open Scope R_scope.

Lemma d_sum {A} (f : A -> R -> R) (f' : A -> R) t l :
  (forall a, In a l -> derivable_pt_lim (f a) t (f' a)) ->
  derivable_pt_lim (fun u => Rsum (map (fun a => f a u) l)) t (Rsum (map f' l)).
Proof.
  induction l as [|a l IH]; intro H; cbn [map Rsum].
  - apply derivable_pt_lim_const.
  - apply (derivable_pt_lim_plus (f a) (fun u => Rsum (map (fun a => f a u) l))).
    + apply H. now left.
    + apply IH. intros; apply H; now right.
Qed.

Lemma sum_le {A} (f g : A -> R) l : (forall a, In a l -> f a <= g a) -> Rsum (map f l) <= Rsum (map g l).
Proof.
  induction l as [|a l IH]; intro H; cbn [map Rsum]; [lra|].
  specialize (H a (or_introl eq_refl)) as Ha. assert (Rsum (map f l) <= Rsum (map g l)) by (apply IH; intros; apply H; now right). lra.
Qed.
Lemma sum_pos {A} (f : A -> R) l : (forall a, In a l -> 0 <= f a) -> 0 <= Rsum (map f l).
Proof.
  induction l as [|a l IH]; intro H; cbn [map Rsum]; [lra|].
  specialize (H a (or_introl eq_refl)) as Ha. assert (0 <= Rsum (map f l)) by (apply IH; intros; apply H; now right). lra.
Qed.
Lemma sum_term {A} (f : A -> R) l a : (forall b, In b l -> 0 <= f b) -> In a l -> f a <= Rsum (map f l).
Proof.
  induction l as [|b l IH]; intros H []; cbn [map Rsum].
  - subst b. assert (0 <= Rsum (map f l)) by (apply sum_pos; intros; apply H; now right). lra.
  - specialize (H b (or_introl eq_refl)) as Hb.
    assert (f a <= Rsum (map f l)) by (apply IH; auto; intros; apply H; now right). lra.
Qed.
Lemma sum_zero {A} (f : A -> R) l : (forall a, In a l -> f a = 0) -> Rsum (map f l) = 0.
Proof.
  induction l as [|a l IH]; intro H; cbn [map Rsum]; [lra|].
  rewrite (H a (or_introl eq_refl)), IH; [lra|]. intros; apply H; now right.
Qed.
Lemma sum_scal {A} c (f : A -> R) l : Rsum (map (fun a => c * f a) l) = c * Rsum (map f l).
Proof. induction l as [|a l IH]; cbn [map Rsum]; [ring|]. rewrite IH. ring. Qed.

(** The square of a sum is at most so many times the sum of squares. *)
Lemma sum_square {A} (f : A -> R) l :
  Rsum (map f l) * Rsum (map f l) <= INR (length l) * Rsum (map (fun a => f a * f a) l).
Proof.
  induction l as [|a l IH]; cbn [map Rsum length]; [cbn; lra|]. rewrite S_INR.
  set (x := Rsum (map f l)) in *. set (q := Rsum (map (fun a => f a * f a) l)) in *. set (n := INR (length l)) in *.
  assert (Hn : 0 <= n) by apply pos_INR.
  assert (Hq : 0 <= q) by (apply sum_pos; intros; nra).
  assert (2 * (f a * x) <= n * (f a * f a) + q).
  { destruct (Req_dec n 0) as [E|E].
    - assert (x * x <= 0) by (rewrite E in IH; lra). assert (x = 0) as -> by nra. rewrite E. lra.
    - assert (0 < n) by lra.
      apply (Rmult_le_reg_l n); auto. assert (0 <= (n * f a - x) * (n * f a - x)) by apply Rle_0_sqr. nra. }
  nra.
Qed.

(** ** Negative parts *)
Definition neg (y : R) : R := - Rmin y 0.
Lemma neg_pos y : 0 <= neg y.
Proof. unfold neg, Rmin. destruct (Rle_dec y 0); lra. Qed.
Lemma neg_zero y : 0 <= y -> neg y = 0.
Proof. unfold neg, Rmin. destruct (Rle_dec y 0); lra. Qed.
Lemma neg_abs y : y <= 0 -> neg y = Rabs y.
Proof. intro H. unfold neg, Rmin. destruct (Rle_dec y 0); [|lra]. now rewrite Rabs_left1. Qed.
Lemma zero_neg y : neg y = 0 -> 0 <= y.
Proof. unfold neg, Rmin. destruct (Rle_dec y 0); lra. Qed.

Lemma neg_square_step y h : Rabs (neg (y + h) * neg (y + h) - neg y * neg y - - 2 * neg y * h) <= h * h.
Proof.
  unfold neg, Rmin. apply Rabs_le. destruct (Rle_dec (y + h) 0) as [A|A], (Rle_dec y 0) as [B|B]; split; nra.
Qed.

Lemma d_neg_square y : derivable_pt_lim (fun u => neg u * neg u) y (- 2 * neg y).
Proof.
  intros eps Heps. exists (mkposreal eps Heps). intros h Hh Hd. cbn in Hd.
  replace ((neg (y + h) * neg (y + h) - neg y * neg y) / h - - 2 * neg y)
    with ((neg (y + h) * neg (y + h) - neg y * neg y - - 2 * neg y * h) / h) by (field; auto).
  unfold Rdiv. rewrite Rabs_mult, Rabs_inv. pose proof (neg_square_step y h) as Q.
  apply (Rle_lt_trans _ (Rabs h)); auto. apply (Rmult_le_reg_r (Rabs h)); [now apply Rabs_pos_lt|].
  rewrite Rmult_assoc, Rinv_l, Rmult_1_r by now apply Rabs_no_R0.
  rewrite <- Rabs_mult. rewrite (Rabs_right (h * h)) by nra. exact Q.
Qed.

(** ** Gronwall *)
Lemma decays V V' c T : (forall t, 0 <= t <= T -> derivable_pt_lim V t (V' t) /\ V' t <= c * V t) ->
  forall t, 0 <= t <= T -> V t <= V 0 * exp (c * t).
Proof.
  intros H t Ht. destruct (Req_dec t 0) as [->|N]; [rewrite Rmult_0_r, exp_0; lra|].
  destruct (MVT_cor2 (fun u => V u * exp (- c * u)) (fun u => (V' u - c * V u) * exp (- c * u)) 0 t) as (u & E & Hu); [lra| |].
  { intros u Hu. destruct (H u) as [Hv _]; [lra|].
    apply (d_eq _ _ (V' u * exp (- c * u) + V u * (exp (- c * u) * (- c)))); [ring|].
    apply (d_mult V (fun u => exp (- c * u))); [exact Hv|].
    apply (d_comp (fun u => - c * u) exp).
    - apply (d_eq _ _ (- c * 1)); [ring|]. apply d_scal, d_id.
    - apply derivable_pt_lim_exp. }
  destruct (H u) as [_ Le]; [lra|]. rewrite Rmult_0_r, exp_0, Rmult_1_r in E.
  assert ((V' u - c * V u) * exp (- c * u) <= 0) by (pose proof (exp_pos (- c * u)); nra).
  assert (A : V t * exp (- c * t) <= V 0) by nra.
  pose proof (exp_pos (c * t)) as P.
  assert (E1 : exp (- c * t) * exp (c * t) = 1) by (rewrite <- exp_plus; replace (- c * t + c * t) with 0 by ring; apply exp_0).
  replace (V t) with (V t * exp (- c * t) * exp (c * t)) by (rewrite Rmult_assoc, E1; ring).
  apply Rmult_le_compat_r; lra.
Qed.

(** ** Bounds *)
Lemma bounded_on f f' T : (forall t, 0 <= t <= T -> derivable_pt_lim f t (f' t)) ->
  exists B, 0 <= B /\ forall t, 0 <= t <= T -> Rabs (f t) <= B.
Proof.
  intro H. destruct (Rle_dec 0 T) as [P|P]; [|exists 0; split; [lra|intros; lra]].
  assert (C : forall t, 0 <= t <= T -> continuity_pt f t).
  { intros t Ht. apply derivable_continuous_pt. exists (f' t). now apply H. }
  destruct (continuity_ab_maj f 0 T P C) as (a & Ha & _). destruct (continuity_ab_min f 0 T P C) as (b & Hb & _).
  exists (Rabs (f a) + Rabs (f b)). split; [pose proof (Rabs_pos (f a)); pose proof (Rabs_pos (f b)); lra|].
  intros t Ht. specialize (Ha t Ht). specialize (Hb t Ht).
  unfold Rabs. destruct (Rcase_abs (f t)), (Rcase_abs (f a)), (Rcase_abs (f b)); lra.
Qed.

Lemma all_bounded {A} (f : A -> R -> R) f' T l :
  (forall a t, In a l -> 0 <= t <= T -> derivable_pt_lim (f a) t (f' a t)) ->
  exists B, 0 <= B /\ forall a t, In a l -> 0 <= t <= T -> Rabs (f a t) <= B.
Proof.
  induction l as [|a l IH]; intro H; [exists 0; split; [lra|intros ? ? []]|].
  destruct IH as (B & P & HB); [intros; apply H; auto; now right|].
  destruct (bounded_on (f a) (f' a) T) as (B' & P' & HB'); [intros; apply H; auto; now left|].
  exists (B + B'). split; [lra|]. intros b t [<-|I] Ht; [specialize (HB' t Ht)|specialize (HB b t I Ht)]; lra.
Qed.
