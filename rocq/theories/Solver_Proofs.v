From Coq Require Import String Ascii List ZArith Bool Arith Lia.
From Verif Require Import PyBase PyBaseFacts Solver_Model.
Import ListNotations.
Local Open Scope list_scope.
Local Open Scope nat_scope.

Lemma str_eqb_false (a b : str) : str_eqb a b = false <-> a <> b.
Proof.
  split; [intros E ->; rewrite str_eqb_refl in E; discriminate|].
  intros N. destruct (str_eqb a b) eqn:E; [apply str_eqb_eq in E; contradiction|reflexivity].
Qed.

Lemma constructs_ok os : forall p q,
  constructs os p = q <->
  (exists before o after, os = before ++ o :: after /\ ow_representation o = L "mpmath" /\ q = ow_precision o /\
     Forall (fun o => ow_representation o <> L "mpmath") after) \/
  (Forall (fun o => ow_representation o <> L "mpmath") os /\ q = p).
Proof.
  induction os as [|o os IH]; intros p q; cbn [constructs].
  - split; [intros <-; right; split; auto|]. intros [(b & o & a & E & _)|[_ E]]; [destruct b; discriminate|auto].
  - rewrite IH. unfold construct. destruct (str_eqb _ _) eqn:E; cbn [snd];
      [apply str_eqb_eq in E|apply str_eqb_false in E]; split.
    + intros [(b & o' & a & -> & H)|[F ->]].
      * left. exists (o :: b), o', a. split; [reflexivity|exact H].
      * left. exists [], o, os. auto.
    + intros [([|x b] & o' & a & EO & R & Q & F)|[F ->]].
      * injection EO as <- <-. right. auto.
      * injection EO as <- ->. left. exists b, o', a. auto.
      * inversion F. contradiction.
    + intros [(b & o' & a & -> & H)|[F ->]].
      * left. exists (o :: b), o', a. split; [reflexivity|exact H].
      * right. split; [constructor; auto|reflexivity].
    + intros [([|x b] & o' & a & EO & R & Q & F)|[F ->]].
      * injection EO as <- <-. contradiction.
      * injection EO as <- ->. left. exists b, o', a. auto.
      * right. inversion F. auto.
Qed.

Section Iterators.
  Context {V : Type}.
  Implicit Types kwargs a : dict V.

  Lemma set_other kwargs : forall a key, (forall k, In k (map fst kwargs) -> key <> ch "_" :: k) ->
    dget (set_attributes a kwargs) key = dget a key.
  Proof.
    induction kwargs as [|[k v] t IH]; intros a key H; [reflexivity|]. cbn [set_attributes].
    rewrite IH; [|intros k' I; apply H; now right]. rewrite dget_dset.
    destruct (str_eqb key (ch "_" :: k)) eqn:E; [|reflexivity].
    apply str_eqb_eq in E. exfalso. exact (H k (or_introl eq_refl) E).
  Qed.

  Lemma set_given kwargs : NoDup (map fst kwargs) -> forall a k v, In (k, v) kwargs ->
    dget (set_attributes a kwargs) (ch "_" :: k) = Some v.
  Proof.
    induction kwargs as [|[k0 v0] t IH]; intros ND a k v I; [inversion I|].
    cbn [map fst] in ND. inversion ND as [|? ? N ND' EQ]. subst. cbn [set_attributes]. destruct I as [EQ|I].
    - injection EQ as -> ->. rewrite set_other, dget_dset, str_eqb_refl; [reflexivity|].
      intros k' I' C. injection C as <-. contradiction.
    - now apply IH.
  Qed.

  Lemma check_ok a ps : (forall p, In p ps -> exists v, dget a (ch "_" :: p) = Some v) -> check_params a ps = Ok tt.
  Proof.
    induction ps as [|p ps IH]; intros H; [reflexivity|]. cbn [check_params]. unfold dmem.
    destruct (H p (or_introl eq_refl)) as [v ->]. apply IH. intros q Q. apply H. now right.
  Qed.
  Lemma check_bad a ps p : In p ps -> dget a (ch "_" :: p) = None -> check_params a ps = Err ParameterError.
  Proof.
    induction ps as [|q ps IH]; intros I N; [inversion I|]. cbn [check_params]. unfold dmem in *. destruct I as [->|I].
    - now rewrite N.
    - destruct (dget a (ch "_" :: q)); [auto|reflexivity].
  Qed.

  Lemma constrained_ok kwargs : NoDup (map fst kwargs) ->
    ((forall k, In k [L "J"; L "constraint"; L "norm"; L "mpfloat"; L "matrix"; L "Axb_solver"] ->
        exists v, In (k, v) kwargs) ->
     exists o, constrained_newton kwargs = Ok o /\
       (forall k v, In (k, v) kwargs -> dget o (ch "_" :: k) = Some v) /\
       (forall v, In (L "constraint", v) kwargs -> dget o (L "real_constraint") = Some v)) /\
    (forall k, In k [L "J"; L "constraint"; L "norm"; L "mpfloat"; L "matrix"; L "Axb_solver"] ->
       (forall v, ~ In (k, v) kwargs) -> constrained_newton kwargs = Err ParameterError).
  Proof.
    intros ND. split.
    - intros H. unfold constrained_newton. cbv zeta.
      rewrite check_ok; [|intros p P; destruct (H p P) as [v I]; exists v; now apply set_given]. cbn [bind].
      destruct (H (L "constraint")) as [c C]; [cbn; auto|].
      pose proof (set_given kwargs ND [] _ _ C) as G.
      change (ch "_" :: L "constraint") with (L "_constraint") in G.
      unfold dindex. rewrite G. cbn [bind]. eexists. split; [reflexivity|]. split.
      + intros k v I. rewrite dget_dset.
        replace (str_eqb (ch "_" :: k) (L "real_constraint")) with false
          by (symmetry; apply str_eqb_false; discriminate).
        now apply set_given.
      + intros v I. rewrite dget_dset, str_eqb_refl. f_equal.
        apply (set_given kwargs ND [] _ _) in I. change (ch "_" :: L "constraint") with (L "_constraint") in I. congruence.
    - intros k I N. unfold constrained_newton. cbv zeta.
      rewrite (check_bad _ _ k I); [reflexivity|].
      rewrite set_other; [reflexivity|]. intros k' I' C. injection C as <-.
      apply in_map_iff in I' as ((k1 & v) & E1 & I1). cbn in E1. subst. exact (N v I1).
  Qed.

  Lemma damped_ok (mp_norm : V) x0 kwargs :
    (forall r, (x0 = Numbers r /\ r <> 0 \/ x0 = Matrix r 1) ->
       (forall v, dget kwargs (L "verbose") = Some v ->
          md_newton mp_norm x0 kwargs
          = Ok {| d_rows := r; d_J := dget kwargs (L "J"); d_norm := mp_norm; d_verbose := v |}) /\
       (dget kwargs (L "verbose") = None -> md_newton mp_norm x0 kwargs = Err KeyError)) /\
    (forall r c, x0 = Matrix r c -> c <> 1 -> md_newton mp_norm x0 kwargs = Err AssertionError) /\
    (x0 = Numbers 0 -> md_newton mp_norm x0 kwargs = Err IndexError).
  Proof.
    unfold md_newton, dindex. split; [|split].
    - intros r [[-> N]| ->]; [destruct r; [congruence|]|]; cbn [bind snd fst Nat.eqb]; split; [intros v ->|intros ->|intros v ->|intros ->];
        reflexivity.
    - intros r c -> N. cbn [bind snd]. destruct (Nat.eqb_spec c 1); [contradiction|reflexivity].
    - intros ->. reflexivity.
  Qed.
End Iterators.

Lemma iterator_ok {V} (val : str -> V) mp_norm n :
  (exists o, iterator val mp_norm (L "ConstrainedNewton") n = Ok (inl o) /\
     (forall k, In k [L "J"; L "constraint"; L "norm"; L "mpfloat"; L "matrix"; L "Axb_solver"] ->
        dget o (ch "_" :: k) = Some (val k)) /\
     dget o (L "real_constraint") = Some (val (L "constraint"))) /\
  (n <> 0 -> iterator val mp_norm (L "MDNewton") n
     = Ok (inr {| d_rows := n; d_J := Some (val (L "J")); d_norm := mp_norm; d_verbose := val (L "verbose") |})) /\
  iterator val mp_norm (L "MDNewton") 0 = Err IndexError /\
  (forall name, name <> L "ConstrainedNewton" -> name <> L "MDNewton" -> iterator val mp_norm name n = Err ParameterError).
Proof.
  split; [|split; [|split]].
  - eexists. split; [reflexivity|]. split.
    + cbn [In]. intros k H. intuition (subst; reflexivity).
    + reflexivity.
  - intros N. destruct n; [congruence|]. reflexivity.
  - reflexivity.
  - intros name N1 N2. unfold iterator. apply str_eqb_false in N1, N2. rewrite N1, N2. reflexivity.
Qed.
