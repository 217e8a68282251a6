(** Property C76: constructing solvers and root finding iterators. *)
From Coq Require Import String Ascii List ZArith Bool Arith Lia.
From Verif Require Import PyBase PyBaseFacts Solver_Model Solver_Proofs.
From Verif Require Rxn_Model Species_Model MF_Model MF_Spec Solver_Sorted.
Import ListNotations.
Local Open Scope list_scope.
Local Open Scope nat_scope.

(** A solver can be constructed exactly with the representation mpmath; the program's precision
    becomes the one of its model, and stays as it was otherwise. *)
Theorem C76_construct : forall o p,
  (construct o p = (Ok tt, ow_precision o) <-> ow_representation o = L "mpmath") /\
  (construct o p = (Err AttributeError, p) <-> ow_representation o <> L "mpmath").
Proof.
  intros o p. unfold construct. destruct (str_eqb _ _) eqn:E; [apply str_eqb_eq in E|apply str_eqb_false in E];
    split; split; congruence.
Qed.
Print Assumptions C76_construct.

(** The last step of the constructor never fails for reactions that were parsed: every adsorbate is
    put into the list of its site, whether or not the free site is written in a reaction. *)
Theorem C76_sorted : forall s, Species_Model.parse_rxns (MF_Model.s_exprs s) = Ok (MF_Model.s_lists s) ->
  exists cl, MF_Model.classify s = Ok cl /\ map fst cl = MF_Spec.sites s /\
    forall n, In n (MF_Spec.ads s) -> exists names, dget cl (MF_Spec.site_tag n) = Some names /\ In n names.
Proof. exact Solver_Sorted.sorted_ok. Qed.
Print Assumptions C76_sorted.

Example C76_sorted_example :
  exists ls, Species_Model.parse_rxns [L "CO_s + O_s -> CO2_s + *_s"; L "C_t + O_t -> C_t + O_t"] = Ok ls /\
    Species_Model.l_site ls = [L "*_s"; L "*_t"].
Proof. eexists. split; vm_compute; reflexivity. Qed.

(** After any history of constructions the precision is that of the newest solver that could be
    constructed. *)
Theorem C76_precision : forall os p q,
  constructs os p = q <->
  (exists before o after, os = before ++ o :: after /\ ow_representation o = L "mpmath" /\ q = ow_precision o /\
     Forall (fun o => ow_representation o <> L "mpmath") after) \/
  (Forall (fun o => ow_representation o <> L "mpmath") os /\ q = p).
Proof. exact constructs_ok. Qed.
Print Assumptions C76_precision.

(** Refuted: a solver computes with the precision of its model.  A second solver changes it. *)
Theorem C76_own_precision_refuted : exists o1 o2 p,
  fst (construct o1 p) = Ok tt /\ constructs [o1] p = ow_precision o1 /\
  constructs [o1; o2] p <> ow_precision o1 /\ ow_precision o1 = 100%Z /\ ow_precision o2 = 10%Z.
Proof.
  exists {| ow_representation := L "mpmath"; ow_precision := 100 |},
         {| ow_representation := L "mpmath"; ow_precision := 10 |}, 15%Z.
  repeat split; discriminate.
Qed.
Print Assumptions C76_own_precision_refuted.

(** ConstrainedNewton: the six keyword arguments are needed, others may be given; all of them
    become attributes, and the constraint is the one used after the first steps. *)
Theorem C76_constrained : forall (V : Type) (kwargs : dict V), NoDup (map fst kwargs) ->
  ((forall k, In k [L "J"; L "constraint"; L "norm"; L "mpfloat"; L "matrix"; L "Axb_solver"] ->
      exists v, In (k, v) kwargs) ->
   exists o, constrained_newton kwargs = Ok o /\
     (forall k v, In (k, v) kwargs -> dget o (ch "_" :: k) = Some v) /\
     (forall v, In (L "constraint", v) kwargs -> dget o (L "real_constraint") = Some v)) /\
  (forall k, In k [L "J"; L "constraint"; L "norm"; L "mpfloat"; L "matrix"; L "Axb_solver"] ->
     (forall v, ~ In (k, v) kwargs) -> constrained_newton kwargs = Err ParameterError).
Proof. exact (@constrained_ok). Qed.
Print Assumptions C76_constrained.

Example C76_constrained_example :
  let kwargs := map (fun k => (k, length k)) [L "norm"; L "J"; L "matrix"; L "constraint"; L "mpfloat"; L "Axb_solver"; L "extra"] in
  NoDup (map fst kwargs) /\
  (forall k, In k [L "J"; L "constraint"; L "norm"; L "mpfloat"; L "matrix"; L "Axb_solver"] -> exists v, In (k, v) kwargs).
Proof.
  split.
  - cbn. repeat constructor; cbn; intuition discriminate.
  - cbn. intros k H. intuition (subst; eauto 10).
Qed.

(** MDNewton: a starting point with one column and the keyword verbose. *)
Theorem C76_damped : forall (V : Type) (mp_norm : V) x0 kwargs,
  (forall r, (x0 = Numbers r /\ r <> 0 \/ x0 = Matrix r 1) ->
     (forall v, dget kwargs (L "verbose") = Some v ->
        md_newton mp_norm x0 kwargs
        = Ok {| d_rows := r; d_J := dget kwargs (L "J"); d_norm := mp_norm; d_verbose := v |}) /\
     (dget kwargs (L "verbose") = None -> md_newton mp_norm x0 kwargs = Err KeyError)) /\
  (forall r c, x0 = Matrix r c -> c <> 1 -> md_newton mp_norm x0 kwargs = Err AssertionError) /\
  (x0 = Numbers 0 -> md_newton mp_norm x0 kwargs = Err IndexError).
Proof. exact (@damped_ok). Qed.
Print Assumptions C76_damped.

(** Refuted: the documented keywords suffice, and the keyword norm is the norm used. *)
Theorem C76_documented_refuted : exists (kwargs : dict nat) (verbose : nat),
  (forall k, In k [L "J"; L "constraint"; L "norm"; L "mpfloat"; L "matrix"; L "Axb_solver"] -> exists v, In (k, v) kwargs) /\
  md_newton 7 (Numbers 2) kwargs = Err KeyError /\
  exists o, md_newton 7 (Numbers 2) ((L "verbose", verbose) :: kwargs) = Ok o /\ In (L "norm", 2) kwargs /\ d_norm o = 7.
Proof.
  exists [(L "J", 0); (L "constraint", 1); (L "norm", 2); (L "mpfloat", 3); (L "matrix", 4); (L "Axb_solver", 5)], 0.
  split; [cbn; intros k H; intuition (subst; eauto 10)|]. split; [reflexivity|].
  eexists. split; [reflexivity|]. split; [cbn; auto|reflexivity].
Qed.
Print Assumptions C76_documented_refuted.

(** The iterators of a search: both kinds can always be constructed if there are coverages, with
    the functions of the search. *)
Theorem C76_iterator : forall (V : Type) (val : str -> V) mp_norm n,
  (exists o, iterator val mp_norm (L "ConstrainedNewton") n = Ok (inl o) /\
     (forall k, In k [L "J"; L "constraint"; L "norm"; L "mpfloat"; L "matrix"; L "Axb_solver"] ->
        dget o (ch "_" :: k) = Some (val k)) /\
     dget o (L "real_constraint") = Some (val (L "constraint"))) /\
  (n <> 0 -> iterator val mp_norm (L "MDNewton") n
     = Ok (inr {| d_rows := n; d_J := Some (val (L "J")); d_norm := mp_norm; d_verbose := val (L "verbose") |})) /\
  iterator val mp_norm (L "MDNewton") 0 = Err IndexError /\
  (forall name, name <> L "ConstrainedNewton" -> name <> L "MDNewton" -> iterator val mp_norm name n = Err ParameterError).
Proof. exact (@iterator_ok). Qed.
Print Assumptions C76_iterator.
