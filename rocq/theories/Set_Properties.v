(** C73: setting the components of a model after its construction. *)
From Coq Require Import String Ascii List ZArith Bool Arith.
Import ListNotations.
From Verif Require Import PyBase PyBaseFacts Attr_Model Attr_Spec Attr_Proofs Set_Model Set_Proofs.
Local Open Scope list_scope.
Local Open Scope nat_scope.

(** A solver that is set is the one read afterwards. *)
Theorem C73_set_solver : forall sub table w i c p d cand, class_of w i c ->
  table c (L "solver") = Some (AComponent d cand) ->
  (exists cl, contents w p = TObj cl /\ sub cl (L "SolverBase") = true) ->
  exists w1, set_solver sub w i p = (Ok tt, w1) /\ getattr table w1 i (L "solver") = (Ok p, w1).
Proof.
  intros sub table w i c p d cand Hc Ht [cl [Hp Hs]]. eapply set_solver_ok; [exact Hc|exact Ht|].
  unfold isinstance. now rewrite Hp.
Qed.
Print Assumptions C73_set_solver.

(** Anything else is refused with a TypeError and changes nothing. *)
Theorem C73_not_a_solver : forall sub w i p,
  ~ (exists cl, contents w p = TObj cl /\ sub cl (L "SolverBase") = true) ->
  set_solver sub w i p = (Err TypeError, w).
Proof.
  intros sub w i p H. unfold set_solver, isinstance.
  destruct (contents w p) eqn:E; try reflexivity.
  destruct (sub cls (L "SolverBase")) eqn:Es; [|reflexivity]. elim H. exists cls. auto.
Qed.
Print Assumptions C73_not_a_solver.

(** Unlike the other attributes, a component can be set any number of times: the last one
    that is a solver counts. *)
Theorem C73_last_solver : forall sub table i c d cand ps w, class_of w i c ->
  table c (L "solver") = Some (AComponent d cand) ->
  (forall p, In p ps -> exists cl, contents w p = TObj cl /\ sub cl (L "SolverBase") = true) ->
  forall p,
  ((exists cl, contents w p = TObj cl /\ sub cl (L "SolverBase") = true) ->
   fst (getattr table (set_solvers sub w i (ps ++ [p])) i (L "solver")) = Ok p) /\
  (~ (exists cl, contents w p = TObj cl /\ sub cl (L "SolverBase") = true) ->
   fst (getattr table (set_solvers sub w i (ps ++ [p])) i (L "solver")) =
   fst (getattr table (set_solvers sub w i ps) i (L "solver"))).
Proof.
  intros sub table i c d cand ps w Hc Ht Hs p.
  assert (forall q, (exists cl, contents w q = TObj cl /\ sub cl (L "SolverBase") = true) <->
    isinstance sub (contents w q) (L "SolverBase") = true) as Hi.
  { intro q. unfold isinstance. destruct (contents w q); split; try discriminate; try (intros [cl [E _]]; discriminate).
    - intros [cl [E H]]. injection E as ->. exact H.
    - intro H. eauto. }
  rewrite (set_solvers_last sub table i c d cand ps w Hc Ht); [|intros q Hq; now apply Hi, Hs].
  rewrite (Hi p). split; intro H.
  - now rewrite H.
  - destruct (isinstance sub (contents w p) (L "SolverBase")); [now elim H|reflexivity].
Qed.
Print Assumptions C73_last_solver.

(** Nothing but that component changes. *)
Theorem C73_nothing_else : forall sub w i p r w1,
  set_solver sub w i p = (r, w1) \/ set_corrector w i p = (r, w1) \/ set_plotter w i p = (r, w1) ->
  heap w1 = heap w /\ (forall j c, class_of w1 j c <-> class_of w j c) /\
  (forall j k, j <> i -> entry w1 j k = entry w j k) /\
  forall c n, class_of w i c -> n <> L "solver" -> n <> L "corrector" ->
    entry w1 i (L "_" ++ c ++ L "__" ++ n) = entry w i (L "_" ++ c ++ L "__" ++ n).
Proof.
  intros sub w i p r w1 H.
  assert (forall n, set_private w i n p = (r, w1) -> n = L "solver" \/ n = L "corrector" ->
    heap w1 = heap w /\ (forall j c, class_of w1 j c <-> class_of w j c) /\
    (forall j k, j <> i -> entry w1 j k = entry w j k) /\
    forall c n, class_of w i c -> n <> L "solver" -> n <> L "corrector" ->
      entry w1 i (private_name c n) = entry w i (private_name c n)) as Hset.
  { intros n Hn Hor. destruct (set_private_frame _ _ _ _ _ _ Hn) as [H1 [H2 H3]].
    split; [exact H1|]. split; [exact H2|]. split; [intros j k Hj; apply H3; now left|].
    intros c m Hc Hms Hmc. apply H3. right. intros c' Hc' E.
    rewrite (class_unique _ _ _ _ Hc' Hc) in E. apply private_name_inj in E.
    destruct Hor as [-> | ->]; contradiction. }
  assert (forall e, (Err e, w) = (r, w1) -> 
    heap w1 = heap w /\ (forall j c, class_of w1 j c <-> class_of w j c) /\
    (forall j k, j <> i -> entry w1 j k = entry w j k) /\
    forall c n, class_of w i c -> n <> L "solver" -> n <> L "corrector" ->
      entry w1 i (private_name c n) = entry w i (private_name c n)) as Hno.
  { intros e E. injection E as _ <-. repeat split; auto. }
  destruct H as [H|[H|H]].
  - unfold set_solver in H. destruct (isinstance sub (contents w p) (L "SolverBase")).
    + apply (Hset (L "solver")); auto.
    + exact (Hno _ H).
  - apply (Hset (L "corrector")); auto.
  - exact (Hno _ H).
Qed.
Print Assumptions C73_nothing_else.

(** The corrector is stored whatever it is ... *)
Theorem C73_set_corrector : forall table w i c p d cand, class_of w i c ->
  table c (L "corrector") = Some (AComponent d cand) ->
  exists w1, set_corrector w i p = (Ok tt, w1) /\ getattr table w1 i (L "corrector") = (Ok p, w1).
Proof. intros table w i c p d cand Hc Ht. exact (set_private_read table w i c _ p d cand Hc Ht). Qed.
Print Assumptions C73_set_corrector.

(** ... although only correctors should be taken: a number is accepted. *)
Definition base_model : world :=
  {| heap := [TNone; TInt 7; TObj (L "SteadyStateSolver")];
     objects := [{| o_class := L "KineticModel"; o_dict := [] |}] |}.
Theorem C73_corrector_refuted : exists w1,
  contents base_model 1 = TInt 7 /\ set_corrector base_model 0 1 = (Ok tt, w1) /\
  getattr model_table w1 0 (L "corrector") = (Ok 1, w1).
Proof. eexists. repeat split. Qed.
Print Assumptions C73_corrector_refuted.

(** A plotter can never be set. *)
Theorem C73_plotter_refuted : forall w i p, set_plotter w i p = (Err NameError, w).
Proof. reflexivity. Qed.
Print Assumptions C73_plotter_refuted.

Example C73_ex : exists w1,
  set_solver (fun c b => str_eqb c (L "SteadyStateSolver") && str_eqb b (L "SolverBase"))
    base_model 0 2 = (Ok tt, w1) /\
  getattr model_table w1 0 (L "solver") = (Ok 2, w1) /\
  model_table (L "KineticModel") (L "solver")
    = Some (AComponent 4 [L "KMCSolver"; L "SteadyStateSolver"]).
Proof. eexists. repeat split. Qed.
