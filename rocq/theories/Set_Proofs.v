(** Proofs about setting components. *)
From Coq Require Import String Ascii List Bool Arith Lia.
Import ListNotations.
From Verif Require Import PyBase PyBaseFacts Attr_Model Attr_Spec Attr_Proofs Set_Model.
Local Open Scope list_scope.
Local Open Scope nat_scope.

Lemma set_private_read table w i c n p d cand : class_of w i c ->
  table c n = Some (AComponent d cand) ->
  exists w1, set_private w i n p = (Ok tt, w1) /\ getattr table w1 i n = (Ok p, w1).
Proof.
  intros [o [Ho Hc]] Ht. subst c. unfold set_private. rewrite Ho. eexists. split; [reflexivity|].
  unfold getattr. rewrite store_object, Ho, Nat.eqb_refl. cbn [o_class]. rewrite Ht.
  unfold desc_get. cbn [o_dict]. unfold dmem. rewrite dget_dset_same. reflexivity.
Qed.

Lemma set_private_frame w i n p r w1 : set_private w i n p = (r, w1) ->
  heap w1 = heap w /\ (forall j c, class_of w1 j c <-> class_of w j c) /\
  forall j k, (j <> i \/ forall c, class_of w i c -> k <> private_name c n) ->
    entry w1 j k = entry w j k.
Proof.
  unfold set_private. destruct (nth_error (objects w) i) as [o|] eqn:Ho; intro H; injection H as <- <-;
    [|split; [reflexivity|split; [intros; reflexivity|reflexivity]]].
  split; [apply store_heap|]. split; [intros; apply class_store|]. intros j k H. rewrite entry_store.
  destruct (Nat.eqb_spec i j) as [<- |N]; [|reflexivity]. rewrite Ho.
  destruct (str_eqb_spec (private_name (o_class o) n) k) as [E|E]; [|reflexivity].
  exfalso. destruct H as [H|H]; [now apply H|]. apply (H (o_class o)); [exists o; auto|now symmetry].
Qed.

Lemma set_solver_ok sub table w i c p d cand : class_of w i c ->
  table c (L "solver") = Some (AComponent d cand) -> isinstance sub (contents w p) (L "SolverBase") = true ->
  exists w1, set_solver sub w i p = (Ok tt, w1) /\ getattr table w1 i (L "solver") = (Ok p, w1).
Proof. intros Hc Ht Hs. unfold set_solver. rewrite Hs. eapply set_private_read; eassumption. Qed.

Lemma set_solvers_last sub table i c d cand ps : forall w, class_of w i c ->
  table c (L "solver") = Some (AComponent d cand) ->
  (forall p, In p ps -> isinstance sub (contents w p) (L "SolverBase") = true) ->
  forall p, fst (getattr table (set_solvers sub w i (ps ++ [p])) i (L "solver")) =
    if isinstance sub (contents w p) (L "SolverBase") then Ok p
    else fst (getattr table (set_solvers sub w i ps) i (L "solver")).
Proof.
  induction ps as [|q ps IH]; intros w Hc Ht Hs p.
  - cbn [app set_solvers]. destruct (isinstance sub (contents w p) (L "SolverBase")) eqn:E.
    + destruct (set_solver_ok sub table w i c p d cand Hc Ht E) as [w1 [-> H]]. cbn [snd]. now rewrite H.
    + unfold set_solver. now rewrite E.
  - cbn [app set_solvers]. destruct (set_solver_ok sub table w i c q d cand Hc Ht (Hs q (or_introl eq_refl)))
      as [w1 [E _]]. rewrite E. cbn [snd].
    assert (set_private w i (L "solver") q = (Ok tt, w1)) as E'.
    { unfold set_solver in E. now rewrite (Hs q (or_introl eq_refl)) in E. }
    destruct (set_private_frame _ _ _ _ _ _ E') as [Hh [Hcl _]].
    assert (forall x, contents w1 x = contents w x) as Hx by (intro x; unfold contents; now rewrite Hh).
    rewrite IH; [|now apply Hcl|exact Ht|]. { now rewrite Hx. }
    intros x Hi. rewrite Hx. apply Hs. now right.
Qed.
