(** Specification vocabulary for the net rates of a mechanism at a steady state (C117). *)
From Coq Require Import String Ascii List ZArith Bool Reals.
Import ListNotations.
From Verif Require Import PyBase Rxn_Model Rxn_Spec Species_Model Species_Spec PyReal MF_Model MF_Spec Whole_Spec.
Local Open Scope list_scope.
Local Open Scope R_scope.

(** How much of a species a reaction uses up. *)
Definition used_up (n : str) (fls : list (list formula)) : Z := net_consumption n (begins fls) (ends fls).

(** The reaction number [j] is the only one to change some adsorbate, apart from those numbered in [l]. *)
Definition dead_end (s : setup) (l : list nat) (j : nat) : Prop :=
  exists n fls, In n (ads s) /\ (forall fls', In fls' (l_rxns (s_lists s)) -> plain_in n fls') /\
    nth_error (l_rxns (s_lists s)) j = Some fls /\ used_up n fls <> 0%Z /\
    forall i fls', nth_error (l_rxns (s_lists s)) i = Some fls' -> i <> j -> ~ In i l -> used_up n fls' = 0%Z.
(** Branches of the mechanism that lead nowhere, from their tips on. *)
Inductive dead_ends (s : setup) : list nat -> Prop :=
| no_dead_end : dead_ends s []
| one_more l j : dead_ends s l -> dead_end s l j -> dead_ends s (j :: l).

(** Two reactions in a row: an adsorbate that nothing else changes, apart from dead ends. *)
Definition in_series (s : setup) (l : list nat) (i j : nat) (a b : Z) : Prop :=
  exists n fi fj, In n (ads s) /\ (forall fls', In fls' (l_rxns (s_lists s)) -> plain_in n fls') /\ i <> j /\
    nth_error (l_rxns (s_lists s)) i = Some fi /\ nth_error (l_rxns (s_lists s)) j = Some fj /\
    used_up n fi = (- a)%Z /\ used_up n fj = b /\
    forall k fk, nth_error (l_rxns (s_lists s)) k = Some fk -> k <> i -> k <> j -> ~ In k l -> used_up n fk = 0%Z.
