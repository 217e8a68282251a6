(** Specification vocabulary for the accuracy of accepted coverages (C119). *)
From Coq Require Import String Ascii List ZArith Bool Arith Reals.
Import ListNotations.
From Verif Require Import PyBase Species_Model PyReal MF_Model MF_Spec.
Local Open Scope list_scope.
Local Open Scope R_scope.

(** Entry by entry not farther apart than [d]. *)
Definition close (d : R) (v w : list R) : Prop :=
  length v = length w /\
  forall i x y, nth_error v i = Some x -> nth_error w i = Some y -> Rabs (x - y) <= d.

(** Coverages whose rates of change are within a tolerance; they need not be physical. *)
Definition steady_within (s : setup) (kf kr : list R) (data : dict R * dict R) (tol : R) (c : list R) : Prop :=
  length c = length (ads s) /\
  exists F, steady_state_function s (Ok (kf, kr)) (Some data) c = Ok F /\ forall y, In y F -> Rabs y <= tol.
