(** Specification vocabulary for the course of the coverages in time (C99). *)
From Coq Require Import String Ascii List ZArith Bool Reals.
Import ListNotations.
From Verif Require Import PyBase Rxn_Model Rxn_Spec Species_Model Species_Spec PyReal MF_Model MF_Spec Whole_Spec.
Local Open Scope list_scope.
Local Open Scope R_scope.

(** A solution of the rate equations up to the time [T]: at every moment each coverage changes
    as fast as [steady_state_function] says it does. *)
Definition solution (s : setup) (kf kr : list R) (T : R) (th : R -> list R) : Prop :=
  forall t, 0 <= t <= T ->
    length (th t) = length (ads s) /\
    exists data F, get_data s = Ok data /\ steady_state_function s (Ok (kf, kr)) (Some data) (th t) = Ok F /\
      forall i y, nth_error F i = Some y -> derivable_pt_lim (fun u => nth i (th u) 0) t y.

(** Every adsorbate sits on one site, is no transition state, and occurs at most once at the ends of a
    reaction. *)
Definition simple_adsorbates (s : setup) : Prop :=
  forall n, In n (ads s) -> leading_number (after_last_underscore n) = 1%Z /\
    forall fls, In fls (l_rxns (s_lists s)) -> plain_in n fls /\ absent n (removelast (tl fls)).
