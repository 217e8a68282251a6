(** Property theorems: a search that makes its own first guess (C60). *)
From Coq Require Import String Ascii List ZArith Bool Arith Reals.
Import ListNotations.
From Verif Require Import PyBase PyReal MF_Model MF_Spec Steady_Model Steady_Spec FirstGuess_Proofs.
Local Open Scope list_scope.
Local Open Scope nat_scope.

(** Without a guess the hybrid method is called once, before the first round and with nothing
    told to the plugins; its coverages are constrained and the rounds go on from there. *)
Theorem C60_no_guess : forall I (q : search I), calm q ->
  forall fuel r st, get_steady_state_cvgs q fuel None = (Ok r, st) ->
  exists h c0 c1 evs, q_hybrid q = Some h /\ h [] 0 = Ok c0 /\ q_constrain q c0 = Ok c1 /\
  trace st = Hybrid 0 :: evs /\
  rounds q [Hybrid 0] 1 c1 evs
    (match r with
     | Some a => match a_coverages a, a_error a with Some x, Some e => Some (x, e, a_guess a) | _, _ => None end
     | None => None
     end) /\
  (forall a, r = Some a -> a_coverages a <> None /\ a_error a <> None).
Proof. exact @guess_rounds. Qed.
Print Assumptions C60_no_guess.

(** Without a guess and without a method there is a TypeError. *)
Theorem C60_no_method : forall I (q : search I), q_hybrid q = None ->
  forall fuel, fst (get_steady_state_cvgs q fuel None) = Err TypeError.
Proof. exact @no_method. Qed.
Print Assumptions C60_no_method.

Example C60_guess_example : calm guess_search /\
  exists a st, get_steady_state_cvgs guess_search 1 None = (Ok (Some a), st) /\
  a_coverages a = Some [0%R] /\ a_guess a = [8%R] /\ trace st = [Hybrid 0; Setup 0 1; Finalize 0 1].
Proof. exact (conj guess_calm guess_run). Qed.
