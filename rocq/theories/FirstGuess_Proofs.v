(** A search that makes its own first guess: lemmas. *)
From Coq Require Import String Ascii List ZArith Bool Arith Reals Lia Lra.
Import ListNotations.
From Verif Require Import PyBase Rxn_Model Species_Model PyReal MF_Model MF_Spec Steady_Model Steady_Spec Steady_Rounds Steady_Witness.
Local Open Scope list_scope.
Local Open Scope nat_scope.

Section Guess.
  Context {I : Type}.
  Variable q : search I.
  Hypothesis Calm : calm q.

  Lemma guess_rounds : forall fuel r st, get_steady_state_cvgs q fuel None = (Ok r, st) ->
    exists h c0 c1 evs, q_hybrid q = Some h /\ h [] 0 = Ok c0 /\ q_constrain q c0 = Ok c1 /\
    trace st = Hybrid 0 :: evs /\
    rounds q [Hybrid 0] 1 c1 evs
      (match r with
       | Some a => match a_coverages a, a_error a with Some x, Some e => Some (x, e, a_guess a) | _, _ => None end
       | None => None
       end) /\
    (forall a, r = Some a -> a_coverages a <> None /\ a_error a <> None).
  Proof.
    intros fuel r st H. unfold get_steady_state_cvgs in H.
    destruct (q_hybrid q) as [h|] eqn:EH; [|discriminate]. destruct (h [] 0) as [c0|] eqn:E0; [|discriminate].
    destruct (q_constrain q c0) as [c1|] eqn:EC; [|discriminate].
    destruct (outer_loop q fuel 1 c1 (happen (Hybrid 0) new_state)) as [[c2|] st1] eqn:EO; [|discriminate].
    destruct (outer_rounds q Calm fuel 1 c1 (happen (Hybrid 0) new_state) c2 st1 eq_refl EO) as (evs & E1 & E2 & E3).
    cbn [trace happen new_state app] in E1, E2. exists h, c0, c1, evs.
    split; [reflexivity|]. split; [exact E0|]. split; [exact EC|].
    destruct (converged st1).
    - destruct (coverages st1) as [cv|] eqn:EC1; [|discriminate]. destruct (error st1) as [er|] eqn:EE1; [|discriminate].
      inversion H; subst r st. cbn [a_coverages a_error a_guess].
      split; [exact E1|]. split; [exact E2|]. intros a EA. injection EA as <-. cbn. split; discriminate.
    - inversion H; subst r st. split; [exact E1|]. split; [exact E2|discriminate].
  Qed.
  Lemma no_method : q_hybrid q = None -> forall fuel, fst (get_steady_state_cvgs q fuel None) = Err TypeError.
  Proof. intros E fuel. unfold get_steady_state_cvgs. now rewrite E. Qed.
End Guess.

(** The guess is made by the method and is good. *)
Definition guess_search : search (list (list R * R * list R)) :=
  {| q_f := fun x => Ok x; q_f0 := fun x => Ok x; q_norm := fun v => Ok (Rsum (map Rabs v));
     q_constrain := fun x => Ok x; q_rootfinding := L "MDNewton";
     q_constrained := fun _ => []; q_damped := fun _ => [([0], 0, [0])]%R;
     q_next := fun it => match it with [] => Ok (None, []) | i :: t => Ok (Some i, t) end;
     q_hybrid := Some (fun _ n => Ok [IZR (8 + Z.of_nat n)]); q_tolerance := 1%R; q_max := 3;
     q_single_pt := false; q_intervals := [1]%Z; q_call := fun _ _ => None |}.
Lemma guess_calm : calm guess_search.
Proof.
  unfold calm. cbn. repeat split; try discriminate.
  - intros [|]; discriminate.
  - intros h t n E. injection E as <-. discriminate.
  - intros iv [<-|[]]; discriminate.
Qed.
Lemma guess_run : exists a st, get_steady_state_cvgs guess_search 1 None = (Ok (Some a), st) /\
  a_coverages a = Some [0%R] /\ a_guess a = [8%R] /\ trace st = [Hybrid 0; Setup 0 1; Finalize 0 1].
Proof.
  eexists _, _. split.
  - go2. rewrite (Rleb_no (Rabs 8) 1) by small. go2.
    rewrite (Rltb_yes 0 1) by lra. go2.
    rewrite (Rltb_yes (Rabs 0) 1) by small. go2. rewrite (Rltb_no 0 0) by lra. go2. reflexivity.
  - repeat split; reflexivity.
Qed.
