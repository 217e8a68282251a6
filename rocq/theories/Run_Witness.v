(** A small solver for the examples of C66. *)
From Coq Require Import String Ascii List Arith Bool Lia.
Import ListNotations.
From Verif Require Import PyBase PyBaseFacts Archive_Model Archive_Spec Run_Model Run_Spec Run_Proofs.
Local Open Scope list_scope.
Local Open Scope nat_scope.

(** The error of the last search, the data file, and whether the turnover frequencies fail. *)
Record world := { w_error : option nat; w_file : option (dict (list nat)); w_broken : bool }.
Definition clean : world := {| w_error := None; w_file := None; w_broken := false |}.

(** A search doubles the coverages and archives them; the hybrid method proposes ones. *)
Definition toy : solver world (list nat) nat (list nat) nat := {|
  v_len := @length nat;
  v_nads := 2;
  v_exists w := match w_file w with Some _ => true | None => false end;
  v_load w := match w_file w with Some d => Ok d | None => Err IOError end;
  v_ode w := (Ok [7; 7], w);
  v_fsolve c _ w := (Ok (map S c), w);
  v_search c _ w :=
    let c' := map (fun x => 2 * x) (match c with Some c => c | None => [1; 1] end) in
    (Ok (Some c'), {| w_error := Some 5; w_file := Some [(L "steady_state_coverages", c')]; w_broken := w_broken w |});
  v_constants _ w := (Ok tt, w);
  v_rates c _ w := match c with Some c => (Ok (c, c), w) | None => (Err TypeError, w) end;
  v_tofs c _ w := if w_broken w then (Err ValueError, w)
                  else match c with Some c => (Ok (map (fun x => 10 * x) c), w) | None => (Err TypeError, w) end;
  v_reversibilities a b w := (Ok (a ++ b), w);
  v_error w := match w_error w with Some x => Ok x | None => Err AttributeError end;
  v_xrc _ _ _ w := (Ok tt, w)
|}.

Definition given (c : list nat) (fs co : bool) : args (list nat) nat nat :=
  {| a_init := Seq c; a_energies := None; a_fsolve := fs; a_coarse := co; a_xrc := false; a_epsilon := None; a_product := None |}.

Lemma default_fails : exists (v : solver world (list nat) nat (list nat) nat) w c w1,
  v_search v None None w = (Ok (Some c), w1) /\ run v defaults w new_model = (Err TypeError, w, new_model).
Proof. exists toy, clean. do 2 eexists. split; reflexivity. Qed.

Lemma mixed : exists (v : solver world (list nat) nat (list nat) nat) a w m1 w1 w1' m2 w2 c t t',
  run v a w new_model = (Ok tt, w1, m1) /\ run v a w1' m1 = (Err ValueError, w2, m2) /\
  steady_state_coverages m2 = Ok (Some c) /\ TOFs m2 = Ok (Some t) /\
  fst (v_tofs v (Some c) None w1) = Ok t' /\ t <> t'.
Proof.
  exists toy, (given [] false true), {| w_error := None; w_file := Some [(L "steady_state_coverage", [1; 2])]; w_broken := false |}.
  do 2 eexists. exists {| w_error := None; w_file := Some [(L "steady_state_coverage", [3; 4])]; w_broken := true |}.
  do 5 eexists. split; [reflexivity|]. split; [reflexivity|]. split; [reflexivity|]. split; [reflexivity|].
  split; [reflexivity|]. discriminate.
Qed.

Lemma fsolve_example : exists a, a_fsolve a = true /\ (exists c w1, solved toy a clean c w1) /\
  run toy a clean new_model
  = (Err AttributeError, clean, {| m_cvgs := Some [2; 3]; m_tofs := Some [20; 30]; m_reversibilities := Some [2; 3; 2; 3]; m_error := None |}).
Proof.
  exists (given [1; 2] true true). split; [reflexivity|]. split; [|reflexivity].
  exists (Some [2; 3]), clean. apply solve_ok. reflexivity.
Qed.

(** The result of one run is not where the next one starts. *)
Lemma restart_example : exists w1 m1 w2 m2,
  run toy (given [1; 2] false false) clean new_model = (Ok tt, w1, m1) /\
  w_file w1 = Some [(L "steady_state_coverages", [2; 4])] /\
  run toy defaults w1 m1 = (Ok tt, w2, m2) /\ steady_state_coverages m2 = Ok (Some [16; 16]).
Proof. do 4 eexists. split; [reflexivity|]. split; [reflexivity|]. split; reflexivity. Qed.

Lemma toy_only_search : only_search_changes toy (fun w => w_error w = None).
Proof.
  repeat split; intros; cbn in *; try (match goal with H : (_, _) = (_, _) |- _ => injection H as <- <- end; assumption).
  - destruct c; match goal with H : (_, _) = (_, _) |- _ => injection H as <- <- end; assumption.
  - destruct (w_broken w); [|destruct c]; match goal with H : (_, _) = (_, _) |- _ => injection H as <- <- end; assumption.
Qed.

Lemma file_ignored {W C G D X B} (v : solver W C G D X) (a : args C G X) w g want w'
    (dump : dict C -> list B * option exn) load selected path opens s ops p bytes :
  faithful dump load -> (forall d, snd (dump d) = None) ->
  (forall t, dicts s t = []) -> (forall p, disk s p = None) -> by_package ops ->
  disk (snd (Archive_Model.run dump selected path opens s ops)) p = Some bytes ->
  v_load v w = load bytes -> v_exists v w = true -> nothing_given v (a_init a) -> starts v a w g want w' ->
  exists c, g = Seq c /\ want = a_coarse a /\ v_ode v w = (Ok c, w').
Proof.
  intros F ND D0 F0 N E Ld Ex NG S.
  assert (K : forall d, v_load v w = Ok d -> dget d (L "steady_state_coverage") = None).
  { intros d Q. rewrite Ld in Q. exact (file_without_key dump selected path opens load s ops p bytes d F ND D0 F0 N E Q). }
  destruct S as [c A Le Nz|c d _ _ Q Kd|c d w1 _ _ Q Kd O|_ Q].
  - rewrite A in NG. cbn in NG. congruence.
  - rewrite (K d Q) in Kd. discriminate.
  - exists c. auto.
  - congruence.
Qed.
