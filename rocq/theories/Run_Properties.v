(** C66: what a call of run uses, returns and leaves behind. *)
From Coq Require Import String Ascii List Arith Bool.
Import ListNotations.
From Verif Require Import PyBase Archive_Model Archive_Spec Run_Model Run_Spec Run_Proofs Run_Witness.
Local Open Scope list_scope.
Local Open Scope nat_scope.

(** All outcomes of a call. *)
Theorem C66_outcome : forall (W C G D X : Type) (v : solver W C G D X) a w m o w' m',
  run v a w m = (o, w', m') <-> ends v a w m o w' m'.
Proof. intros W C G D X v a w m o w' m'. exact (run_ends v a w m o w' m'). Qed.
Print Assumptions C66_outcome.

Example C66_outcome_example : exists w1 m1 w2 m2,
  run toy (given [1; 2] false false) clean new_model = (Ok tt, w1, m1) /\
  w_file w1 = Some [(L "steady_state_coverages", [2; 4])] /\
  run toy defaults w1 m1 = (Ok tt, w2, m2) /\ steady_state_coverages m2 = Ok (Some [16; 16]).
Proof. exact restart_example. Qed.

(** Coverages of the wrong kind or number: nothing happens but the exception. *)
Theorem C66_refusals : forall (W C G D X : Type) (v : solver W C G D X) a w m,
  a_init a = Other (Ok true) \/ (exists c, a_init a = Seq c /\ v_len v c <> 0 /\ v_len v c <> v_nads v) ->
  run v a w m = (Err ParameterError, w, m).
Proof. intros W C G D X v a w m. exact (refusals v a w m). Qed.
Print Assumptions C66_refusals.

(** A call without arguments in a new directory fails, although the search could do without a
    guess. *)
Theorem C66_default : forall (W C G D X : Type) (v : solver W C G D X) a w m,
  a_init a = NoGuess -> v_exists v w = false -> a_coarse a = true \/ a_fsolve a = true ->
  run v a w m = (Err TypeError, w, m).
Proof. intros W C G D X v a w m. exact (needs_guess v a w m). Qed.
Print Assumptions C66_default.

Theorem C66_default_refuted : exists (v : solver world (list nat) nat (list nat) nat) w c w1,
  v_search v None None w = (Ok (Some c), w1) /\ run v defaults w new_model = (Err TypeError, w, new_model).
Proof. exact default_fails. Qed.
Print Assumptions C66_default_refuted.

(** The results of different runs can get mixed. *)
Theorem C66_mixed_refuted : exists (v : solver world (list nat) nat (list nat) nat) a w m1 w1 w1' m2 w2 c t t',
  run v a w new_model = (Ok tt, w1, m1) /\ run v a w1' m1 = (Err ValueError, w2, m2) /\
  steady_state_coverages m2 = Ok (Some c) /\ TOFs m2 = Ok (Some t) /\
  fst (v_tofs v (Some c) None w1) = Ok t' /\ t <> t'.
Proof. exact mixed. Qed.
Print Assumptions C66_mixed_refuted.

(** With fsolve, a solver that has never searched has no error to report: the call cannot succeed. *)
Theorem C66_fsolve : forall (W C G D X : Type) (v : solver W C G D X) (P : W -> Prop) a w m o w' m',
  (forall u, P u -> v_error v u = Err AttributeError) -> only_search_changes v P -> P w -> a_fsolve a = true ->
  run v a w m = (o, w', m') ->
  o <> Ok tt /\ m_error m' = m_error m /\
  (m_reversibilities m' <> m_reversibilities m -> o = Err AttributeError).
Proof. intros W C G D X v P a w m o w' m'. exact (fsolve_no_error v P a w m o w' m'). Qed.
Print Assumptions C66_fsolve.

Theorem C66_fsolve_refuted : exists a, a_fsolve a = true /\ (exists c w1, solved toy a clean c w1) /\
  run toy a clean new_model
  = (Err AttributeError, clean, {| m_cvgs := Some [2; 3]; m_tofs := Some [20; 30]; m_reversibilities := Some [2; 3; 2; 3]; m_error := None |}).
Proof. exact fsolve_example. Qed.
Print Assumptions C66_fsolve_refuted.

Example C66_fsolve_example : only_search_changes toy (fun w => w_error w = None) /\ w_error clean = None.
Proof. exact (conj toy_only_search eq_refl). Qed.

(** A data file that the package wrote is never used as a guess. *)
Theorem C66_file_ignored : forall (W C G D X B : Type) (v : solver W C G D X) (a : args C G X) w g want w'
    (dump : dict C -> list B * option exn) load selected path opens s ops p bytes,
  faithful dump load -> (forall d, snd (dump d) = None) ->
  (forall t, dicts s t = []) -> (forall p, disk s p = None) -> by_package ops ->
  disk (snd (Archive_Model.run dump selected path opens s ops)) p = Some bytes ->
  v_load v w = load bytes -> v_exists v w = true -> nothing_given v (a_init a) -> starts v a w g want w' ->
  exists c, g = Seq c /\ want = a_coarse a /\ v_ode v w = (Ok c, w').
Proof. intros W C G D X B v a w g want w' dump load selected path opens s ops p bytes.
  exact (file_ignored v a w g want w' dump load selected path opens s ops p bytes). Qed.
Print Assumptions C66_file_ignored.

(** Reading the results: only the error of an unsolved model raises. *)
Theorem C66_unsolved : forall C D X : Type,
  steady_state_coverages (new_model : model C D X) = Ok None /\ TOFs (new_model : model C D X) = Ok None /\
  reversibilities (new_model : model C D X) = Ok None /\ error (new_model : model C D X) = Err AttributeError /\
  model_info (new_model : model C D X) = Err TypeError.
Proof. repeat split. Qed.
Print Assumptions C66_unsolved.

Theorem C66_results : forall (C D X : Type) (m : model C D X) c t r x,
  m = {| m_cvgs := c; m_tofs := Some t; m_reversibilities := Some r; m_error := Some x |} ->
  steady_state_coverages m = Ok c /\ TOFs m = Ok (Some t) /\ reversibilities m = Ok (Some r) /\ error m = Ok x /\
  model_info m = match c with Some c => Ok (c, t, Some r) | None => Err TypeError end.
Proof. intros C D X m c t r x ->. repeat split. Qed.
Print Assumptions C66_results.

(** The summary needs the coverages and the turnover frequencies. *)
Theorem C66_summary : forall (C D X : Type) (m : model C D X),
  (model_info m = Err TypeError <-> m_cvgs m = None \/ m_tofs m = None) /\
  (forall c t r, model_info m = Ok (c, t, r) <->
     m_cvgs m = Some c /\ m_tofs m = Some t /\ m_reversibilities m = r).
Proof.
  intros C D X m. unfold model_info. destruct (m_cvgs m) as [c|]; [destruct (m_tofs m) as [t|]|].
  - split; [split; [discriminate|intros [H|H]; discriminate]|]. intros c' t' r'. split.
    + intro E. injection E as <- <- <-. auto.
    + intros (H1 & H2 & H3). congruence.
  - split; [split; auto|]. intros c' t' r'. split; [discriminate|]. intros (_ & H & _). discriminate.
  - split; [split; auto|]. intros c' t' r'. split; [discriminate|]. intros (H & _). discriminate.
Qed.
Print Assumptions C66_summary.
