(** The search for a steady state: C34, C35, C60, C62. *)
From Coq Require Import String Ascii List ZArith Bool Arith Reals.
Import ListNotations.
From Verif Require Import PyBase Species_Model PyReal MF_Model MF_Spec Newton_Model Newton_Spec Steady_Model Steady_Spec
  Steady_Proofs Steady_Rounds Steady_Witness.
Local Open Scope list_scope.
Local Open Scope nat_scope.

(** C34 *)
Theorem C34_converged : forall I (q : search I) fuel c0 a st,
  get_steady_state_cvgs q fuel c0 = (Ok (Some a), st) ->
  exists x, a_coverages a = Some x /\ residual_within (q_f q) x (q_tolerance q).
Proof.
  intros I q fuel c0 a st H.
  apply (search_result q (fun _ => True)) in H; [|intros; exact Logic.I|intros; exact Logic.I].
  destruct H as (_ & x & E & [[_ W]|(B & _)]); exists x; (split; [exact E|]); [exact W|exact (below_within _ _ _ B)].
Qed.
Print Assumptions C34_converged.

(** What is returned is the last guess itself, or an item of the root finder started from it
    that has no negative coverage. *)
Theorem C34_source : forall I (q : search I) (P : list R -> Prop) fuel c0 a st,
  (forall g c, (c0 = Some g \/ exists h, q_hybrid q = Some h /\ h [] 0 = Ok g) -> q_constrain q g = Ok c -> P c) ->
  (forall h t n c, q_hybrid q = Some h -> h t n = Ok c -> P c) ->
  get_steady_state_cvgs q fuel c0 = (Ok (Some a), st) ->
  P (a_guess a) /\ exists x, a_coverages a = Some x /\
    ((x = a_guess a /\ residual_within (q_f q) x (q_tolerance q)) \/
     (residual_below (q_f q) x (q_tolerance q) /\ non_negative x /\
      exists it os it' e v, start q (a_guess a) it /\ yields (q_next q) it (os ++ [(x, e, v)]) it')).
Proof. exact @search_result. Qed.
Print Assumptions C34_source.

Example C34_example : exists a st, get_steady_state_cvgs toy_search 1 (Some [8%R]) = (Ok (Some a), st) /\
  a_coverages a = Some [0%R] /\
  trace st = [Setup 0 1; Setup 1 1; Register 0 1 1; Register 0 2 1; Register 1 2 1; Finalize 0 1; Finalize 1 1].
Proof. exact toy_run. Qed.

(** An answer is complete; the attribute with the error of a good guess may never be set, and the
    search then ends with an AttributeError, not with an answer. *)
Theorem C34_complete : forall I (q : search I) fuel c0 a st,
  get_steady_state_cvgs q fuel c0 = (Ok (Some a), st) ->
  exists x e, a_coverages a = Some x /\ a_error a = Some e.
Proof. exact @answer_complete. Qed.
Print Assumptions C34_complete.

Theorem C34_no_error_known : exists I (q : search I) c0,
  q_constrain q c0 = Ok c0 /\ residual_within (q_f q) c0 (q_tolerance q) /\
  fst (get_steady_state_cvgs q 1 (Some c0)) = Err AttributeError.
Proof. exact (ex_intro _ _ (ex_intro _ _ (ex_intro _ _ bad_norm_run))). Qed.
Print Assumptions C34_no_error_known.

(** A model without adsorbates: there is no largest rate, and no answer. *)
Theorem C34_no_adsorbates : forall I (q : search I) fuel c0 c1,
  q_constrain q c0 = Ok c1 -> q_f q c1 = Ok [] -> q_intervals q = [] ->
  fst (get_steady_state_cvgs q (S fuel) (Some c0)) = Err ValueError.
Proof. intros I q fuel c0 c1 H1 H2 H3. now rewrite (nothing_to_solve q fuel c0 c1 H1 H2 H3). Qed.
Print Assumptions C34_no_adsorbates.

(** C35: not for every hybrid method and every root. *)
Theorem C35_negative_refuted : exists I (q : search I) s kf kr fuel c0 a st x c,
  usable_setup s /\ feasible s c0 /\ (0 < kf)%R /\ (0 < kr)%R /\
  (forall t, q_f q t = steady_state_function s (Ok ([kf], [kr]))
     (match get_data s with Ok d => Some d | Err _ => None end) t) /\
  q_constrain q = constrain_coverages s /\
  get_steady_state_cvgs q fuel (Some c0) = (Ok (Some a), st) /\ a_coverages a = Some x /\ In c x /\ (c < 0)%R.
Proof. exact negative_refuted. Qed.
Print Assumptions C35_negative_refuted.

Theorem C35_overfilled_refuted : exists I (q : search I) s kf kr fuel c0 a st x site,
  usable_setup s /\ feasible s c0 /\ (0 < kf)%R /\ (0 < kr)%R /\ q_hybrid q = None /\
  (forall t, q_f q t = steady_state_function s (Ok ([kf], [kr]))
     (match get_data s with Ok d => Some d | Err _ => None end) t) /\
  q_constrain q = constrain_coverages s /\
  get_steady_state_cvgs q fuel (Some c0) = (Ok (Some a), st) /\ a_coverages a = Some x /\
  In site (sites s) /\ (total s site < covered site (ads s) x)%R.
Proof. exact overfilled_refuted. Qed.
Print Assumptions C35_overfilled_refuted.

(** Missing: hybrid methods with negative guesses. *)
Theorem C35_non_negative_partial : forall I (q : search I) s, prepared s ->
  (forall site, In site (sites s) -> (0 <= total s site)%R) -> q_constrain q = constrain_coverages s ->
  forall fuel c0 a st,
  (forall c, c0 = Some c -> length c = length (ads s)) ->
  (forall h t n c, q_hybrid q = Some h -> h t n = Ok c -> length c = length (ads s) /\ non_negative c) ->
  get_steady_state_cvgs q fuel c0 = (Ok (Some a), st) ->
  exists x, a_coverages a = Some x /\ non_negative x.
Proof. exact @result_non_negative. Qed.
Print Assumptions C35_non_negative_partial.

(** Missing: roots found within the first five steps, hybrid methods with unphysical guesses,
    the other root finder. *)
Theorem C35_physical_partial :
  forall M D A (f : list R -> res (list R)) (J : list R -> res M) (norm : list R -> res R) neg
    (solve : M -> list R -> res D) (step : list R -> A -> D -> list R) xeqb golden s,
  prepared s -> (forall site, In site (sites s) -> (0 <= total s site)%R) ->
  (forall x l d, length (step x l d) = length (ads s)) ->
  forall (q : search (@cn_state (list R))),
  q_f q = f -> q_constrain q = constrain_coverages s -> q_rootfinding q = L "ConstrainedNewton" ->
  q_constrained q = CNew ->
  q_next q = cn_next f J norm neg solve step xeqb (constrain_coverages s) golden ->
  forall fuel c0 a st,
  (forall c, c0 = Some c -> length c = length (ads s)) ->
  (forall h t n c, q_hybrid q = Some h -> h t n = Ok c -> feasible s c) ->
  get_steady_state_cvgs q fuel c0 = (Ok (Some a), st) ->
  exists x, a_coverages a = Some x /\ non_negative x /\
    (feasible s x \/ exists os e v it, length os < 5 /\ yields (q_next q) (CNew (a_guess a)) (os ++ [(x, e, v)]) it).
Proof. exact @late_root_feasible. Qed.
Print Assumptions C35_physical_partial.

(** Any root finder whose items are physical. *)
Theorem C35_feasible_partial : forall I (q : search I) s, prepared s ->
  (forall site, In site (sites s) -> (0 <= total s site)%R) -> q_constrain q = constrain_coverages s ->
  forall fuel c0 a st,
  (forall c, c0 = Some c -> length c = length (ads s)) ->
  (forall h t n c, q_hybrid q = Some h -> h t n = Ok c -> feasible s c) ->
  (forall g it os x e v it', feasible s g -> start q g it -> yields (q_next q) it (os ++ [(x, e, v)]) it' ->
     feasible s x) ->
  get_steady_state_cvgs q fuel c0 = (Ok (Some a), st) ->
  exists x, a_coverages a = Some x /\ feasible s x.
Proof. exact @result_feasible. Qed.
Print Assumptions C35_feasible_partial.

(** C60: what the plugins are told is what [rounds] says. *)
Theorem C60_rounds : forall I (q : search I), calm q ->
  forall fuel c0 c1 r st, q_constrain q c0 = Ok c1 ->
  get_steady_state_cvgs q fuel (Some c0) = (Ok r, st) ->
  rounds q [] 1 c1 (trace st)
    (match r with
     | Some a => match a_coverages a, a_error a with Some x, Some e => Some (x, e, a_guess a) | _, _ => None end
     | None => None
     end) /\
  (forall a, r = Some a -> a_coverages a <> None /\ a_error a <> None).
Proof. exact @search_rounds. Qed.
Print Assumptions C60_rounds.

Example C60_example : calm toy_search /\
  exists a st, get_steady_state_cvgs toy_search 1 (Some [8%R]) = (Ok (Some a), st) /\
  a_coverages a = Some [0%R] /\
  trace st = [Setup 0 1; Setup 1 1; Register 0 1 1; Register 0 2 1; Register 1 2 1; Finalize 0 1; Finalize 1 1].
Proof. exact (conj toy_calm toy_run). Qed.

(** A plugin is finalized twice after one setup, and the first time with the number of a round
    it was not set up for. *)
Theorem C60_pairs_refuted : exists I (q : search I) fuel c0 a st,
  get_steady_state_cvgs q fuel (Some c0) = (Ok (Some a), st) /\
  trace st = [Setup 0 1; Register 0 1 1; Hybrid 1; Finalize 0 2; Finalize 0 2].
Proof. exact pairs_refuted. Qed.
Print Assumptions C60_pairs_refuted.

(** C62: without a hybrid method the search ends with its first round. *)
Theorem C62_one_round_partial : forall I (q : search I),
  (forall x, q_f q x <> Err OutOfFuel) -> (forall x, q_f0 q x <> Err OutOfFuel) ->
  (forall v, q_norm q v <> Err OutOfFuel) -> (forall v, q_constrain q v <> Err OutOfFuel) ->
  (forall i, q_next q i <> Err OutOfFuel) -> (forall t e, q_call q t e <> Some OutOfFuel) ->
  q_hybrid q = None ->
  forall c0, fst (get_steady_state_cvgs q 1 c0) <> Err OutOfFuel.
Proof. exact @search_ends. Qed.
Print Assumptions C62_one_round_partial.

(** With one it need not end: the method may give the same guess again and again. *)
Theorem C62_same_guess_refuted : exists I (q : search I) c0, feasible ds_setup c0 /\
  (forall iv, In iv (q_intervals q) -> (0 < iv)%Z) /\
  forall fuel, exists st, get_steady_state_cvgs q fuel (Some c0) = (Err OutOfFuel, st).
Proof. exact same_guess_refuted. Qed.
Print Assumptions C62_same_guess_refuted.

(** The division by the interval 0 of a plugin is taken for a failure of the root finder. *)
Theorem C62_zero_interval_refuted : exists I (q : search I) c0, feasible ds_setup c0 /\
  q_intervals q = [0%Z] /\
  forall fuel, exists st, get_steady_state_cvgs q fuel (Some c0) = (Err OutOfFuel, st).
Proof. exact zero_interval_refuted. Qed.
Print Assumptions C62_zero_interval_refuted.
