(** C118: the degrees of rate control of the steps of a mechanism sum to one, up to the size of the
    perturbation (steady_state_solver.py 1052-1147, get_single_XRC, with mean_field_solver.py's get_tof),
    for mechanisms in which every step moves one species on one kind of site. *)
From Coq Require Import String Ascii List ZArith Bool Arith Reals.
Import ListNotations.
From Verif Require Import PyBase Rxn_Model Rxn_Spec Species_Model Species_Spec PyReal Energy_Model Energy_Spec Thermo_Model
  Rate_Model Rate_Spec MF_Model MF_Spec MF_Witness Whole_Rates Hop_Spec Xrc_Model Xrc_Spec Control_Spec Control_Proofs Control_Xrc
  Control_Limit Control_Witness.
Local Open Scope list_scope.
Local Open Scope R_scope.

(** When each step in turn is made [f] times as fast in both directions, the changes of a turnover
    frequency add up to the change when all of them are made so at once, up to the square of [f - 1]. *)
Theorem C118_changes : forall s, usable_setup s -> forall l, only_hops s l ->
  (forall site, In site (sites s) -> 0 <= total s site <= 1) -> supplied (Rlt 0) s -> linked s l ->
  forall kf kr, length kf = length (s_exprs s) -> length kr = length (s_exprs s) ->
  (forall a, In a kf -> 0 < a) -> (forall b, In b kr -> 0 < b) ->
  forall g, exists K, 0 <= K /\ forall data c r, get_data s = Ok data -> at_rest s kf kr data c -> turns s kf kr data c g r ->
    forall f (kfs krs cs : nat -> list R) (rs : nat -> R), 0 < f ->
    (forall j, (j < length (s_exprs s))%nat -> sped_up f j kf (kfs j) /\ sped_up f j kr (krs j) /\
       at_rest s (kfs j) (krs j) data (cs j) /\ turns s (kfs j) (krs j) data (cs j) g (rs j)) ->
    Rabs (Rsum (map (fun j => rs j - r) (seq 0 (length (s_exprs s)))) - (f - 1) * r) <= K * ((f - 1) * (f - 1)).
Proof. exact sum_rule. Qed.
Print Assumptions C118_changes.

(** Numbers that are degrees of rate control by definition. *)
Theorem C118_rule : forall s l kf kr, usable_setup s -> only_hops s l ->
  length kf = length (s_exprs s) -> length kr = length (s_exprs s) ->
  (forall site, In site (sites s) -> 0 <= total s site <= 1) ->
  (forall a, In a kf -> 0 < a) -> (forall b, In b kr -> 0 < b) -> supplied (Rlt 0) s -> linked s l ->
  forall g, exists K, 0 <= K /\ forall data c r, get_data s = Ok data -> at_rest s kf kr data c -> turns s kf kr data c g r ->
    forall f (kfs krs cs : nat -> list R) (rs ys : nat -> R), 0 < f -> f <> 1 -> r <> 0 ->
    (forall j, (j < length (s_exprs s))%nat -> sped_up f j kf (kfs j) /\ sped_up f j kr (krs j) /\
       at_rest s (kfs j) (krs j) data (cs j) /\ turns s (kfs j) (krs j) data (cs j) g (rs j) /\
       forall k k', nth_error kf j = Some k -> nth_error (kfs j) j = Some k' -> is_control k r k' (rs j) (Num (ys j))) ->
    Rabs (Rsum (map ys (seq 0 (length (s_exprs s)))) - 1) <= K / Rabs r * Rabs (f - 1).
Proof. exact control_rule. Qed.
Print Assumptions C118_rule.

(** What [get_single_XRC] returns, with rate constants of transition state theory and searches that end
    at a steady state: one number per step, whose sum is one up to the size of the perturbation. *)
Theorem C118_computed : forall ec o own s l r, usable_setup s -> only_hops s l -> linked s l -> supplied (Rlt 0) s ->
  (forall site, In site (sites s) -> 0 <= total s site <= 1) ->
  o_rxns o = s_exprs s -> 0 < o_T o -> entries r (length (s_exprs s)) -> forall g,
  exists K kf kr, 0 <= K /\ rate_constants ec o (L "TST") (Some r) own = Ok (kf, kr) /\
    forall (W : Type) (q : tools W) data gas given h w e guess rate eps xs h' w',
      let d := match given with Some d => d | None => t_own q end in
      get_data s = Ok data -> exact_tools ec o own s data gas g q ->
      NoDup (map fst d) -> separate d -> view h d = Ok e -> has_energies e r ->
      t_stored q w = Some guess -> at_rest s kf kr data guess -> turns s kf kr data guess g rate -> rate <> 0 -> eps <> 0 ->
      single_xrc q gas (Some eps) given h w = (Ok xs, h', w') ->
      exists ys, xs = map Num ys /\ Rabs (Rsum ys - 1) <= K / Rabs rate * Rabs (exp (- eps / kT (o_T o)) - 1).
Proof. exact computed_rule. Qed.
Print Assumptions C118_computed.

(** So the sum is as near to one as wanted when the perturbation is small enough, uniformly in the tools. *)
Theorem C118_limit : forall ec o own s l r, usable_setup s -> only_hops s l -> linked s l -> supplied (Rlt 0) s ->
  (forall site, In site (sites s) -> 0 <= total s site <= 1) ->
  o_rxns o = s_exprs s -> 0 < o_T o -> entries r (length (s_exprs s)) -> forall g,
  exists kf kr, rate_constants ec o (L "TST") (Some r) own = Ok (kf, kr) /\
    forall r0 d, 0 < r0 -> 0 < d -> exists eps0, 0 < eps0 /\
    forall (W : Type) (q : tools W) data gas given h w e guess rate eps xs h' w',
      let d0 := match given with Some d => d | None => t_own q end in
      get_data s = Ok data -> exact_tools ec o own s data gas g q ->
      NoDup (map fst d0) -> separate d0 -> view h d0 = Ok e -> has_energies e r ->
      t_stored q w = Some guess -> at_rest s kf kr data guess -> turns s kf kr data guess g rate -> r0 <= Rabs rate ->
      0 < Rabs eps < eps0 -> single_xrc q gas (Some eps) given h w = (Ok xs, h', w') ->
      exists ys, xs = map Num ys /\ Rabs (Rsum ys - 1) <= d.
Proof. exact limit_rule. Qed.
Print Assumptions C118_limit.

(** The same when the searches end at physical coverages that are steady only up to a tolerance: the
    perturbation must be small but large beside the tolerance. *)
Theorem C118_tolerance : forall ec o own s l r, usable_setup s -> only_hops s l -> linked s l -> supplied (Rlt 0) s ->
  (forall site, In site (sites s) -> 0 <= total s site <= 1) ->
  o_rxns o = s_exprs s -> 0 < o_T o -> entries r (length (s_exprs s)) -> forall g,
  exists K kf kr, 0 <= K /\ rate_constants ec o (L "TST") (Some r) own = Ok (kf, kr) /\
    forall (W : Type) (q : tools W) data gas given h w e guess rate eps tol xs h' w',
      let d := match given with Some d => d | None => t_own q end in
      let f := Rabs (exp (- eps / kT (o_T o)) - 1) in
      get_data s = Ok data -> 0 <= tol -> rough_tools ec o own s data gas g tol q ->
      NoDup (map fst d) -> separate d -> view h d = Ok e -> has_energies e r ->
      t_stored q w = Some guess -> near_rest s kf kr data tol guess -> turns s kf kr data guess g rate -> rate <> 0 -> eps <> 0 ->
      single_xrc q gas (Some eps) given h w = (Ok xs, h', w') ->
      exists ys, xs = map Num ys /\ Rabs (Rsum ys - 1) <= K / Rabs rate * (f + tol * (1 + / f)).
Proof. exact rough_rule. Qed.
Print Assumptions C118_tolerance.

(** So for any accuracy there is a perturbation, and for each smaller one a tolerance, that ensure it. *)
Theorem C118_tolerance_limit : forall ec o own s l r, usable_setup s -> only_hops s l -> linked s l -> supplied (Rlt 0) s ->
  (forall site, In site (sites s) -> 0 <= total s site <= 1) ->
  o_rxns o = s_exprs s -> 0 < o_T o -> entries r (length (s_exprs s)) -> forall g,
  exists kf kr, rate_constants ec o (L "TST") (Some r) own = Ok (kf, kr) /\
    forall r0 d, 0 < r0 -> 0 < d -> exists eps0, 0 < eps0 /\
    forall eps, 0 < Rabs eps < eps0 -> exists tol0, 0 < tol0 /\
    forall (W : Type) (q : tools W) data gas given h w e guess rate tol xs h' w',
      let d0 := match given with Some d => d | None => t_own q end in
      get_data s = Ok data -> 0 <= tol <= tol0 -> rough_tools ec o own s data gas g tol q ->
      NoDup (map fst d0) -> separate d0 -> view h d0 = Ok e -> has_energies e r ->
      t_stored q w = Some guess -> near_rest s kf kr data tol guess -> turns s kf kr data guess g rate -> r0 <= Rabs rate ->
      single_xrc q gas (Some eps) given h w = (Ok xs, h', w') ->
      exists ys, xs = map Num ys /\ Rabs (Rsum ys - 1) <= d.
Proof. exact rough_limit. Qed.
Print Assumptions C118_tolerance_limit.

(** The sum is not one itself: the numbers are quotients of differences, not derivatives. *)
Theorem C118_exactly_refuted : exists s l kf kr data c r f (kfs krs cs : nat -> list R) (rs ys : nat -> R) g,
  usable_setup s /\ only_hops s l /\ linked s l /\ supplied (Rlt 0) s /\
  (forall site, In site (sites s) -> 0 <= total s site <= 1) /\
  (forall a, In a kf -> 0 < a) /\ (forall b, In b kr -> 0 < b) /\
  get_data s = Ok data /\ at_rest s kf kr data c /\ turns s kf kr data c g r /\ r <> 0 /\ 0 < f /\ f <> 1 /\
  (forall j, (j < length (s_exprs s))%nat -> sped_up f j kf (kfs j) /\ sped_up f j kr (krs j) /\
     at_rest s (kfs j) (krs j) data (cs j) /\ turns s (kfs j) (krs j) data (cs j) g (rs j) /\
     forall k k', nth_error kf j = Some k -> nth_error (kfs j) j = Some k' -> is_control k r k' (rs j) (Num (ys j))) /\
  Rsum (map ys (seq 0 (length (s_exprs s)))) = 7 / 10.
Proof. exact far_from_one. Qed.
Print Assumptions C118_exactly_refuted.

(** The hypotheses hold of a mechanism that turns one gas into another, with equal barriers, and the
    run ends with a number for each of its two steps. *)
Example C118_mechanism : usable_setup pump_setup /\ only_hops pump_setup pump_steps /\ linked pump_setup pump_steps /\
  supplied (Rlt 0) pump_setup /\ (forall site, In site (sites pump_setup) -> 0 <= total pump_setup site <= 1) /\
  o_rxns pump_owner = s_exprs pump_setup /\ entries (pump_r 0 0 0 0) (length (s_exprs pump_setup)).
Proof.
  exact (conj pump_usable (conj pump_only (conj pump_linked (conj pump_supplied (conj pump_total (conj eq_refl
    (conj eq_refl (conj eq_refl eq_refl)))))))).
Qed.
Example C118_tools : forall ec, exact_tools ec pump_owner None pump_setup pump_data (L "HNC_g") 1 (pump_tools ec).
Proof. exact pump_exact. Qed.
Example C118_rough_tools : forall ec tol, 0 <= tol ->
  rough_tools ec pump_owner None pump_setup pump_data (L "HNC_g") 1 tol (pump_tools ec).
Proof. exact pump_rough. Qed.
Example C118_run : forall ec eps, exists kf kr guess rate xs h' w',
  rate_constants ec pump_owner (L "TST") (Some (pump_r 0 0 0 0)) None = Ok (kf, kr) /\
  at_rest pump_setup kf kr pump_data guess /\ turns pump_setup kf kr pump_data guess 1 rate /\ rate <> 0 /\
  single_xrc (pump_tools ec) (L "HNC_g") (Some eps) None pump_heap (Some guess) = (Ok xs, h', w') /\ length xs = 2%nat.
Proof. exact pump_runs. Qed.
