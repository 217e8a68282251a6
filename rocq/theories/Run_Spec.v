(** Vocabulary for [run]: where the search starts, what it finds, and what is kept. *)
From Coq Require Import String Ascii List Arith Bool.
Import ListNotations.
From Verif Require Import PyBase Archive_Model Run_Model.
Local Open Scope list_scope.
Local Open Scope nat_scope.

Section Spec.
  Context {W C G D X : Type}.
  Variable v : solver W C G D X.

  (** No coverages are given: nothing, None, an empty sequence or something that counts as false. *)
  Definition nothing_given (g : guess C) : Prop :=
    match g with
    | NoGuess => True
    | Seq c => v_len v c = 0
    | Other t => t = Ok false
    end.

  (** [starts a w g want w']: the search starts from [g]; [want]: a coarse solution comes first. *)
  Inductive starts (a : args C G X) (w : W) : guess C -> bool -> W -> Prop :=
  | from_caller c : a_init a = Seq c -> v_len v c = v_nads v -> v_nads v <> 0 -> starts a w (Seq c) (a_coarse a) w
  | from_file c d : nothing_given (a_init a) -> v_exists v w = true -> v_load v w = Ok d ->
      dget d (L "steady_state_coverage") = Some c -> starts a w (Seq c) false w
  | from_ode c d w' : nothing_given (a_init a) -> v_exists v w = true -> v_load v w = Ok d ->
      dget d (L "steady_state_coverage") = None -> v_ode v w = (Ok c, w') -> starts a w (Seq c) (a_coarse a) w'
  | from_nothing : nothing_given (a_init a) -> v_exists v w = false -> starts a w (a_init a) (a_coarse a) w.

  (** The coverages found. *)
  Inductive solved (a : args C G X) (w : W) : option C -> W -> Prop :=
  | by_fsolve c b w1 c' w2 : a_fsolve a = true -> starts a w (Seq c) b w1 ->
      v_fsolve v c (a_energies a) w1 = (Ok c', w2) -> solved a w (Some c') w2
  | by_search c w1 c' w2 : a_fsolve a = false -> starts a w (Seq c) false w1 ->
      v_search v (Some c) (a_energies a) w1 = (Ok c', w2) -> solved a w c' w2
  | by_hybrid w1 c' w2 : a_fsolve a = false -> starts a w NoGuess false w1 ->
      v_search v None (a_energies a) w1 = (Ok c', w2) -> solved a w c' w2
  | by_both c w1 c1 w2 c' w3 : a_fsolve a = false -> starts a w (Seq c) true w1 ->
      v_fsolve v c (a_energies a) w1 = (Ok c1, w2) ->
      v_search v (Some c1) (a_energies a) w2 = (Ok c', w3) -> solved a w c' w3.

  (** The turnover frequencies and the reversibilities at the coverages [c]. *)
  Definition tofs_at (a : args C G X) (c : option C) (w : W) (rf rr t : D) (w' : W) : Prop :=
    exists w1 w2, v_constants v (a_energies a) w = (Ok tt, w1) /\
      v_rates v c (a_energies a) w1 = (Ok (rf, rr), w2) /\ v_tofs v c (a_energies a) w2 = (Ok t, w').

  Definition no_tofs_at (a : args C G X) (c : option C) (w : W) (e : exn) (w' : W) : Prop :=
    v_constants v (a_energies a) w = (Err e, w') \/
    exists w1, v_constants v (a_energies a) w = (Ok tt, w1) /\
      (v_rates v c (a_energies a) w1 = (Err e, w') \/
       exists rr w2, v_rates v c (a_energies a) w1 = (Ok rr, w2) /\ v_tofs v c (a_energies a) w2 = (Err e, w')).

  (** No coverages are found. *)
  Inductive unsolved (a : args C G X) (w : W) : exn -> W -> Prop :=
  | not_a_sequence : a_init a = Other (Ok true) -> unsolved a w ParameterError w
  | no_truth e : a_init a = Other (Err e) -> unsolved a w e w
  | wrong_length c : a_init a = Seq c -> v_len v c <> 0 -> v_len v c <> v_nads v -> unsolved a w ParameterError w
  | file_unreadable e : nothing_given (a_init a) -> v_exists v w = true -> v_load v w = Err e -> unsolved a w e w
  | ode_fails d e w' : nothing_given (a_init a) -> v_exists v w = true -> v_load v w = Ok d ->
      dget d (L "steady_state_coverage") = None -> v_ode v w = (Err e, w') -> unsolved a w e w'
  | fsolve_fails c b w1 e w' : starts a w (Seq c) b w1 -> a_fsolve a = true \/ b = true ->
      v_fsolve v c (a_energies a) w1 = (Err e, w') -> unsolved a w e w'
  | nothing_to_refine b w1 : starts a w NoGuess b w1 -> a_fsolve a = true \/ b = true -> unsolved a w TypeError w1
  | not_modelled b w1 : starts a w (Other (Ok false)) b w1 -> unsolved a w Unsupported w1
  | search_fails c w1 e w' : a_fsolve a = false -> starts a w (Seq c) false w1 ->
      v_search v (Some c) (a_energies a) w1 = (Err e, w') -> unsolved a w e w'
  | hybrid_fails w1 e w' : a_fsolve a = false -> starts a w NoGuess false w1 ->
      v_search v None (a_energies a) w1 = (Err e, w') -> unsolved a w e w'
  | refining_fails c w1 c1 w2 e w' : a_fsolve a = false -> starts a w (Seq c) true w1 ->
      v_fsolve v c (a_energies a) w1 = (Ok c1, w2) ->
      v_search v (Some c1) (a_energies a) w2 = (Err e, w') -> unsolved a w e w'.

  (** How a call of [run] ends, and what it leaves in the model. *)
  Inductive ends (a : args C G X) (w : W) (m : model C D X) : res unit -> W -> model C D X -> Prop :=
  | without_coverages e w' : unsolved a w e w' -> ends a w m (Err e) w' m
  | without_tofs c w1 e w' : solved a w c w1 -> no_tofs_at a c w1 e w' ->
      ends a w m (Err e) w'
        {| m_cvgs := c; m_tofs := m_tofs m; m_reversibilities := m_reversibilities m; m_error := m_error m |}
  | without_reversibilities c w1 rf rr t w2 e w' : solved a w c w1 -> tofs_at a c w1 rf rr t w2 ->
      v_reversibilities v rf rr w2 = (Err e, w') ->
      ends a w m (Err e) w'
        {| m_cvgs := c; m_tofs := Some t; m_reversibilities := m_reversibilities m; m_error := m_error m |}
  | without_error c w1 rf rr t w2 r w3 e : solved a w c w1 -> tofs_at a c w1 rf rr t w2 ->
      v_reversibilities v rf rr w2 = (Ok r, w3) -> v_error v w3 = Err e ->
      ends a w m (Err e) w3
        {| m_cvgs := c; m_tofs := Some t; m_reversibilities := Some r; m_error := m_error m |}
  | complete c w1 rf rr t w2 r w3 x o w' : solved a w c w1 -> tofs_at a c w1 rf rr t w2 ->
      v_reversibilities v rf rr w2 = (Ok r, w3) -> v_error v w3 = Ok x ->
      (a_xrc a = false /\ o = Ok tt /\ w' = w3 \/
       a_xrc a = true /\ a_product a = None /\ o = Err ParameterError /\ w' = w3 \/
       a_xrc a = true /\ exists p, a_product a = Some p /\ v_xrc v p (a_epsilon a) (a_energies a) w3 = (o, w')) ->
      ends a w m o w' {| m_cvgs := c; m_tofs := Some t; m_reversibilities := Some r; m_error := Some x |}.

  (** The world has a property that only the search may change. *)
  Definition only_search_changes (P : W -> Prop) : Prop :=
    (forall w o w', P w -> v_ode v w = (o, w') -> P w') /\
    (forall c e w o w', P w -> v_fsolve v c e w = (o, w') -> P w') /\
    (forall e w o w', P w -> v_constants v e w = (o, w') -> P w') /\
    (forall c e w o w', P w -> v_rates v c e w = (o, w') -> P w') /\
    (forall c e w o w', P w -> v_tofs v c e w = (o, w') -> P w') /\
    (forall a b w o w', P w -> v_reversibilities v a b w = (o, w') -> P w').
End Spec.

(** The names under which the package archives: mean_field_solver.py 430, 457, 482, 544, 945, 1029,
    steady_state_solver.py 962, 963, 967. *)
Definition archived_names : list str :=
  [L "rates"; L "net_rates"; L "reversibilities"; L "tofs"; L "steady_state_coverages"; L "steady_state_error"; L "initial_guess"].
Definition by_package {V} (ops : list (op V)) : Prop :=
  forall t n x, In (Archive t n x) ops -> In n archived_names.
