(** What a user expects of the search for a steady state. *)
From Coq Require Import String Ascii List ZArith Bool Arith Reals.
Import ListNotations.
From Verif Require Import PyBase Newton_Spec Steady_Model.
Local Open Scope list_scope.
Local Open Scope nat_scope.

(** All time derivatives at [x] are within a bound. *)
Definition residual_within (f : list R -> res (list R)) (x : list R) (bound : R) : Prop :=
  exists v, f x = Ok v /\ v <> [] /\ forall d, In d v -> (Rabs d <= bound)%R.
Definition residual_below (f : list R -> res (list R)) (x : list R) (bound : R) : Prop :=
  exists v, f x = Ok v /\ v <> [] /\ forall d, In d v -> (Rabs d < bound)%R.
Definition non_negative (x : list R) : Prop := forall c, In c x -> (0 <= c)%R.

Section Rounds.
  Context {I : Type}.
  Variable q : search I.

  (** Item number [nt] of a root finding iteration is taken as the root. *)
  Definition accepted (nt : nat) (i : list R * R * list R) : Prop :=
    let '(x, e, _) := i in
    nt <= q_max q /\ (e < q_tolerance q)%R /\ residual_below (q_f q) x (q_tolerance q) /\
    x <> [] /\ non_negative x.
  (** The iteration is given up at item number [nt]: there were too many, or it is a root with a
      negative coverage. *)
  Definition given_up (nt : nat) (i : list R * R * list R) : Prop :=
    let '(x, e, _) := i in
    q_max q < nt \/
    ((e < q_tolerance q)%R /\ residual_below (q_f q) x (q_tolerance q) /\ exists c, In c x /\ (c < 0)%R).
  (** The iteration goes on after items with the numbers [nt], [nt + 1], ... *)
  Definition undecided (nt : nat) (os : list (list R * R * list R)) : Prop :=
    forall k i, nth_error os k = Some i -> ~ accepted (nt + k) i /\ ~ given_up (nt + k) i.

  (** The plugins that are told of step [nt]. *)
  Definition told (nt outer : nat) : list event :=
    map (fun p => Register (fst p) nt outer)
      (filter (fun p => (Z.of_nat nt mod snd p =? 0)%Z)
         (combine (seq 0 (length (q_intervals q))) (q_intervals q))).
  Definition each_plugin (e : nat -> event) : list event :=
    map e (seq 0 (length (q_intervals q))).

  (** A root finding iteration from [c0] on, with what the plugins see of it. *)
  Definition start (c0 : list R) (it : I) : Prop :=
    (q_rootfinding q = L "ConstrainedNewton" /\ it = q_constrained q c0) \/
    (q_rootfinding q = L "MDNewton" /\ it = q_damped q c0).
  Definition steps_seen (outer n : nat) : list event :=
    concat (map (fun nt => told nt outer) (seq 1 n)).
  Definition run_finds (c0 : list R) (x : list R) (e : R) (n : nat) : Prop :=
    exists it it' os v, start c0 it /\ length os = n /\ yields (q_next q) it (os ++ [(x, e, v)]) it' /\
      undecided 1 os /\ accepted (S n) (x, e, v).
  Definition run_fails (c0 : list R) (n : nat) : Prop :=
    exists it it' os, start c0 it /\ length os = n /\ undecided 1 os /\
      ((yields (q_next q) it os it' /\ exists it2, q_next q it' = Ok (None, it2)) \/
       (exists i, yields (q_next q) it (os ++ [i]) it' /\ given_up (S n) i)).

  (** A guess that is taken as it is. *)
  Definition good_guess (c0 : list R) : Prop :=
    q_single_pt q = false /\ residual_within (q_f q) c0 (q_tolerance q).

  (** The rounds of a search: from the number of the round and its guess on, what others see
      (after the events [before]) and the result: coverages, error and the last guess. *)
  Inductive rounds : list event -> nat -> list R -> list event -> option (list R * R * list R) -> Prop :=
  | round_good : forall before outer c0 v a b, good_guess c0 ->
      q_f q c0 = Ok v -> q_norm q v = Ok a -> get_residual (q_f0 q) c0 = Ok b ->
      rounds before outer c0 (each_plugin (fun ap => Finalize ap outer)) (Some (c0, Rmin a b, c0))
  | round_root : forall before outer c0 x e n, ~ good_guess c0 -> run_finds c0 x e n ->
      rounds before outer c0
        (each_plugin (fun ap => Setup ap outer) ++ steps_seen outer n ++
         each_plugin (fun ap => Finalize ap outer)) (Some (x, e, c0))
  | round_last : forall before outer c0 n, ~ good_guess c0 -> run_fails c0 n -> q_hybrid q = None ->
      rounds before outer c0
        (each_plugin (fun ap => Setup ap outer) ++ steps_seen outer n ++
         each_plugin (fun ap => Finalize ap outer)) None
  | round_again : forall before outer c0 n h c1 evs o, ~ good_guess c0 -> run_fails c0 n ->
      q_hybrid q = Some h ->
      h (before ++ each_plugin (fun ap => Setup ap outer) ++ steps_seen outer n) outer = Ok c1 ->
      rounds (before ++ each_plugin (fun ap => Setup ap outer) ++ steps_seen outer n ++
              Hybrid outer :: each_plugin (fun ap => Finalize ap (S outer))) (S outer) c1 evs o ->
      rounds before outer c0
        (each_plugin (fun ap => Setup ap outer) ++ steps_seen outer n ++
         Hybrid outer :: each_plugin (fun ap => Finalize ap (S outer)) ++ evs) o.

  (** Nothing the search uses divides by zero, and the plugins raise nothing. *)
  Definition calm : Prop :=
    (forall x, q_f q x <> Err ZeroDivisionError) /\ (forall x, q_f0 q x <> Err ZeroDivisionError) /\
    (forall v, q_norm q v <> Err ZeroDivisionError) /\ (forall i, q_next q i <> Err ZeroDivisionError) /\
    (forall h t n, q_hybrid q = Some h -> h t n <> Err ZeroDivisionError) /\
    (forall t e, q_call q t e = None) /\ (forall iv, In iv (q_intervals q) -> iv <> 0%Z).
End Rounds.
