(** Property C75: new guesses for the coverages.  Vocabulary: Guess_Spec.v, [trajectory] in
    Ode_Spec.v.  The integrator is any state machine. *)
From Coq Require Import List ZArith QArith Bool Arith Lia Lqa.
From Verif Require Import PyBase Ode_Model Ode_Spec Ode_Proofs Guess_Model Guess_Spec Guess_Proofs.
Import ListNotations.
Local Open Scope list_scope.
Local Open Scope nat_scope.

(** The default hybrid method, exactly: whatever the number of the attempt, the coverages of the
    solver are integrated to time 10 in steps of 1/100, with the energies of the model. *)
Theorem C75_hybrid : forall (S E X : Type) (start : option E -> list Q -> Q -> S) time values integrate show header
    fuel (md : model X) N r,
  md_interval md <> 0%Z ->
  (ODE_integration start time values integrate show header fuel md N = Some r <->
   exists b, begins (m_coverages (md_memory md)) (md_boltzmann md) (md_nads md) b /\
     integrated (start None) time values integrate 10 (1 # 100) fuel b r).
Proof. intros S E X start time values integrate show header. exact (hybrid_ok start time values integrate show header). Qed.
Print Assumptions C75_hybrid.

(** With an integrator that goes where it is asked to go, these are one thousand steps. *)
Theorem C75_steps : forall (S E X : Type) (start : option E -> list Q -> Q -> S) time values integrate show header
    (md : model X) c,
  (forall s t, fst (integrate s t) = Ok tt /\ (time (snd (integrate s t)) == t)%Q) ->
  (forall e c t, (time (start e c t) == t)%Q) ->
  md_interval md <> 0%Z -> m_coverages (md_memory md) = Some c -> c <> [] ->
  exists l last, length l = Z.to_nat 1000 /\
    trajectory time integrate 10 (1 # 100) (start None c 0%Q) l (Ok tt) last /\ (time last == 10)%Q /\
    forall fuel N, length l < fuel ->
      ODE_integration start time values integrate show header fuel md N = Some (Ok (values last)).
Proof.
  intros S E X start time values integrate show header md c EX AS NZ K NE.
  destruct (steps_ok start time integrate EX AS 10 100 c ltac:(lia) ltac:(lia)) as (l & last & TR & LN & TL).
  exists l, last. split; [exact LN|]. split; [exact TR|]. split; [exact TL|].
  intros fuel N F. apply (hybrid_ok start time values integrate show header fuel md N _ NZ).
  exists (Ok c). split; [now apply bg_known|]. exact (in_end _ _ _ _ _ _ _ _ c l last eq_refl TR F).
Qed.
Print Assumptions C75_steps.

(** Coverages that the integrator leaves alone are given back: the attempt after a search that got
    stuck there begins where the last one ended. *)
Theorem C75_stationary : forall (S E X : Type) (start : option E -> list Q -> Q -> S) time values integrate show header
    fuel (md : model X) N c v,
  (forall s t, values (snd (integrate s t)) = values s) -> (forall e c t, values (start e c t) = c) ->
  md_interval md <> 0%Z -> m_coverages (md_memory md) = Some c -> c <> [] ->
  ODE_integration start time values integrate show header fuel md N = Some (Ok v) -> v = c.
Proof.
  intros S E X start time values integrate show header fuel md N c v ST AS NZ K NE H.
  apply (hybrid_ok start time values integrate show header fuel md N _ NZ) in H as (b & B & I).
  assert (EB : b = Ok c).
  { inversion B as [c' K' N' EQ|c' K' N' C EQ|r' K' B' EQ]; subst; [congruence|congruence|].
    destruct K' as [K'|[K' _]]; congruence. }
  subst b. inversion I as [|c' l last E1 TR LN EQ|]; subst. injection E1 as <-.
  rewrite (steady_values time values integrate _ _ _ _ _ _ ST TR). apply AS.
Qed.
Print Assumptions C75_stationary.

(** Output interval zero, even though nothing is written. *)
Theorem C75_interval_zero : forall (S E X : Type) (start : option E -> list Q -> Q -> S) time values integrate show header
    fuel (md : model X) N c,
  md_interval md = 0%Z -> begins (m_coverages (md_memory md)) (md_boltzmann md) (md_nads md) (Ok c) ->
  (time (start None c 0) < 10)%Q ->
  ODE_integration start time values integrate show header (1 + fuel) md N = Some (Err ZeroDivisionError).
Proof. intros S E X start time values integrate show header. exact (hybrid_zero start time values integrate show header). Qed.
Print Assumptions C75_interval_zero.

(** An integrator for the examples: one coverage that grows at a constant rate, zero with the
    energies of the model. *)
Definition rate_of (e : option Q) : Q := match e with None => 0%Q | Some k => k end.
Definition line_start (e : option Q) (c : list Q) (t : Q) : Q * Q := (rate_of e, t).
Definition line_values (s : Q * Q) : list Q := [(fst s * snd s)%Q].
Definition line (s : Q * Q) (t : Q) : res unit * (Q * Q) := (Ok tt, (fst s, t)).
Definition a_model (c : option (list Q)) : model unit :=
  {| md_interval := 200; md_boltzmann := Ok [(1 # 2)%Q]; md_nads := 1;
     md_memory := {| m_coverages := c; m_error := None; m_good := None |} |}.

Example C75_example :
  (forall s t, fst (line s t) = Ok tt /\ (snd (snd (line s t)) == t)%Q) /\
  (forall e c t, (snd (line_start e c t) == t)%Q) /\ md_interval (a_model None) <> 0%Z /\
  begins (m_coverages (md_memory (a_model None))) (md_boltzmann (a_model None)) (md_nads (a_model None)) (Ok [0%Q]) /\
  begins (m_coverages (md_memory (a_model (Some [1%Q])))) (md_boltzmann (a_model None)) 1 (Ok [1%Q]).
Proof.
  split; [intros; split; reflexivity|]. split; [reflexivity|]. split; [discriminate|].
  split; [apply bg_clean; [reflexivity|discriminate|split; [reflexivity|repeat constructor]]|].
  apply bg_known; [reflexivity|discriminate].
Qed.

(** Refuted: in a search with other relative energies the new guess comes from those energies.  It
    comes from the energies of the model. *)
Theorem C75_energies_refuted : exists (S E X : Type) (start : option E -> list Q -> Q -> S) time values integrate
    (md : model X) (e : E) c v v' n,
  (forall s t, fst (integrate s t) = Ok tt /\ (time (snd (integrate s t)) == t)%Q) /\
  md_interval md <> 0%Z /\ begins (m_coverages (md_memory md)) (md_boltzmann md) (md_nads md) (Ok c) /\
  integrated (start (Some e)) time values integrate 10 (1 # 100) n (Ok c) (Ok v) /\
  (forall show header N, ODE_integration start time values integrate show header n md N = Some (Ok v')) /\
  ~ Forall2 Qeq v v'.
Proof.
  destruct C75_example as (EX & AS & NZ & BG & _).
  destruct (steps_ok line_start snd line EX AS 10 100 [0%Q] ltac:(lia) ltac:(lia)) as (l & last & TR & LN & TL).
  destruct (steps_ok (E := Q) (fun _ => line_start (Some (1 # 20)%Q)) snd line EX (fun e c t => AS (Some (1 # 20)%Q) c t) 10 100
              [0%Q] ltac:(lia) ltac:(lia)) as (l2 & last2 & TR2 & LN2 & TL2).
  exists (Q * Q)%type, Q, unit, line_start, snd, line_values, line, (a_model None), (1 # 20)%Q, [0%Q],
    (line_values last2), (line_values last), (1 + Z.to_nat (10 * 100)).
  split; [exact EX|]. split; [exact NZ|]. split; [exact BG|]. split; [|split].
  - refine (in_end _ _ _ _ _ _ _ _ _ l2 last2 eq_refl TR2 _). rewrite LN2. apply Nat.lt_succ_diag_r.
  - intros show header N. apply hybrid_ok; [exact NZ|]. exists (Ok [0%Q]). split; [exact BG|].
    refine (in_end _ _ _ _ _ _ _ _ _ l last eq_refl TR _). rewrite LN. apply Nat.lt_succ_diag_r.
  - assert (I : forall s l r last, trajectory snd line 10 (1 # 100) s l r last -> [fst last] = [fst s]).
    { intros s l0 r last0. apply (steady_values snd (fun s => [fst s]) line). intros. reflexivity. }
    apply I in TR. apply I in TR2. injection TR as TR. injection TR2 as TR2.
    intros F. inversion F as [|? ? ? ? Q1 _]. subst. unfold line_values in Q1. 
    rewrite TR, TR2, TL, TL2 in Q1. cbn in Q1. discriminate Q1.
Qed.
Print Assumptions C75_energies_refuted.

(** The solver's own method for new guesses, with the random numbers a (0 to 10) and k (0 to 5):
    the Boltzmann coverages are integrated to time a in steps of 1/10^k.  The coverages of the
    search play no part. *)
Theorem C75_modify : forall (S E X : Type) (start : option E -> list Q -> Q -> S) time values integrate show header
    fuel (md : model X) a k r,
  md_interval md <> 0%Z ->
  (modify_init_guess start time values integrate show header fuel md a k = Some r <->
   exists b, boltzmann_start (md_boltzmann md) (md_nads md) b /\
     integrated (start None) time values integrate (inject_Z (Z.of_nat a)) (/ inject_Z (10 ^ Z.of_nat k)) fuel b r).
Proof. intros S E X start time values integrate show header. exact (modify_ok start time values integrate show header). Qed.
Print Assumptions C75_modify.

Theorem C75_modify_steps : forall (S E X : Type) (start : option E -> list Q -> Q -> S) time values integrate show header
    (md : model X) a k c,
  (forall s t, fst (integrate s t) = Ok tt /\ (time (snd (integrate s t)) == t)%Q) ->
  (forall e c t, (time (start e c t) == t)%Q) -> md_interval md <> 0%Z ->
  boltzmann_start (md_boltzmann md) (md_nads md) (Ok c) ->
  exists l last, Z.of_nat (length l) = (Z.of_nat a * 10 ^ Z.of_nat k)%Z /\
    trajectory time integrate (inject_Z (Z.of_nat a)) (/ inject_Z (10 ^ Z.of_nat k)) (start None c 0%Q) l (Ok tt) last /\
    (time last == inject_Z (Z.of_nat a))%Q /\
    forall fuel, length l < fuel ->
      modify_init_guess start time values integrate show header fuel md a k = Some (Ok (values last)).
Proof.
  intros S E X start time values integrate show header md a k c EX AS NZ B.
  assert (P : (0 < 10 ^ Z.of_nat k)%Z) by (apply Z.pow_pos_nonneg; lia).
  destruct (steps_ok start time integrate EX AS (Z.of_nat a) (10 ^ Z.of_nat k) c ltac:(lia) P) as (l & last & TR & LN & TL).
  exists l, last. split; [rewrite LN; apply Z2Nat.id; nia|]. split; [exact TR|]. split; [exact TL|].
  intros fuel F. apply (modify_ok start time values integrate show header fuel md a k _ NZ).
  exists (Ok c). split; [exact B|]. exact (in_end _ _ _ _ _ _ _ _ c l last eq_refl TR F).
Qed.
Print Assumptions C75_modify_steps.

(** Refuted: the guess is a new one.  If the first number is 0, the Boltzmann coverages are returned
    without any integration. *)
Theorem C75_modify_refuted : forall (S E X : Type) (start : option E -> list Q -> Q -> S) time values integrate show header
    fuel (md : model X) k c,
  (forall e c t, (time (start e c t) == t)%Q) -> md_interval md <> 0%Z ->
  boltzmann_start (md_boltzmann md) (md_nads md) (Ok c) ->
  modify_init_guess start time values integrate show header (1 + fuel) md 0 k = Some (Ok (values (start None c 0%Q))).
Proof.
  intros S E X start time values integrate show header fuel md k c AS NZ B.
  apply (modify_ok start time values integrate show header _ md 0 k _ NZ). exists (Ok c). split; [exact B|].
  apply (in_end _ _ _ _ _ _ _ _ c [] _ eq_refl); [|cbn; lia]. apply tr_end. rewrite AS. intros H. discriminate H.
Qed.
Print Assumptions C75_modify_refuted.

(** What the solver answers about its searches. *)
Theorem C75_queries : forall (X : Type) (m : memory X) nads,
  (forall x, error m = Ok x <-> m_error m = Some x) /\
  (m_error m = None <-> error m = Err AttributeError) /\
  (forall c, m_coverages m = Some c -> coverages m nads = c) /\
  (m_coverages m = None -> clean nads (coverages m nads)) /\
  (m_good m = None -> good_guess m = Err AttributeError).
Proof.
  intros X m nads. unfold error, coverages, good_guess.
  split; [intros x; destruct (m_error m); split; congruence|].
  split; [destruct (m_error m); split; congruence|].
  split; [intros c ->; reflexivity|]. split; [intros ->; now apply clean_repeat|]. intros ->. reflexivity.
Qed.
Print Assumptions C75_queries.

(** Refuted: [good_guess] gives the guess of a converged search.  It gives None. *)
Theorem C75_good_guess_refuted : forall (X : Type) (m : memory X) c, m_good m = Some c -> good_guess m = Ok None.
Proof. intros X m c H. unfold good_guess. now rewrite H. Qed.
Print Assumptions C75_good_guess_refuted.

(** Registering a hybrid method: for models it is the function itself, for anything else a TypeError. *)
Theorem C75_register : forall (X : Type) (fn : function X) md N,
  snd (hybrid_method_register fn) (Model md) N = fn (Model md) N /\
  snd (hybrid_method_register fn) Something N = Some (Err TypeError).
Proof. intros X fn md N. split; reflexivity. Qed.
Print Assumptions C75_register.

(** Refuted: the decorated function can still be called by its name; the name stands for None. *)
Theorem C75_decorated_refuted : forall (X : Type) (fn : function X), fst (hybrid_method_register fn) = None.
Proof. reflexivity. Qed.
Print Assumptions C75_decorated_refuted.
