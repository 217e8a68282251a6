(** Model of the default hybrid method (scaks/plugins/hybrid_methods.py 4-28), of its
    registration (scaks/models/micro_kinetic_model.py 120, 283-296), and of [modify_init_guess],
    [error], [coverages] and [good_guess] of the solver (scaks/solvers/steady_state_solver.py
    1174-1189, 1363-1381).

    The integrator is that of Ode_Model, with one more argument: the relative energies handed to
    [solve_ode] (None: those of the model).  Log output is left out; 1e-2 and 10**-k are exact. *)
From Coq Require Import String Ascii List ZArith QArith Bool.
From Verif Require Import PyBase Ode_Model.
Import ListNotations.
Local Open Scope list_scope.

(** What the solver remembers of its searches: [_coverages], [_error], [_good_guess], if set.
    steady_state_solver.py 1363-1381. *)
Record memory (X : Type) := { m_coverages : option (list Q); m_error : option X; m_good : option (list Q) }.
Arguments m_coverages {X}. Arguments m_error {X}. Arguments m_good {X}.

(** steady_state_solver.py 1363-1367 *)
Definition error {X} (m : memory X) : res X :=
  match m_error m with Some x => Ok x | None => Err AttributeError end.
(** steady_state_solver.py 1369-1375 *)
Definition coverages {X} (m : memory X) (nads : nat) : list Q :=
  match m_coverages m with Some c => c | None => repeat 0%Q nads end.
(** steady_state_solver.py 1377-1381: the attribute is read and not returned; None is [None]. *)
Definition good_guess {X} (m : memory X) : res (option (list Q)) :=
  match m_good m with Some _ => Ok None | None => Err AttributeError end.

Section Guess.
  Context {S E X : Type}.
  Variable start : option E -> list Q -> Q -> S.
  Variable time : S -> Q.
  Variable values : S -> list Q.
  Variable integrate : S -> Q -> res unit * S.
  Variable show : Q -> str.
  Variable header : str.

  (** [solver.solve_ode(time_end=..., time_span=..., initial_cvgs=...)[-1]]: the other arguments
      have their defaults (steady_state_solver.py 1195-1197); nothing is written. *)
  Definition last_of_ode (fuel : nat) (interval : Z) (boltzmann : res (list Q)) (nads : nat)
      (t_end t_span : Q) (given : option (list Q)) : option (res (list Q)) :=
    match initial_values given boltzmann nads with
    | Err e => Some (Err e)
    | Ok initial =>
        match solve_ode (start None) time values integrate show header fuel false interval 0 t_end t_span initial None with
        | None => None
        | Some (r, _) => Some (do p <- r; Ok (snd p))
        end
    end.

  (** What the methods below use of a model.
      hybrid_methods.py 4-28, steady_state_solver.py 1174-1189. *)
  Record model := {
    md_interval : Z;                     (* ode_output_interval *)
    md_boltzmann : res (list Q);         (* solver.boltzmann_coverages() *)
    md_nads : nat;                       (* len(adsorbate_names) *)
    md_memory : memory X }.

  (** hybrid_methods.py 4-28 *)
  Definition ODE_integration (fuel : nat) (md : model) (N : nat) : option (res (list Q)) :=
    let end_ := 10%Q in
    let span := (1 # 100)%Q in
    let init_cvgs := coverages (md_memory md) (md_nads md) in
    last_of_ode fuel (md_interval md) (md_boltzmann md) (md_nads md) end_ span (Some init_cvgs).

  (** steady_state_solver.py 1174-1189; [a] and [k] are the two random numbers. *)
  Definition modify_init_guess (fuel : nat) (md : model) (a k : nat) : option (res (list Q)) :=
    let end_time := inject_Z (Z.of_nat a) in
    let time_span := (/ inject_Z (10 ^ Z.of_nat k))%Q in
    last_of_ode fuel (md_interval md) (md_boltzmann md) (md_nads md) end_time time_span None.

  (** The attribute [hybrid_method]: that of the class, or a function registered for the object.
      The argument of the function is any Python object, here a model or something else.
      micro_kinetic_model.py 120, 283-296. *)
  Inductive object := Model (md : model) | Something.
  (** What a hybrid method is, micro_kinetic_model.py 283-296. *)
  Definition function : Type := object -> nat -> option (res (list Q)).
  (** micro_kinetic_model.py 283-296: what the decorated name stands for afterwards (no return
      statement: None) and the new attribute. *)
  Definition hybrid_method_register (fn : function) : option function * function :=
    (None, fun m N => match m with
                      | Model _ => fn m N
                      | Something => Some (Err TypeError)
                      end).
End Guess.
Arguments model : clear implicits. Arguments object : clear implicits. Arguments function : clear implicits.
