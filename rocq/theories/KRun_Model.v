(** Model of the run of a kinetic Monte Carlo simulation: scaks/models/kmc_model.py:142-159
    and scaks/solvers/kmc_solver.py:47-108, 228-268, 274-388. *)
From Coq Require Import String Ascii List ZArith Bool Arith.
Import ListNotations.
From Verif Require Import PyBase PyData_Model Kmc_Model KIn_Model.
Local Open Scope list_scope.
Local Open Scope nat_scope.

(** ** Control parameters *)
Section Control.
  (** Values of attributes of the model, and their truth. *)
  Context {V : Type}.
  Variable truth : V -> bool.

  (** [get_control_parameters], kmc_solver.py:228-265: the keyword arguments handed to
      [KMCControlParameters]; [a] gives the attributes of the model. *)
  Definition control_params (a : str -> V) : dict V :=
    let base := [ (L "time_limit", a (L "time_limit"));
                  (L "number_of_steps", a (L "nstep"));
                  (L "dump_interval", a (L "trajectory_dump_interval"));
                  (L "seed", a (L "random_seed"));
                  (L "rng_type", a (L "random_generator"));
                  (L "analysis_interval", a (L "analysis_interval"));
                  (L "start_time", a (L "start_time"));
                  (L "extra_traj", a (L "extra_trajectories"));
                  (L "do_redistribution", a (L "do_redistribution")) ] in
    if truth (a (L "do_redistribution"))
    then base ++ [ (L "redistribution_interval", a (L "redistribution_interval"));
                   (L "fast_species", a (L "fast_species"));
                   (L "nsplits", a (L "nsplits"));
                   (L "distributor_type", a (L "distributor_type"));
                   (L "empty_element", a (L "empty_type")) ]
    else base.
End Control.

(** ** Scripts *)

(** kmc_solver.py:36-42. *)
Definition script_header (version date : str) : str :=
  L "# This file was automatically generated by scaks (https://github.com/PytLab/scaks) powered by KMCLibX."
  ++ [nl] ++ L "# Version " ++ version ++ [nl] ++ L "# Date: " ++ date ++ L " " ++ [nl] ++ L "#" ++ [nl]
  ++ L "# Do not make changes to this file unless you know what you are doing" ++ [nl; nl].

(** [script_decorator], kmc_solver.py:274-294: the text and the files afterwards. *)
Definition script (header body : str) (script_name : option str) (fs : dict str) : str * dict str :=
  let content := header ++ L "from KMCLib import *" ++ [nl; nl] ++ body in
  (content,
   match script_name with
   | None | Some [] => fs
   | Some n => dset fs (L "auto_" ++ n) content
   end).

(** 'process_%d' % idx (kmc_solver.py:378, 383) *)
Definition process_name (i : nat) : str := L "process_" ++ str_of_Z (Z.of_nat i).

(** [script_processes], kmc_solver.py:357-386; [scr] is the method [_script] of a process. *)
Fixpoint process_scripts {P} (scr : P -> str -> str) (i : nat) (ps : list P) : str :=
  match ps with
  | [] => []
  | p :: t => scr p (process_name i) ++ process_scripts scr (S i) t
  end.
(** Same lines: kmc_solver.py:357-386. *)
Definition process_list (n : nat) : str :=
  L "processes = [" ++ [nl]
  ++ concat (map (fun i => L "    " ++ process_name i ++ L "," ++ [nl]) (seq 0 n))
  ++ L "]" ++ [nl; nl].
(** Same lines: kmc_solver.py:357-386. *)
Definition script_processes_body {P} (scr : P -> str -> str) (ps : list P) : str :=
  process_scripts scr 0 ps ++ process_list (length ps).

(** ** The run *)
Section Run.
  (** Rate constants, energies, attribute values and the objects of KMCLibX. *)
  Context {K E V Cf Sm An Int Lm Cp : Type}.

  Notation PD := (list (dict pv)).

  (** A call of the main loop of the library. kmc_solver.py:104-107. *)
  Record call := {
    c_model : Lm; c_params : Cp; c_file : str; c_type : str; c_analysis : option (list An)
  }.

  (** The model, its solver and the outside. kmc_model.py:155-159, kmc_solver.py:47-108. *)
  Record state := {
    s_model : model E PD Cf Sm;
    s_solver : solver K;
    s_processes : option (list (kmc_process K));   (* _KMCModel__processes *)
    s_mapping : option (list str);                 (* _KMCModel__process_mapping *)
    s_files : dict str;
    s_calls : list call
  }.

  (** What is fixed during a run: the class of the model, what generates the processes, the
      attributes, names of the analyses, whether this process writes logs, and KMCLibX.
      kmc_solver.py:47-108. *)
  Record setting := {
    x_class : str;
    x_owner : owner K;
    x_attr : str -> V;
    x_truth : V -> bool;
    x_analysis : list str;
    x_log : bool;
    x_header : str;
    (* getattr(kmc_plugins, name)(model) *)
    x_make_analysis : str -> list (kmc_process K) -> list str -> res An;
    x_interactions : list (kmc_process K) -> res Int;
    x_lattice_model : Cf -> Sm -> Int -> res Lm;
    x_lattice_script : Lm -> str;
    x_control : dict V -> res Cp;
    x_run : call -> res unit
  }.

  (** [self.solver.processes]: the definitions are read from the model only if needed.  The
      kind of the attribute is the one stored by [parse_data]. kmc_solver.py:110-117. *)
  Definition solver_processes (x : setting) (st : state) : res (list (kmc_process K)) * state :=
    let put s := {| s_model := s_model st; s_solver := s; s_processes := s_processes st;
                    s_mapping := s_mapping st; s_files := s_files st; s_calls := s_calls st |} in
    match cached (s_solver st) with
    | Some ps => (Ok ps, st)
    | None =>
        match process_dicts (s_model st) with
        | Err e => (Err e, st)
        | Ok (AProcesses ds) => let (r, s) := processes (x_owner x) ds (s_solver st) in (r, put s)
        | Ok _ => (Err Unsupported, st)
        end
    end.

  (** [self._owner.configuration], kmc_solver.py:78. *)
  Definition the_configuration (m : model E PD Cf Sm) : res Cf :=
    do a <- configuration m; match a with AConfiguration c => Ok c | _ => Err Unsupported end.
  (** [self._owner.sitesmap], kmc_solver.py:81. *)
  Definition the_sitesmap (m : model E PD Cf Sm) : res Sm :=
    do a <- sitesmap m; match a with ASitesmap s => Ok s | _ => Err Unsupported end.

  (** [analysis], kmc_solver.py:61-70: none if no name is given. *)
  Definition get_analysis (x : setting) (ps : list (kmc_process K)) (mapping : list str)
    : res (option (list An)) :=
    match x_analysis x with
    | [] => Ok None
    | names => do l <- mapM (fun n => x_make_analysis x n ps mapping) names; Ok (Some l)
    end.

  (** [KMCSolver.run], kmc_solver.py:47-108. *)
  Definition solver_run (x : setting) (scripting : bool) (trajectory_type : str)
      (ps : list (kmc_process K)) (mapping : list str) (st : state) : state * res unit :=
    match (do an <- get_analysis x ps mapping;
           do i <- x_interactions x ps;
           do c <- the_configuration (s_model st);
           do s <- the_sitesmap (s_model st);
           do lm <- x_lattice_model x c s i;
           Ok (an, lm)) with
    | Err e => (st, Err e)
    | Ok (an, lm) =>
        let fs := if scripting && x_log x
                  then snd (script (x_header x) (x_lattice_script x lm) (Some (L "kmc_model.py")) (s_files st))
                  else s_files st in
        let put cs := {| s_model := s_model st; s_solver := s_solver st; s_processes := s_processes st;
                         s_mapping := s_mapping st; s_files := fs; s_calls := cs |} in
        match x_control x (control_params (x_truth x) (x_attr x)) with
        | Err e => (put (s_calls st), Err e)
        | Ok cp =>
            let c := {| c_model := lm; c_params := cp;
                        c_file := L "auto_" ++ trajectory_type ++ L "_trajectory.py";
                        c_type := trajectory_type; c_analysis := an |} in
            (put (s_calls st ++ [c]), x_run x c)
        end
    end.

  (** [KMCModel.run], kmc_model.py:142-159.  The solver is stored under the name of the
      class of the model (component_descriptors.py:36-38), line 159 looks for
      [_KMCModel__solver]. *)
  Definition run (x : setting) (scripting : bool) (trajectory_type : str) (st : state)
    : state * res unit :=
    let (r, st1) := solver_processes x st in
    match r with
    | Err e => (st1, Err e)
    | Ok ps =>
        let st2 := {| s_model := s_model st1; s_solver := s_solver st1; s_processes := Some ps;
                      s_mapping := Some (process_mapping (s_solver st1));
                      s_files := s_files st1; s_calls := s_calls st1 |} in
        if str_eqb (mangled_name (x_class x) (L "solver")) (mangled_name (L "KMCModel") (L "solver"))
        then solver_run x scripting trajectory_type ps (process_mapping (s_solver st1)) st2
        else (st2, Err AttributeError)
    end.
End Run.
Arguments call : clear implicits.
Arguments state : clear implicits.
Arguments setting : clear implicits.
