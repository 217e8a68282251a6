(** Specification vocabulary for the run of a kinetic Monte Carlo simulation (C70). *)
From Coq Require Import String Ascii List ZArith Bool Arith.
Import ListNotations.
From Verif Require Import PyBase PyData_Model Kmc_Model KIn_Model KRun_Model.
Local Open Scope list_scope.
Local Open Scope nat_scope.

(** Keyword of the library, attribute of the model. *)
Inductive always_passed : str -> str -> Prop :=
| ap_same k : In k (map L ["time_limit"; "analysis_interval"; "start_time"; "do_redistribution"]%string) ->
    always_passed k k
| ap_steps : always_passed (L "number_of_steps") (L "nstep")
| ap_dump : always_passed (L "dump_interval") (L "trajectory_dump_interval")
| ap_seed : always_passed (L "seed") (L "random_seed")
| ap_rng : always_passed (L "rng_type") (L "random_generator")
| ap_extra : always_passed (L "extra_traj") (L "extra_trajectories").
Inductive passed_if_redistributed : str -> str -> Prop :=
| pr_same k : In k (map L ["redistribution_interval"; "fast_species"; "nsplits"; "distributor_type"]%string) ->
    passed_if_redistributed k k
| pr_empty : passed_if_redistributed (L "empty_element") (L "empty_type").

Definition relevant (attribute : str) : Prop :=
  exists k, always_passed k attribute \/ passed_if_redistributed k attribute.

(** Text of a comment block followed by code. *)
Definition comment_line (l : str) : Prop := exists t, l = "#"%char :: t /\ ~ In nl t.
Inductive comments : str -> Prop :=
| cm_end : comments [nl]
| cm_line l t : comment_line l -> comments t -> comments (l ++ [nl] ++ t).

Section Spec.
  Context {K E V Cf Sm An Int Lm Cp : Type}.
  Notation state := (state K E Cf Sm An Lm Cp).
  Notation setting := (setting K V Cf Sm An Int Lm Cp).

  (** Everything a run hands to the main loop. *)
  Record prepared := {
    q_processes : list (kmc_process K); q_mapping : list str;
    q_model : Lm; q_analysis : option (list An)
  }.

  (** The analyses, one per name and in this order; none without a name. *)
  Inductive analyses (x : setting) ps mapping : option (list An) -> Prop :=
  | an_none : x_analysis x = [] -> analyses x ps mapping None
  | an_some l : x_analysis x <> [] ->
      Forall2 (fun n a => x_make_analysis x n ps mapping = Ok a) (x_analysis x) l ->
      analyses x ps mapping (Some l).
  Inductive analyses_fail (x : setting) ps mapping : exn -> Prop :=
  | af before n after l e : x_analysis x = before ++ n :: after ->
      Forall2 (fun n a => x_make_analysis x n ps mapping = Ok a) before l ->
      x_make_analysis x n ps mapping = Err e -> analyses_fail x ps mapping e.

  (** Where the preparation fails, in this order. *)
  Inductive preparation (x : setting) (c : res Cf) (s : res Sm) ps mapping : res (option (list An) * Lm) -> Prop :=
  | pr_analysis e : analyses_fail x ps mapping e -> preparation x c s ps mapping (Err e)
  | pr_interactions an e : analyses x ps mapping an -> x_interactions x ps = Err e ->
      preparation x c s ps mapping (Err e)
  | pr_configuration an i e : analyses x ps mapping an -> x_interactions x ps = Ok i -> c = Err e ->
      preparation x c s ps mapping (Err e)
  | pr_sites an i c' e : analyses x ps mapping an -> x_interactions x ps = Ok i -> c = Ok c' ->
      s = Err e -> preparation x c s ps mapping (Err e)
  | pr_lattice an i c' s' e : analyses x ps mapping an -> x_interactions x ps = Ok i -> c = Ok c' ->
      s = Ok s' -> x_lattice_model x c' s' i = Err e -> preparation x c s ps mapping (Err e)
  | pr_ready an i c' s' lm : analyses x ps mapping an -> x_interactions x ps = Ok i -> c = Ok c' ->
      s = Ok s' -> x_lattice_model x c' s' i = Ok lm -> preparation x c s ps mapping (Ok (an, lm)).

  (** The state after a run: the model and its inputs never change. *)
  Definition after (st st' : state) (sv : solver K) (ps : option (list (kmc_process K)))
      (mp : option (list str)) (fs : dict str) (cs : list (call An Lm Cp)) : Prop :=
    s_model st' = s_model st /\ s_solver st' = sv /\ s_processes st' = ps /\ s_mapping st' = mp /\
    s_files st' = fs /\ s_calls st' = cs.

  (** The script of the lattice model replaces a file of that name. *)
  Definition scripted (x : setting) (scripting : bool) (lm : Lm) (fs fs' : dict str) : Prop :=
    forall n, dget fs' n =
      if (scripting && x_log x && str_eqb n (L "auto_kmc_model.py"))%bool
      then Some (x_header x ++ L "from KMCLib import *" ++ [nl; nl] ++ x_lattice_script x lm)
      else dget fs n.
End Spec.
Arguments preparation {K V Cf Sm An Int Lm Cp}.

Section Gives.
  Context {K E V Cf Sm An Int Lm Cp : Type}.
  Notation state := (state K E Cf Sm An Lm Cp).
  Notation setting := (setting K V Cf Sm An Int Lm Cp).

  (** The processes of the solver: those generated first, otherwise generated now from the
      definitions of the model. *)
  Inductive gives (x : setting) (st : state) : res (list (kmc_process K)) -> solver K -> Prop :=
  | gi_before ps : cached (s_solver st) = Some ps -> gives x st (Ok ps) (s_solver st)
  | gi_no_input e : cached (s_solver st) = None -> process_dicts (s_model st) = Err e ->
      gives x st (Err e) (s_solver st)
  | gi_generated ds ps mp : cached (s_solver st) = None -> process_dicts (s_model st) = Ok (AProcesses ds) ->
      get_processes (x_owner x) (process_mapping (s_solver st)) ds = (Ok ps, mp) ->
      gives x st (Ok ps) {| process_mapping := mp; cached := Some ps |}
  | gi_failed ds e mp : cached (s_solver st) = None -> process_dicts (s_model st) = Ok (AProcesses ds) ->
      get_processes (x_owner x) (process_mapping (s_solver st)) ds = (Err e, mp) ->
      gives x st (Err e) {| process_mapping := mp; cached := None |}.
End Gives.

(** The logical lines of a text that is followed by others. *)
Definition logical_lines (text : str) (ls : list (list dtok)) : Prop :=
  exists ts, drun SBol text = Ok (ts, SBol) /\ forall r, group 0 [] (ts ++ r) = ls ++ group 0 [] r.

(** processes = [n1, n2, ..., ] *)
Definition list_statement (ns : list str) : list dtok :=
  [DName (L "processes"); DEq; DOpen "["] ++ concat (map (fun n => [DName n; DComma]) ns) ++ [DClose "]"].
