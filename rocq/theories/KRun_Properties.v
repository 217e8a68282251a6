(** C70: running a kinetic Monte Carlo simulation. *)
From Coq Require Import String Ascii List ZArith Bool Arith.
Import ListNotations.
From Verif Require Import PyBase PyBaseFacts PyData_Model Kmc_Model Kmc_Witness KIn_Model KIn_Spec KIn_Properties
  KRun_Model KRun_Spec KRun_Proofs KRun_Script.
Local Open Scope list_scope.
Local Open Scope nat_scope.

(** Every attribute reaches the library under its keyword, each keyword once; those for the
    redistribution only if it is switched on. *)
Theorem C70_control_parameters : forall V (truth : V -> bool) (a : str -> V),
  NoDup (map fst (control_params truth a)) /\
  forall k v, In (k, v) (control_params truth a) <->
    exists attribute, v = a attribute /\
      (always_passed k attribute \/
       (truth (a (L "do_redistribution")) = true /\ passed_if_redistributed k attribute)).
Proof. intros V truth a. split; [apply control_NoDup|apply control_iff]. Qed.
Print Assumptions C70_control_parameters.

Theorem C70_other_attributes : forall V (truth : V -> bool) (a b : str -> V),
  (forall n, relevant n -> a n = b n) -> control_params truth a = control_params truth b.
Proof. exact @control_relevant. Qed.
Print Assumptions C70_other_attributes.

(** The switch that should mix the time into the seed does nothing. *)
Theorem C70_time_seed_refuted : exists n, n = L "time_seed" /\
  forall V (truth : V -> bool) (a b : str -> V),
    (forall m, m <> n -> a m = b m) -> control_params truth a = control_params truth b.
Proof.
  exists (L "time_seed"). split; [reflexivity|]. intros V truth a b H. apply control_relevant.
  intros n Hn. apply H. intros ->. exact (time_seed_irrelevant Hn).
Qed.
Print Assumptions C70_time_seed_refuted.

Section Runs.
Context {K E V Cf Sm An Int Lm Cp : Type}.
Notation state := (state K E Cf Sm An Lm Cp).
Notation setting := (setting K V Cf Sm An Int Lm Cp).

(** What the solver has as processes is determined. *)
Theorem C70_processes_given : forall (x : setting) (st : state),
  (forall a, process_dicts (s_model st) = Ok a -> exists ds, a = AProcesses ds) ->
  exists r sv, gives x st r sv.
Proof. exact gives_total. Qed.

(** Without processes nothing else is tried. *)
Theorem C70_no_processes : forall (x : setting) scripting type (st : state) e sv,
  gives x st (Err e) sv ->
  exists st', run x scripting type st = (st', Err e) /\
    after st st' sv (s_processes st) (s_mapping st) (s_files st) (s_calls st).
Proof. exact run_no_processes. Qed.

(** If the preparation fails, no file is written and the main loop is not entered. *)
Theorem C70_preparation_failed : forall (x : setting) scripting type (st : state) ps sv e,
  gives x st (Ok ps) sv -> x_class x = L "KMCModel" ->
  preparation x (the_configuration (s_model st)) (the_sitesmap (s_model st)) ps (process_mapping sv) (Err e) ->
  exists st', run x scripting type st = (st', Err e) /\
    after st st' sv (Some ps) (Some (process_mapping sv)) (s_files st) (s_calls st).
Proof. exact run_prepare_fail. Qed.

(** Parameters that the library rejects are noticed after the script has been written. *)
Theorem C70_parameters_rejected : forall (x : setting) scripting type (st : state) ps sv an lm e,
  gives x st (Ok ps) sv -> x_class x = L "KMCModel" ->
  preparation x (the_configuration (s_model st)) (the_sitesmap (s_model st)) ps (process_mapping sv) (Ok (an, lm)) ->
  x_control x (control_params (x_truth x) (x_attr x)) = Err e ->
  exists st' fs, run x scripting type st = (st', Err e) /\ scripted x scripting lm (s_files st) fs /\
    after st st' sv (Some ps) (Some (process_mapping sv)) fs (s_calls st).
Proof. exact run_params_fail. Qed.

(** Otherwise the main loop is entered once, with the lattice model built from the inputs
    and the processes, the parameters, the file named after the type and the analyses. *)
Theorem C70_started : forall (x : setting) scripting type (st : state) ps sv an lm cp,
  gives x st (Ok ps) sv -> x_class x = L "KMCModel" ->
  preparation x (the_configuration (s_model st)) (the_sitesmap (s_model st)) ps (process_mapping sv) (Ok (an, lm)) ->
  x_control x (control_params (x_truth x) (x_attr x)) = Ok cp ->
  let c := {| c_model := lm; c_params := cp; c_file := L "auto_" ++ type ++ L "_trajectory.py";
              c_type := type; c_analysis := an |} in
  exists st' fs, run x scripting type st = (st', x_run x c) /\ scripted x scripting lm (s_files st) fs /\
    after st st' sv (Some ps) (Some (process_mapping sv)) fs (s_calls st ++ [c]).
Proof. exact run_started. Qed.

(** Exactly one of the preparations happens. *)
Theorem C70_preparation : forall (x : setting) (m : model E (list (dict pv)) Cf Sm) ps mapping,
  exists r, forall r', preparation x (the_configuration m) (the_sitesmap m) ps mapping r' <-> r' = r.
Proof.
  intros x m ps mapping. eexists. intro r'. rewrite <- preparation_iff. split; intro H; symmetry; exact H.
Qed.

(** A class derived from [KMCModel] cannot be run. *)
Theorem C70_derived_class : forall (x : setting) scripting type (st : state) ps sv,
  gives x st (Ok ps) sv -> x_class x <> L "KMCModel" ->
  exists st', run x scripting type st = (st', Err AttributeError) /\
    after st st' sv (Some ps) (Some (process_mapping sv)) (s_files st) (s_calls st).
Proof. exact run_derived. Qed.

(** Processes generated once are used by every later run, whatever has been read since. *)
Theorem C70_later_runs : forall (x : setting) scripting type (st : state) ps,
  cached (s_solver st) = Some ps ->
  s_solver (fst (run x scripting type st)) = s_solver st /\
  s_processes (fst (run x scripting type st)) = Some ps.
Proof. exact run_keeps. Qed.
End Runs.
Print Assumptions C70_processes_given.
Print Assumptions C70_no_processes.
Print Assumptions C70_preparation_failed.
Print Assumptions C70_parameters_rejected.
Print Assumptions C70_started.
Print Assumptions C70_preparation.
Print Assumptions C70_derived_class.
Print Assumptions C70_later_runs.

(** ** Scripts *)

(** A script is the header, the import and the object; it is saved with the prefix if a name
    is given, and replaces only that file. *)
Theorem C70_script : forall header body name fs n,
  let (text, fs') := script header body name fs in
  text = header ++ L "from KMCLib import *" ++ [nl; nl] ++ body /\
  dget fs' n = match name with
               | Some ((_ :: _) as s) => if str_eqb n (L "auto_" ++ s) then Some text else dget fs n
               | _ => dget fs n
               end.
Proof.
  intros header body name fs n. unfold script. split; [reflexivity|].
  destruct name as [[|c s]|]; [reflexivity| |reflexivity]. cbv zeta. rewrite dget_dset. reflexivity.
Qed.
Print Assumptions C70_script.

Theorem C70_header_is_comment : forall version date,
  ~ In nl version -> ~ In nl date -> comments (script_header version date).
Proof. exact header_comments. Qed.
Print Assumptions C70_header_is_comment.

(** The processes of a script: the i-th is written under the i-th name; the names are
    different and are gathered in one list, in this order. *)
Theorem C70_script_processes : forall P (scr : P -> str -> str) ps,
  exists ns gather,
    length ns = length ps /\ NoDup ns /\
    (forall i, i < length ps -> nth_error ns i = Some (L "process_" ++ str_of_Z (Z.of_nat i))) /\
    script_processes_body scr ps = concat (map (fun np => scr (snd np) (fst np)) (combine ns ps)) ++ gather /\
    logical_lines gather [list_statement ns; []].
Proof.
  intros P scr ps. exists (map process_name (seq 0 (length ps))), (process_list (length ps)).
  split; [now rewrite map_length, seq_length|]. split; [apply names_NoDup|].
  split.
  { intros i Hi. rewrite nth_error_map.
    assert (nth_error (seq 0 (length ps)) i = Some i) as ->; [|reflexivity].
    rewrite nth_error_nth' with (d := 0) by now rewrite seq_length. now rewrite seq_nth. }
  split; [|apply process_list_lines].
  unfold script_processes_body. rewrite scripts_indexed. f_equal. f_equal.
  assert (forall (l : list nat) (qs : list P),
    map (fun ip => scr (snd ip) (process_name (fst ip))) (combine l qs) =
    map (fun np => scr (snd np) (fst np)) (combine (map process_name l) qs)) as H.
  { induction l as [|i l IH]; intros [|q qs]; cbn; [reflexivity..|]. now rewrite IH. }
  apply H.
Qed.
Print Assumptions C70_script_processes.

(** ** A model whose library keeps what it is given *)
Definition lib (cls : str) : setting nat nat (pv * list str) (pv * list str) str
    (list (kmc_process nat)) ((pv * list str) * (pv * list str) * list (kmc_process nat)) (dict nat) :=
  {| x_class := cls; x_owner := w_owner; x_attr := fun n => length n; x_truth := fun n => negb (n =? 0);
     x_analysis := [L "TOFAnalysis"; L "CoveragesAnalysis"]; x_log := true;
     x_header := script_header (L "1.0") (L "now");
     x_make_analysis := fun n _ _ => Ok n; x_interactions := fun ps => Ok ps;
     x_lattice_model := fun c s i => Ok (c, s, i); x_lattice_script := fun _ => L "model";
     x_control := fun d => Ok d; x_run := fun _ => Ok tt |}.

Definition input (ds : list (dict pv)) : world nat (list (dict pv)) unit (pv * list str) (pv * list str) :=
  {| w_energies := fun n => (n, Ok tt);
     w_exec := fun n => if str_eqb n (L "kmc_processes.py")
                        then Some (Ok {| f_processes := Some ds; f_types := None; f_site_types := None |})
                        else None;
     w_len := fun l => Ok (length l); w_lattice := Ok tt;
     w_configuration := fun _ t p => Ok (t, p); w_sitesmap := fun _ t p => Ok (t, p) |}.

Definition start (ds : list (dict pv)) : state nat nat (pv * list str) (pv * list str) str
    ((pv * list str) * (pv * list str) * list (kmc_process nat)) (dict nat) :=
  {| s_model := fst (parse_data (input ds) (grid (L "KMCModel")) None None None {| m_energies := 0; m_attrs := [] |});
     s_solver := new_solver; s_processes := None; s_mapping := None; s_files := []; s_calls := [] |}.

Definition reread (ds : list (dict pv)) (st : state nat nat (pv * list str) (pv * list str) str
    ((pv * list str) * (pv * list str) * list (kmc_process nat)) (dict nat)) :=
  {| s_model := fst (parse_data (input ds) (grid (L "KMCModel")) None None None (s_model st));
     s_solver := s_solver st; s_processes := s_processes st; s_mapping := s_mapping st;
     s_files := s_files st; s_calls := s_calls st |}.

Example C70_example_run :
  let (st, r) := run (lib (L "KMCModel")) true (L "lattice") (start [w_ads]) in
  r = Ok tt /\ map fst (s_files st) = [L "auto_kmc_model.py"] /\
  map (fun c => (c_file c, c_analysis c, length (snd (c_model c)), length (c_params c))) (s_calls st) =
    [(L "auto_lattice_trajectory.py", Some [L "TOFAnalysis"; L "CoveragesAnalysis"], 4, 14)].
Proof. vm_compute. repeat split. Qed.

Example C70_example_hypotheses : exists ps sv an lm cp,
  gives (lib (L "KMCModel")) (start [w_ads]) (Ok ps) sv /\
  preparation (lib (L "KMCModel")) (the_configuration (s_model (start [w_ads]))) (the_sitesmap (s_model (start [w_ads])))
    ps (process_mapping sv) (Ok (an, lm)) /\
  x_control (lib (L "KMCModel")) (control_params (x_truth (lib (L "KMCModel"))) (x_attr (lib (L "KMCModel")))) = Ok cp.
Proof.
  do 5 eexists. split; [eapply gi_generated; vm_compute; reflexivity|].
  split; [apply preparation_iff; vm_compute; reflexivity|reflexivity].
Qed.

(** After the processes file has been changed and read again, the next run still uses the
    processes of the first one. *)
Theorem C70_changed_processes_refuted : let x := lib (L "KMCModel") in exists st st1 st2,
  st = start [w_ads] /\ run x false (L "lattice") st = (st1, Ok tt) /\
  run x false (L "lattice") (reread [] st1) = (st2, Ok tt) /\
  process_dicts (s_model st2) = Ok (AProcesses []) /\
  map (fun c => length (snd (c_model c))) (s_calls st2) = [4; 4].
Proof.
  do 3 eexists. split; [reflexivity|].
  split; [vm_compute; reflexivity|]. split; [vm_compute; reflexivity|]. split; vm_compute; reflexivity.
Qed.
Print Assumptions C70_changed_processes_refuted.

Example C70_example_derived :
  snd (run (lib (L "MyModel")) true (L "lattice") (start [w_ads])) = Err AttributeError.
Proof. vm_compute. reflexivity. Qed.

Example C70_example_script : exists t,
  script_processes_body (fun _ n => n ++ L " = KMCProcess()" ++ [nl]) [tt; tt] =
  L "process_0 = KMCProcess()" ++ [nl] ++ L "process_1 = KMCProcess()" ++ [nl] ++ t.
Proof. eexists. reflexivity. Qed.
