(** The analysis plugins of a kinetic Monte Carlo run (scaks/solvers/kmc_plugins/) as state
    machines: [setup], [registerStep] for every step, [finalize].  Times and coverages are
    exact rationals; [show] is Python's [str] of a float. *)
From Coq Require Import String Ascii List ZArith NArith Bool Arith QArith.
Import ListNotations.
From Verif Require Import PyBase PyData_Model PyData_Spec Fmt_Model KCov_Model.
Local Open Scope list_scope.
Local Open Scope nat_scope.

(** What a plugin is given at a step.
    coverages_analysis.py 107, event_analysis.py 90, frequency_analysis.py 70, tof_analysis.py 85. *)
Record event := {
  e_step : Z;
  e_time : Q;
  e_types : list str;              (* configuration.types() *)
  e_picked : nat;                  (* interactions.pickedIndex() *)
  e_sites : list Z;                (* interactions.processAvailableSites() *)
  e_rates : list Q                 (* interactions.processRates() *)
}.

(** [open(filename, "a")]: a file that does not exist is created.
    coverages_analysis.py 182, event_analysis.py 183, frequency_analysis.py 134, tof_analysis.py 142. *)
Definition append_file (f : option str) (text : str) : option str :=
  match f with None => Some text | Some t => Some (t ++ text) end.

(** scaks/__init__.py 11-16, [file_header]. *)
Definition file_header (version date : str) : str :=
  L "# This file was automatically generated by scaks (https://github.com/PytLab/scaks)." ++ [nl] ++
  L "# Version " ++ version ++ [nl] ++ L "# Date: " ++ date ++ L " " ++ [nl] ++ L "#" ++ [nl] ++
  L "# Do not make changes to this file unless you know what you are doing" ++ [nl; nl].

(** [str(n)] of a counter, coverages_analysis.py 152-178, tof_analysis.py 125-138. *)
Definition nat_text (n : nat) : str := str_of_Z (Z.of_nat n).

(** coverages_analysis.py 177-178 and elsewhere: the comment before each flush. *)
Definition flush_comment (counter : nat) : str :=
  [nl] ++ L "# -------------------- flush " ++ nat_text counter ++ L " ---------------------" ++ [nl].

(** coverages_analysis.py 152-155 and elsewhere: a list and its extension,
    [get_list_string(name_k, data)] followed by [name.extend(name_k)]. *)
Definition extension (name : str) (counter : nat) (data : list val) (ncols : Z) : res str :=
  let var_name := name ++ L "_" ++ nat_text counter in
  do list_str <- get_list_string var_name data ncols;
  Ok (list_str ++ name ++ L ".extend(" ++ var_name ++ L ")" ++ [nl; nl]).

(** [zip] of the rows (with a star). coverages_analysis.py 164. *)
Fixpoint zip_rows {A} (rows : list (list A)) : list (list A) :=
  match rows with
  | [] => []
  | [r] => map (fun x => [x]) r
  | r :: rest => map (fun p => fst p :: snd p) (combine r (zip_rows rest))
  end.

Section Plugins.
  Context (show : Q -> str) (master : bool) (header : str).

  (** A number in a list that is written, coverages_analysis.py 153-166, tof_analysis.py 126-132. *)
  Definition num (q : Q) : val := VNum (show q).

  (** *** coverages_analysis.py coverages_analysis.py 46-69 *)
  Record cov_plugin := {
    cv_times : list Q;
    cv_steps : list Z;
    cv_coverages : list (list Q);
    cv_counter : nat;
    cv_file : option str
  }.

  (** coverages_analysis.py 45-69. *)
  Definition cov_new : cov_plugin :=
    {| cv_times := []; cv_steps := []; cv_coverages := []; cv_counter := 0; cv_file := None |}.

  (** coverages_analysis.py 168-172: one extension line per type. *)
  Definition column_lines (n counter : nat) : str :=
    concat (map (fun idx => L "coverages[" ++ nat_text idx ++ L "].extend(coverages_" ++
                            nat_text counter ++ L "[" ++ nat_text idx ++ L "])" ++ [nl])
              (seq 0 n)).

  (** coverages_analysis.py 147-190, [__flush]. *)
  Definition cov_flush (possible_types : list str) (s : cov_plugin) : res cov_plugin :=
    do times_str <- extension (L "times") (cv_counter s) (map num (cv_times s)) 5;
    do steps_str <- extension (L "steps") (cv_counter s) (map VInt (cv_steps s)) 10;
    do list_str <- get_list_string (L "coverages_" ++ nat_text (cv_counter s))
                     (map (fun column => VTuple (map num column)) (zip_rows (cv_coverages s))) 1;
    let coverages_str := list_str ++ column_lines (length possible_types) (cv_counter s) in
    Ok {| cv_times := []; cv_steps := []; cv_coverages := [];
          cv_counter := S (cv_counter s);
          cv_file := append_file (cv_file s)
                       (flush_comment (cv_counter s) ++ times_str ++ steps_str ++ coverages_str) |}.

  (** coverages_analysis.py 72-93 and 108-129: the common beginning. *)
  Definition cov_record (possible_types : list str) (empty_type : str) (ratios : list Q)
      (s : cov_plugin) (e : event) : res cov_plugin :=
    do coverages <- step_coverages possible_types empty_type ratios (e_types e);
    Ok {| cv_times := cv_times s ++ [e_time e]; cv_steps := cv_steps s ++ [e_step e];
          cv_coverages := cv_coverages s ++ [coverages];
          cv_counter := cv_counter s; cv_file := cv_file s |}.

  (** coverages_analysis.py 97-99, 104: the names defined at the beginning of the file. *)
  Definition cov_variables (possible_types : list str) : res str :=
    do columns <- repr_val (VList (repeat (VList []) (length possible_types)));
    Ok (L "times = []" ++ [nl] ++ L "steps = []" ++ [nl] ++
        L "coverages = " ++ columns ++ [nl] ++ [nl]).

  (** coverages_analysis.py 100-101: the possible types, each already in quotes. *)
  Definition cov_types_text (possible_types : list str) : res str :=
    get_list_string (L "possible_types")
      (map (fun t => VStr (L "'" ++ t ++ L "'")) possible_types) 5.

  (** coverages_analysis.py 71-105, [setup]. *)
  Definition cov_setup (possible_types : list str) (empty_type : str) (ratios : list Q)
      (s : cov_plugin) (e : event) : res cov_plugin :=
    do s1 <- cov_record possible_types empty_type ratios s e;
    if master then
      do variables <- cov_variables possible_types;
      do types_str <- cov_types_text possible_types;
      Ok {| cv_times := cv_times s1; cv_steps := cv_steps s1; cv_coverages := cv_coverages s1;
            cv_counter := cv_counter s1; cv_file := Some (header ++ variables ++ types_str) |}
    else Ok s1.

  (** coverages_analysis.py 107-133, [registerStep]. *)
  Definition cov_register (possible_types : list str) (empty_type : str) (ratios : list Q)
      (buffer_size : Z) (s : cov_plugin) (e : event) : res cov_plugin :=
    do s1 <- cov_record possible_types empty_type ratios s e;
    if master && (buffer_size <=? Z.of_nat (length (cv_coverages s1)))%Z
    then cov_flush possible_types s1 else Ok s1.

  (** coverages_analysis.py 135-145, [finalize]. *)
  Definition cov_finalize (possible_types : list str) (s : cov_plugin) : res cov_plugin :=
    if master then cov_flush possible_types s else Ok s.

  (** The calls KMCLibX makes during a run: [setup] with the state at the start, [registerStep]
      for every step at which the analysis is due, [finalize]. (kmc_solver.py 104-107) *)
  Definition steps_with {S} (register : S -> event -> res S) : S -> list event -> res S :=
    fix go s es := match es with [] => Ok s | e :: t => do s' <- register s e; go s' t end.

  (** coverages_analysis.py 32-190: a whole run. *)
  Definition cov_run (possible_types : list str) (empty_type : str) (ratios : list Q)
      (buffer_size : Z) (e0 : event) (es : list event) : res cov_plugin :=
    do s <- cov_setup possible_types empty_type ratios cov_new e0;
    do s' <- steps_with (cov_register possible_types empty_type ratios buffer_size) s es;
    cov_finalize possible_types s'.

  (** [l[i] += 1]. *)
  Fixpoint count_at (l : list Z) (i : nat) : res (list Z) :=
    match l, i with
    | [], _ => Err IndexError
    | x :: t, O => Ok ((x + 1)%Z :: t)
    | x :: t, S k => do t' <- count_at t k; Ok (x :: t')
    end.

  (** [reduce(mul, repetitions)]: no initial value.
      frequency_analysis.py 122, tof_analysis.py 72. *)
  Definition reduce_mul (l : list Z) : res Z :=
    match l with [] => Err TypeError | x :: t => Ok (fold_left Z.mul t x) end.

  (** frequency_analysis.py 120-122, tof_analysis.py 70-72. *)
  Definition nsites_of (repetitions : list Z) (basis_sites : nat) : res Z :=
    do r <- reduce_mul repetitions; Ok (r * Z.of_nat basis_sites)%Z.

  (** [occurency/(nsites*delta_t)] (or the other order of the factors).
      tof_analysis.py 94, frequency_analysis.py 129. *)
  Definition rate_of (nsites : Z) (delta : Q) (n : Z) : res Q :=
    let d := (inject_Z nsites * delta)%Q in
    if Qeq_bool d 0 then Err ZeroDivisionError else Ok (inject_Z n / d)%Q.

  (** *** tof_analysis.py tof_analysis.py 43-72 *)
  Record tof_plugin := {
    tf_times : list Q;
    tf_tofs : list (list Q);
    tf_occurencies : list Z;
    tf_start : Q;
    tf_counter : nat;
    tf_file : option str
  }.

  (** tof_analysis.py 41-72; [nsites] is computed by [nsites_of] (lines 70-72). *)
  Definition tof_new (nprocess : nat) : tof_plugin :=
    {| tf_times := []; tf_tofs := []; tf_occurencies := repeat 0%Z nprocess; tf_start := 0;
       tf_counter := 0; tf_file := None |}.

  (** tof_analysis.py 75-83, [setup]. *)
  Definition tof_setup (mapping : list str) (s : tof_plugin) : res tof_plugin :=
    do mapping_str <- get_list_string (L "processes") (map VStr mapping) 1;
    Ok {| tf_times := tf_times s; tf_tofs := tf_tofs s; tf_occurencies := tf_occurencies s;
          tf_start := tf_start s; tf_counter := tf_counter s;
          tf_file := Some (header ++ L "times = []" ++ [nl] ++ L "tofs = []" ++ [nl] ++ mapping_str) |}.

  (** tof_analysis.py 120-149, [__flush]. *)
  Definition tof_flush (s : tof_plugin) : res tof_plugin :=
    do times_str <- extension (L "times") (tf_counter s) (map num (tf_times s)) 5;
    do tofs_str <- extension (L "tofs") (tf_counter s)
                     (map (fun row => VList (map num row)) (tf_tofs s)) 1;
    Ok {| tf_times := []; tf_tofs := []; tf_occurencies := tf_occurencies s;
          tf_start := tf_start s; tf_counter := S (tf_counter s);
          tf_file := append_file (tf_file s) (flush_comment (tf_counter s) ++ times_str ++ tofs_str) |}.

  (** tof_analysis.py 85-107, [registerStep]. *)
  Definition tof_register (nprocess : nat) (nsites : Z) (interval : Q) (buffer_size : Z)
      (s : tof_plugin) (e : event) : res tof_plugin :=
    do occ <- count_at (tf_occurencies s) (e_picked e);
    let delta := (e_time e - tf_start s)%Q in
    if negb (Qle_bool delta interval) then
      do tof <- mapM (rate_of nsites delta) occ;
      let s1 := {| tf_times := tf_times s ++ [tf_start s]; tf_tofs := tf_tofs s ++ [tof];
                   tf_occurencies := repeat 0%Z nprocess; tf_start := e_time e;
                   tf_counter := tf_counter s; tf_file := tf_file s |} in
      if (buffer_size <=? Z.of_nat (length (tf_times s1)))%Z && master then tof_flush s1 else Ok s1
    else Ok {| tf_times := tf_times s; tf_tofs := tf_tofs s; tf_occurencies := occ;
               tf_start := tf_start s; tf_counter := tf_counter s; tf_file := tf_file s |}.

  (** tof_analysis.py 109-118, [finalize]. *)
  Definition tof_finalize (s : tof_plugin) : res tof_plugin :=
    if master && (0 <? length (tf_times s)) then tof_flush s else Ok s.

  (** tof_analysis.py 25-149: a whole run. *)
  Definition tof_run (mapping : list str) (nprocess : nat) (repetitions : list Z) (basis_sites : nat)
      (interval : Q) (buffer_size : Z) (es : list event) : res tof_plugin :=
    do nsites <- nsites_of repetitions basis_sites;
    do s <- tof_setup mapping (tof_new nprocess);
    do s' <- steps_with (tof_register nprocess nsites interval buffer_size) s es;
    tof_finalize s'.

  (** *** frequency_analysis.py frequency_analysis.py 40-60 *)
  Record freq_plugin := {
    fq_occurencies : list Z;
    fq_steady : list Z;
    fq_start : Q;
    fq_end : Q;
    fq_file : option str
  }.

  (** frequency_analysis.py 39-60. *)
  Definition freq_new (nprocess : nat) : freq_plugin :=
    {| fq_occurencies := repeat 0%Z nprocess; fq_steady := repeat 0%Z nprocess;
       fq_start := 0; fq_end := 0; fq_file := None |}.

  (** frequency_analysis.py 62-68, [setup]. *)
  Definition freq_setup (s : freq_plugin) : freq_plugin :=
    {| fq_occurencies := fq_occurencies s; fq_steady := fq_steady s; fq_start := fq_start s;
       fq_end := fq_end s;
       fq_file := Some (header ++ L "times = []" ++ [nl] ++ L "picked_indices = []" ++ [nl] ++
                        L "process_occurencies = []" ++ [nl]) |}.

  (** frequency_analysis.py 70-86, [registerStep]. *)
  Definition freq_register (tof_start : Z) (s : freq_plugin) (e : event) : res freq_plugin :=
    do occ <- count_at (fq_occurencies s) (e_picked e);
    do (steady, start) <-
      (if (tof_start <=? e_step e)%Z then
         do st <- count_at (fq_steady s) (e_picked e);
         Ok (st, if Qeq_bool (fq_start s) 0 then e_time e else fq_start s)
       else Ok (fq_steady s, fq_start s));
    Ok {| fq_occurencies := occ; fq_steady := steady; fq_start := start; fq_end := e_time e;
          fq_file := fq_file s |}.

  (** frequency_analysis.py 99-112: [for r in set(mapping): d.setdefault(r, 0)], then
      [d[r] += n].  The order of the keys is that of a Python set, here the sorted order; the
      text written does not depend on it. *)
  Definition reaction_counts (occ : list Z) (mapping : list str) : res (dict Z) :=
    fold_left (fun r p => do d <- r;
                          do old <- dindex d (snd p);
                          Ok (dset d (snd p) (old + fst p)%Z))
      (combine occ mapping) (Ok (map (fun r => (r, 0%Z)) (sorted_set mapping))).

  (** The values as texts, frequency_analysis.py 114-117. *)
  Definition int_texts (d : dict Z) : dict str := map (fun kv => (fst kv, str_of_Z (snd kv))) d.

  (** frequency_analysis.py 88-141, [finalize]. *)
  Definition freq_finalize (mapping : list str) (repetitions : list Z) (basis_sites : nat)
      (s : freq_plugin) : res freq_plugin :=
    do occ_str <- get_list_string (L "process_occurencies") (map VInt (fq_occurencies s)) 5;
    do counts <- reaction_counts (fq_occurencies s) mapping;
    do steady <- reaction_counts (fq_steady s) mapping;
    do counts_str <- get_dict_string (L "reaction_occurencies") (int_texts counts);
    do steady_str <- get_dict_string (L "steady_reaction_occurencies") (int_texts steady);
    do nsites <- nsites_of repetitions basis_sites;
    let delta := (fq_end s - fq_start s)%Q in
    do rates <- mapM (fun kv => do r <- rate_of nsites delta (snd kv); Ok (fst kv, show r)) steady;
    do rates_str <- get_dict_string (L "reaction_rates") rates;
    Ok {| fq_occurencies := fq_occurencies s; fq_steady := fq_steady s; fq_start := fq_start s;
          fq_end := fq_end s;
          fq_file := if master
                     then append_file (fq_file s) (occ_str ++ counts_str ++ steady_str ++ rates_str)
                     else fq_file s |}.

  (** frequency_analysis.py 25-141: a whole run. *)
  Definition freq_run (mapping : list str) (nprocess : nat) (repetitions : list Z) (basis_sites : nat)
      (tof_start : Z) (es : list event) : res freq_plugin :=
    do s <- steps_with (freq_register tof_start) (freq_setup (freq_new nprocess)) es;
    freq_finalize mapping repetitions basis_sites s.

  (** *** event_analysis.py *)
  (** A row of the table: index, reaction, available sites, total rate, probability.
      event_analysis.py 161-166. *)
  Definition ev_row := (nat * str * Z * Q * Q)%type.

  (** event_analysis.py 139-168, [__get_interactions_table]. *)
  Definition interactions_table (mapping : list str) (e : event) : res (list ev_row) :=
    let total_rates := map (fun p => (inject_Z (fst p) * snd p)%Q) (combine (e_sites e) (e_rates e)) in
    do probabilities <- mapM (fun r => let s := qsum total_rates in
                                       if Qeq_bool s 0 then Err ZeroDivisionError
                                       else Ok (r / s)%Q) total_rates;
    Ok (map (fun p => match p with (i, (rxn, (n, (r, pr)))) => (i, rxn, n, r, pr) end)
         (combine (seq 0 (length mapping))
            (combine mapping (combine (e_sites e) (combine total_rates probabilities))))).

  (** [render step table picked] is the text made of a table by PrettyTable
      (event_analysis.py 110-137, [__get_table_string]); [process_table] the text of the list of
      processes with its title (70-83). *)
  Context (render : Z -> list ev_row -> nat -> str) (process_table : list str -> str).

  (** event_analysis.py 53-64. *)
  Record event_plugin := {
    ev_buffer : str;
    ev_previous : list ev_row;
    ev_counter : Z;
    ev_file : option str
  }.

  (** event_analysis.py 53-64. *)
  Definition event_new : event_plugin :=
    {| ev_buffer := []; ev_previous := []; ev_counter := 0; ev_file := None |}.

  (** event_analysis.py 66-88, [setup]. *)
  Definition event_setup (mapping : list str) (s : event_plugin) : event_plugin :=
    if master then
      {| ev_buffer := ev_buffer s; ev_previous := ev_previous s; ev_counter := ev_counter s;
         ev_file := Some (process_table mapping ++ [nl]) |}
    else s.

  (** event_analysis.py 179-187, [__flush]. *)
  Definition event_flush (s : event_plugin) : event_plugin :=
    {| ev_buffer := []; ev_previous := ev_previous s; ev_counter := 0;
       ev_file := append_file (ev_file s) (ev_buffer s) |}.

  (** event_analysis.py 90-108, [registerStep]. *)
  Definition event_register (mapping : list str) (buffer_size : Z) (s : event_plugin) (e : event)
    : res event_plugin :=
    do current <- interactions_table mapping e;
    let '(buffer, counter) :=
      match ev_previous s with
      | [] => (ev_buffer s, ev_counter s)
      | prev => (ev_buffer s ++ render (e_step e) prev (e_picked e), (ev_counter s + 1)%Z)
      end in
    let s1 := {| ev_buffer := buffer; ev_previous := current; ev_counter := counter;
                 ev_file := ev_file s |} in
    if master && (buffer_size <=? counter)%Z then Ok (event_flush s1) else Ok s1.

  (** event_analysis.py 170-177, [finalize]. *)
  Definition event_finalize (s : event_plugin) : event_plugin :=
    if master then event_flush s else s.

  (** event_analysis.py 31-187: a whole run. *)
  Definition event_run (mapping : list str) (buffer_size : Z) (es : list event) : res event_plugin :=
    do s <- steps_with (event_register mapping buffer_size) (event_setup mapping event_new) es;
    Ok (event_finalize s).
End Plugins.
