(** Model of scaks/solvers/mean_field_solver.py:116-556 (numeric part; log output and
    archiving left out) and of the rate equations of
    scaks/solvers/steady_state_solver.py:34-254.
    Multi-precision numbers are real numbers; [mpf] is the identity. *)
From Coq Require Import String Ascii List ZArith NArith Bool Arith Reals.
Import ListNotations.
From Verif Require Import PyBase Rxn_Model Species_Model PyReal Energy_Model Thermo_Model
  Rate_Model PyExpr_Model.
Open Scope list_scope.

(** A number given by the user: its value and its [str()].
    mean_field_solver.py:149, steady_state_solver.py:351. *)
Record num := { n_val : R; n_text : str }.

(** What the solver reads from its owner. mean_field_solver.py:37-48, 120-129. *)
Record setup := {
  s_exprs : list str;        (* rxn_expressions *)
  s_lists : lists;           (* adsorbate_names, gas_names, ..., elementary_rxns_list *)
  s_total : dict num;        (* species_definitions[site]['total'] *)
  s_pressure : dict R;       (* species_definitions[gas]['pressure'] *)
  s_conc : dict R            (* species_definitions[liquid]['concentration'] *)
}.

(** [d.setdefault(k, v)] mean_field_solver.py:122, 144, 154. *)
Definition dsetdefault {V} (d : dict V) (k : str) (v : V) : dict V :=
  match dget d k with Some _ => d | None => dset d k v end.

(** [classified[site].append(name)]: KeyError for an unknown site. mean_field_solver.py:127. *)
Definition dappend (d : dict (list str)) (k : str) (x : str) : res (dict (list str)) :=
  do l <- dindex d k; Ok (dset d k (l ++ [x])).

(** ["*_{}".format(ChemFormula(name).site())] mean_field_solver.py:125-126. *)
Definition site_of_name (name : str) : res str :=
  do f <- parse_formula name; Ok (L "*_" ++ f_site f).

(** [__classify_adsorbates], mean_field_solver.py:116-129. *)
Fixpoint classify_loop (d : dict (list str)) (names : list str) : res (dict (list str)) :=
  match names with
  | [] => Ok d
  | n :: t => do s <- site_of_name n; do d' <- dappend d s n; classify_loop d' t
  end.
(** Same lines: mean_field_solver.py:116-129. *)
Definition classify (s : setup) : res (dict (list str)) :=
  classify_loop (fold_left (fun d x => dsetdefault d x []) (l_site (s_lists s)) [])
                (l_ads (s_lists s)).

(** [sum_cvg += cvgs_dict[sp]], mean_field_solver.py:149-151. *)
Fixpoint sum_of (d : dict R) (acc : R) (names : list str) : res R :=
  match names with
  | [] => Ok acc
  | n :: t => do x <- dindex d n; sum_of d (acc + x)%R t
  end.

(** [_cvg_tuple2dict], mean_field_solver.py:131-156.  The first loop looks every name up
    with [index], which is its position as names are distinct. *)
Fixpoint ads_loop (names all : list str) (cvgs : list R) (d : dict R) : res (dict R) :=
  match names with
  | [] => Ok d
  | n :: t =>
      match index_of n all with
      | None => Err ValueError
      | Some i => do x <- lindex cvgs i; ads_loop t all cvgs (dsetdefault d n x)
      end
  end.
(** Same lines: mean_field_solver.py:131-156. *)
Fixpoint free_loop (s : setup) (cl : dict (list str)) (sites : list str) (d : dict R) : res (dict R) :=
  match sites with
  | [] => Ok d
  | n :: t =>
      do total <- dindex (s_total s) n;
      do names <- dindex cl n;
      do x <- sum_of d 0%R names;
      free_loop s cl t (dsetdefault d n (n_val total - x)%R)
  end.
(** Same lines: mean_field_solver.py:131-156. *)
Definition tuple2dict (s : setup) (cl : dict (list str)) (cvgs : list R) : res (dict R) :=
  do d <- ads_loop (l_ads (s_lists s)) (l_ads (s_lists s)) cvgs [];
  free_loop s cl (l_site (s_lists s)) d.

(** [_cvg_dict2tuple], mean_field_solver.py:158-165. *)
Definition dict2tuple (s : setup) (d : dict R) : res (list R) :=
  mapM (dindex d) (l_ads (s_lists s)).

(** [get_data], mean_field_solver.py:167-184. *)
Fixpoint data_loop (src : dict R) (names : list str) (d : dict R) : res (dict R) :=
  match names with
  | [] => Ok d
  | n :: t => do x <- dindex src n; data_loop src t (dsetdefault d n x)
  end.
(** Same lines: mean_field_solver.py:167-184. *)
Definition get_data (s : setup) : res (dict R * dict R) :=
  do p <- data_loop (s_pressure s) (l_gas (s_lists s)) [];
  do c <- data_loop (s_conc s) (l_liq (s_lists s)) [];
  Ok (p, c).

(** [get_rate_constants], mean_field_solver.py:186-238, without the cache: the energies
    passed in, else those of the owner.  The test [if "Gaf" and "Gar" not in ..] looks at
    "Gar" only and holds of every value of type [rel_energies]. *)
Definition rate_constants (ec : str -> R -> R -> R -> res R) (o : owner) (algo : str)
    (given own : option rel_energies) : res (list R * list R) :=
  do r <- (match given with
           | Some r => Ok r
           | None => match own with Some r => Ok r | None => Err AttributeError end
           end);
  do f <- (if str_eqb algo (L "TST") then Ok (fun e => rates_TST o e r false)
           else if str_eqb algo (L "CT") then Ok (fun e => rates_CT ec o e r false)
           else Err ValueError);
  do l <- mapM f (o_rxns o);
  Ok (map fst l, map snd l).

(** One factor of a rate expression, mean_field_solver.py:337-362.  A formula of type
    "site" has a star in its name, so the last branch is never reached. *)
Definition power_text (name : str) (n : Z) : str :=
  L "['" ++ name ++ L "']" ++ (if Z.eqb n 1 then [] else L "**" ++ str_of_Z n).
(** Same lines: mean_field_solver.py:337-362. *)
Definition factor_text (f : formula) : str :=
  let name := f_species_site f in
  if has_char "*" name then L "*theta" ++ power_text name (f_stoich f)
  else match formula_type f with
       | Adsorbate => L "*theta" ++ power_text name (f_stoich f)
       | Gas => L "*p" ++ power_text name (f_stoich f)
       | Liquid => L "*c" ++ power_text name (f_stoich f)
       | Site => []
       end.

(** [list2string], mean_field_solver.py:328-360. *)
Definition list2string (k : str) (idx : nat) (fs : list formula) : str :=
  fold_left (fun t f => t ++ factor_text f) fs (k ++ L "[" ++ dec (N.of_nat idx) ++ L "]").

(** [get_elementary_rate_expression], mean_field_solver.py:309-369. *)
Definition rate_expression (s : setup) (e : str) : res (str * str) :=
  match index_of e (s_exprs s) with
  | None => Err ValueError
  | Some idx =>
      do fls <- lindex (l_rxns (s_lists s)) idx;
      do first <- lfirst fls;
      do last <- llast fls;
      Ok (list2string (L "kf") idx first, list2string (L "kr") idx last)
  end.

(** [get_rate_expressions], mean_field_solver.py:371-383. *)
Fixpoint rate_lines (s : setup) (idx : nat) (es : list str) : res (list str * list str) :=
  match es with
  | [] => Ok ([], [])
  | e :: t =>
      do (f, r) <- rate_expression s e;
      do (fs, rs) <- rate_lines s (S idx) t;
      Ok ((L "rfs[" ++ dec (N.of_nat idx) ++ L "] = " ++ f) :: fs,
          (L "rrs[" ++ dec (N.of_nat idx) ++ L "] = " ++ r) :: rs)
  end.

(** The names visible in [exec] and [eval]. mean_field_solver.py:406-424. *)
Definition mf_env (theta p c : dict R) (kf kr : list R) : env :=
  {| env_key := fun n k =>
       if str_eqb n (L "theta") then dindex theta k
       else if str_eqb n (L "p") then dindex p k
       else if str_eqb n (L "c") then dindex c k
       else Err NameError;
     env_idx := fun n i =>
       if str_eqb n (L "kf") then lindex kf (Z.to_nat i)
       else if str_eqb n (L "kr") then lindex kr (Z.to_nat i)
       else Err NameError |}.

(** The separator of statements, mean_field_solver.py:423. *)
Definition newline : str := [ascii_of_nat 10].

(** [get_rates], mean_field_solver.py:385-432.  [data] is what [get_data] stored
    ([None]: not called yet).  If several lines fail, Python reports a syntax error of a
    later line before a run-time error of an earlier one; here the first line wins. *)
Definition rates (s : setup) (ks : res (list R * list R)) (data : option (dict R * dict R))
    (cvgs : list R) : res (list R * list R) :=
  do cl <- classify s;
  do theta <- tuple2dict s cl cvgs;
  do (kf, kr) <- ks;
  match data with
  | None => Err AttributeError
  | Some (p, c) =>
      let n := length (l_rxns (s_lists s)) in
      do (fl, rl) <- rate_lines s 0 (s_exprs s);
      let v := mf_env theta p c kf kr in
      do rfs <- exec_text v (L "rfs") (repeat 0%R n) (join newline fl);
      do rrs <- exec_text v (L "rrs") (repeat 0%R n) (join newline rl);
      Ok (rfs, rrs)
  end.

(** [get_net_rates], mean_field_solver.py:434-459. *)
Definition net_rates (s : setup) ks data cvgs : res (list R) :=
  do (rfs, rrs) <- rates s ks data cvgs;
  Ok (map (fun p => fst p - snd p)%R (combine rfs rrs)).

(** [get_reversibilities], mean_field_solver.py:461-484. *)
Definition reversibilities (rfs rrs : list R) : res (list R) :=
  if negb (Nat.eqb (length rfs) (length rrs)) then Err ValueError
  else mapM (fun p => pydiv (snd p) (fst p)) (combine rfs rrs).

(** [rate_vector*reapro_matrix], numpy product of a row by a matrix with [n] columns.
    mean_field_solver.py:512-548. *)
Definition vec_mat (v : list R) (m : list (list Z)) (n : nat) : res (list R) :=
  if negb (Nat.eqb (length v) (length m)) then Err ValueError
  else Ok (map (fun j => Rsum (map (fun p => fst p * IZR (nth j (snd p) 0%Z))%R (combine v m)))
               (seq 0 n)).

(** [get_tof], mean_field_solver.py:512-556: all, and for one gas. *)
Definition tofs (s : setup) ks data cvgs : res (list R) :=
  do nr <- net_rates s ks data cvgs;
  do (_, rm) <- stoichiometry_matrices (s_lists s);
  vec_mat nr (map (map (fun z => (z * -1)%Z)) rm)
          (length (l_gas (s_lists s) ++ l_liq (s_lists s))).
(** Same lines: mean_field_solver.py:512-556. *)
Definition tof_of (s : setup) ks data cvgs (gas : str) : res R :=
  do l <- tofs s ks data cvgs;
  match index_of gas (l_gas (s_lists s)) with
  | None => Err ParameterError
  | Some i => lindex l i
  end.

(** [boltzmann_coverages], mean_field_solver.py:270-307.  [None]: no absolute energies;
    then the data of the gases and liquids are read before the exception (287-290). *)
Definition boltzmann_coverages (s : setup) (T : R) (ed : option (dict R)) (include_empty_site : bool)
  : res (list R) :=
  match ed with
  | None => do _ <- get_data s; Err IOError
  | Some ed =>
      let weight n := do e <- dindex ed n; do x <- pydiv (- e)%R (kB_eV * T)%R; Ok (exp x) in
      do ws <- mapM weight (if include_empty_site then l_ads (s_lists s) ++ l_site (s_lists s)
                            else l_ads (s_lists s));
      mapM (fun n => do w <- weight n; pydiv w (Rsum ws)) (l_ads (s_lists s))
  end.

(** ** steady_state_solver.py *)

(** Clipping of one coverage, steady_state_solver.py:48-53 and 55-60. *)
Definition clip01 (x : R) : R := let x := if Rltb 1 x then 1%R else x in if Rltb x 0 then 0%R else x.
(** Same lines: steady_state_solver.py:48-53 and 55-60. *)
Definition clip_total (t x : R) : R := if Rltb t x then t else x.

(** The loops, steady_state_solver.py:48-53, 57-60. *)
Fixpoint clip_loop (g : R -> R) (names : list str) (d : dict R) : res (dict R) :=
  match names with
  | [] => Ok d
  | n :: t => do x <- dindex d n; clip_loop g t (dset d n (g x))
  end.
(** steady_state_solver.py:55-60. *)
Fixpoint clip_sites (s : setup) (cl : dict (list str)) (sites : list str) (d : dict R) : res (dict R) :=
  match sites with
  | [] => Ok d
  | n :: t =>
      do total <- dindex (s_total s) n;
      do names <- dindex cl n;
      do d' <- clip_loop (clip_total (n_val total)) names d;
      clip_sites s cl t d'
  end.

(** [constrain_in_total], steady_state_solver.py:62-69. *)
Fixpoint scale (d : dict R) (total mx : R) : res (dict R) :=
  match d with
  | [] => Ok []
  | (k, x) :: t => do y <- pydiv x total; do t' <- scale t total mx; Ok ((k, (y * mx)%R) :: t')
  end.
(** Same lines: steady_state_solver.py:62-69. *)
Definition constrain_in_total (d : dict R) (mx : R) : res (dict R) :=
  let total := Rsum (map snd d) in
  if Rltb mx total then scale d total mx else Ok d.

(** [d.update(d2)] *)
Definition dupdate {V} (d d2 : dict V) : dict V := fold_left (fun d kv => dset d (fst kv) (snd kv)) d2 d.

(** steady_state_solver.py:71-82 *)
Fixpoint sub_dict (d : dict R) (names : list str) (acc : dict R) : res (dict R) :=
  match names with
  | [] => Ok acc
  | n :: t => do x <- dindex d n; sub_dict d t (dsetdefault acc n x)
  end.
(** Same lines: steady_state_solver.py:71-82. *)
Fixpoint total_sites_loop (s : setup) (cl : dict (list str)) (sites : list str) (d : dict R) : res (dict R) :=
  match sites with
  | [] => Ok d
  | n :: t =>
      do total <- dindex (s_total s) n;
      do names <- dindex cl n;
      do sub <- sub_dict d names [];
      do sub' <- constrain_in_total sub (n_val total);
      total_sites_loop s cl t (dupdate d sub')
  end.

(** [__constrain_coverages], steady_state_solver.py:34-105 (the comparison at the end
    only decides about a log message). *)
Definition constrain_coverages (s : setup) (cvgs : list R) : res (list R) :=
  do cl <- classify s;
  do d0 <- tuple2dict s cl cvgs;
  do d1 <- clip_loop clip01 (l_ads (s_lists s)) d0;
  do d2 <- clip_sites s cl (l_site (s_lists s)) d1;
  do d3 <- total_sites_loop s cl (l_site (s_lists s)) d2;
  dict2tuple s d3.

(** The search for the adsorbate, steady_state_solver.py:137-149: stoichiometry and state
    index of the first formula with that name. *)
Fixpoint find_in_state (name : str) (fs : list formula) : option Z :=
  match fs with
  | [] => None
  | f :: t => if str_eqb (f_species_site f) name then Some (f_stoich f) else find_in_state name t
  end.
(** Same lines: steady_state_solver.py:137-149. *)
Fixpoint find_in_states (name : str) (i : nat) (fls : list (list formula)) : option (nat * Z) :=
  match fls with
  | [] => None
  | fs :: t => match find_in_state name fs with
               | Some n => Some (i, n)
               | None => find_in_states name (S i) t
               end
  end.

(** ["n*" + text], steady_state_solver.py:158-169. *)
Definition times_text (n : Z) (t : str) : str := if Z.eqb n 1 then t else str_of_Z n ++ L "*" ++ t.

(** [get_elementary_dtheta_dt_expression], steady_state_solver.py:107-173; [Ok None] is the
    bare [return].  A reaction without any formula leaves [current_species] unbound. *)
Definition elementary_dtheta_dt (s : setup) (name e : str) : res (option str) :=
  if negb (str_mem name (l_ads (s_lists s))) then Err ValueError
  else
    do fls <- rxn_formula_list e;
    match concat fls with
    | [] => Err UnboundLocalError
    | _ =>
      match find_in_states name 0 fls with
      | None => Ok None
      | Some (i, n) =>
          do (f, r) <- rate_expression s e;
          Ok (Some (match i with
                    | O => times_text n r ++ L " - " ++ times_text n f
                    | S _ => times_text n f ++ L " - " ++ times_text n r
                    end))
      end
    end.

(** [get_adsorbate_dtheta_dt_expression], steady_state_solver.py:175-199 (an expression is
    never the empty text). *)
Fixpoint adsorbate_terms (s : setup) (name : str) (es : list str) : res (list str) :=
  match es with
  | [] => Ok []
  | e :: t =>
      do o <- elementary_dtheta_dt s name e;
      do l <- adsorbate_terms s name t;
      Ok (match o with None => l | Some x => x :: l end)
  end.
(** Same lines: steady_state_solver.py:175-199. *)
Definition adsorbate_dtheta_dt (s : setup) (name : str) : res str :=
  do l <- adsorbate_terms s name (s_exprs s); Ok (join (L " + ") l).

(** [get_dtheta_dt_expressions], steady_state_solver.py:201-220. *)
Fixpoint dtheta_lines (s : setup) (idx : nat) (names : list str) : res (list str) :=
  match names with
  | [] => Ok []
  | n :: t =>
      do x <- adsorbate_dtheta_dt s n;
      do l <- dtheta_lines s (S idx) t;
      Ok ((L "dtheta_dt[" ++ dec (N.of_nat idx) ++ L "] = " ++ x) :: l)
  end.
(** Same lines: steady_state_solver.py:201-220. *)
Definition dtheta_dt_expressions (s : setup) : res (list str) :=
  dtheta_lines s 0 (l_ads (s_lists s)).

(** [steady_state_function], steady_state_solver.py:222-254. *)
Definition steady_state_function (s : setup) ks (data : option (dict R * dict R)) (cvgs : list R)
  : res (list R) :=
  do cl <- classify s;
  do theta <- tuple2dict s cl cvgs;
  do (kf, kr) <- ks;
  match data with
  | None => Err AttributeError
  | Some (p, c) =>
      do lines <- dtheta_dt_expressions s;
      exec_text (mf_env theta p c kf kr) (L "dtheta_dt")
        (repeat 0%R (length (l_ads (s_lists s)))) (join newline lines)
  end.
