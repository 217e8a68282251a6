(** Generation of the processes of a kinetic Monte Carlo simulation
    (scaks/solvers/kmc_solver.py, scaks/utilities/check_utilities.py). *)
From Coq Require Import String Ascii List ZArith NArith Bool Arith QArith Qabs.
Import ListNotations.
From Verif Require Import PyBase.
Local Open Scope list_scope.
Local Open Scope nat_scope.

(** Values that a process definition file can hold.  Floats are exact rationals.
    kmc_parser.py:222. *)
Inductive pv :=
| PStr (s : str) | PInt (z : Z) | PFloat (q : Q) | PBool (b : bool) | PNone
| PList (l : list pv) | PTuple (l : list pv).

(** Types that are asked for, check_utilities.py 153-189. *)
Inductive ptype := TStr | TInt | TFloat | TList.

(** [isinstance(v, t)]: a bool is an int. check_utilities.py 27-33. *)
Definition isinstance (v : pv) (t : ptype) : bool :=
  match v, t with
  | PStr _, TStr | PInt _, TInt | PBool _, TInt | PFloat _, TFloat | PList _, TList => true
  | _, _ => false
  end.

(** The items of a list or tuple; a text is iterable too but is never reached here.
    check_utilities.py 22-29. *)
Definition items (v : pv) : option (list pv) :=
  match v with PList l | PTuple l => Some l | _ => None end.

(** scaks/utilities/check_utilities.py 11-35, [check_sequence]; returns the items. *)
Definition check_sequence (v : pv) (t : ptype) : res (list pv) :=
  match items v with
  | None => Err SetupError
  | Some l => if forallb (fun e => isinstance e t) l then Ok l else Err SetupError
  end.

(** scaks/utilities/check_utilities.py 38-59, [check_string]. *)
Definition check_string (v : pv) (range : list str) : res str :=
  match v with
  | PStr s => if str_mem s range then Ok s else Err SetupError
  | _ => Err SetupError
  end.

(** Tolerance of line 208; the double 1e-6 is taken as exactly 1/1000000. *)
Definition coord_tol : Q := 1 # 1000000.

(** check_utilities.py 206-210, [equal]: no pair of entries differs by more than the tolerance. *)
Fixpoint coord_equal (tol : Q) (a b : list Q) : bool :=
  match a, b with
  | x :: a', y :: b' =>
      if negb (Qle_bool (Qabs (x - y)) tol) then false else coord_equal tol a' b'
  | _, _ => true
  end.

(** [itertools.combinations(l, 2)]. *)
Fixpoint pairs_of {A} (l : list A) : list (A * A) :=
  match l with
  | [] => []
  | x :: t => map (fun y => (x, y)) t ++ pairs_of t
  end.

(** check_utilities.py 195-218, [check_process_coordinates]. *)
Definition check_process_coordinates (coords : list (list Q)) : res unit :=
  if existsb (fun p => coord_equal coord_tol (fst p) (snd p)) (pairs_of coords)
  then Err SetupError else Ok tt.

(** The floats of a checked coordinate. check_utilities.py 163-175. *)
Definition float_of (v : pv) : Q := match v with PFloat q => q | _ => 0 end.

(** check_utilities.py 163-175: one set of coordinates. *)
Definition check_coords (v : pv) : res (list (list Q)) :=
  do l <- check_sequence v TList;
  do cs <- mapM (fun c => do es <- check_sequence c TFloat;
                          if (length es =? 3)%nat then Ok (map float_of es) else Err SetupError) l;
  do _ <- check_process_coordinates cs;
  Ok cs.

(** A checked process definition. check_utilities.py 138-192. *)
Record checked := {
  c_reaction : str;
  c_group : list (list (list Q));
  c_before : pv;                      (* list or tuple of texts *)
  c_after : pv;
  c_sites : list pv
}.

(** check_utilities.py 144-150. *)
Definition essential_keys : list str :=
  [L "reaction"; L "coordinates_group"; L "elements_before"; L "elements_after"; L "basis_sites"].

(** [process_dict[key]] for a key that is there, check_utilities.py 153-189. *)
Definition get_key (d : dict pv) (k : string) : pv :=
  match dget d (L k) with Some v => v | None => PNone end.

(** check_utilities.py 138-192, [check_process_dict]; besides accepting or rejecting it
    returns the values it has looked at. *)
Definition check_process_dict (d : dict pv) : res checked :=
  if negb (forallb (fun k => dmem d k) essential_keys) then Err SetupError
  else match get_key d "reaction" with
  | PStr rxn =>
      do group <- check_sequence (get_key d "coordinates_group") TList;
      do cgroup <- mapM check_coords group;
      do _ <- mapM (fun key : string =>
                do es <- check_sequence (get_key d key) TStr;
                mapM (fun cs => if (length es =? length (A:=list Q) cs)%nat then Ok tt
                                else Err SetupError) cgroup)
                ["elements_before"; "elements_after"]%string;
      do sites <- check_sequence (get_key d "basis_sites") TInt;
      Ok {| c_reaction := rxn; c_group := cgroup;
            c_before := get_key d "elements_before"; c_after := get_key d "elements_after";
            c_sites := sites |}
  | _ => Err SetupError
  end.

(** Python's truth value. kmc_solver.py 169-202. *)
Definition truthy (v : pv) : bool :=
  match v with
  | PStr s => match s with [] => false | _ => true end
  | PInt z => negb (z =? 0)%Z
  | PFloat q => negb (Qeq_bool q 0)
  | PBool b => b
  | PNone => false
  | PList l | PTuple l => match l with [] => false | _ => true end
  end.

(** [list + list], [tuple + tuple]; mixing the two is a TypeError. kmc_solver.py 135. *)
Definition py_concat (a b : pv) : res (list pv) :=
  match a, b with
  | PList x, PList y => Ok (x ++ y)
  | PTuple x, PTuple y => Ok (x ++ y)
  | _, _ => Err TypeError
  end.

Section Generation.
  (** Type of rate constants. *)
  Context {K : Type}.

  (** Arguments of [KMCLib.KMCProcess] (the constructor itself is KMCLibX's and is taken to
      accept them). kmc_solver.py 174-181, 203-208. *)
  Record kmc_process := {
    p_coordinates : list (list Q);
    p_before : pv;
    p_after : pv;
    p_site : pv;
    p_rate : K;
    p_fast : bool;
    p_redist : bool;
    p_redist_species : pv
  }.

  (** What the solver reads from the model; [rates_CT] and [rates_TST] stand for
      [get_rxn_rates_CT] and [get_rxn_rates_TST] with the model's relative energies and
      [include_pressure=True] (Rate_Model.v). kmc_solver.py 128-153. *)
  Record owner := {
    rxn_expressions : list str;
    possible_element_types : list str;
    rate_algo : str;
    rates_CT : str -> res (K * K);
    rates_TST : str -> res (K * K)
  }.

  (** kmc_solver.py 145-153: neither algorithm leaves [rf] and [rr] unbound. *)
  Definition rates (o : owner) (rxn : str) : res (K * K) :=
    if str_eqb (rate_algo o) (L "CT") then rates_CT o rxn
    else if str_eqb (rate_algo o) (L "TST") then rates_TST o rxn
    else Err UnboundLocalError.

  (** kmc_solver.py 137-143. *)
  Definition check_elements (o : owner) (l : list pv) : res unit :=
    if forallb (fun e => match e with
                         | PStr s => str_eqb s (L "*") || str_mem s (possible_element_types o)
                         | _ => false
                         end) l
    then Ok tt else Err SetupError.

  (** kmc_solver.py 167-214: the two loops; the processes and the mapping entries of one
      definition. *)
  Definition one_orientation (c : checked) (rf rr : K) (fast redist : bool) (species : pv)
      (site : pv) (coords : list (list Q)) : list kmc_process * list str :=
    let fprocess := {| p_coordinates := coords; p_before := c_before c; p_after := c_after c;
                       p_site := site; p_rate := rf; p_fast := fast; p_redist := redist;
                       p_redist_species := species |} in
    let rprocess := {| p_coordinates := coords; p_before := c_after c; p_after := c_before c;
                       p_site := site; p_rate := rr; p_fast := fast; p_redist := false;
                       p_redist_species := PNone |} in
    (fprocess :: (if redist then [] else [rprocess]),
     if fast then [] else [c_reaction c ++ L "(->)"; c_reaction c ++ L "(<-)"]).

  (** kmc_solver.py 164-214. *)
  Definition orientations (c : checked) (rf rr : K) (fast redist : bool) (species : pv)
    : list (list kmc_process * list str) :=
    flat_map (fun site => map (one_orientation c rf rr fast redist species site) (c_group c))
      (c_sites c).

  (** kmc_solver.py 119-226, [__get_single_process].  The second result is what is appended
      to the process mapping (nothing before the loops can raise after an append). *)
  Definition get_single_process (o : owner) (d : dict pv) : res (list kmc_process * list str) :=
    do c <- check_process_dict d;
    if negb (str_mem (c_reaction c) (rxn_expressions o)) then Err SetupError
    else
      do all_elements <- py_concat (c_before c) (c_after c);
      do _ <- check_elements o all_elements;
      do (rf, rr) <- rates o (c_reaction c);
      let fast := match dget d (L "fast") with Some v => truthy v | None => false end in
      let redist := match dget d (L "redist") with Some v => truthy v | None => false end in
      let species := match dget d (L "redist_species") with Some v => v | None => PNone end in
      let os := orientations c rf rr fast redist species in
      Ok (concat (map fst os), concat (map snd os)).

  (** kmc_solver.py 110-117, [get_processes]: the mapping is extended even if a later
      definition is rejected.  Returns the processes and the mapping afterwards. *)
  Fixpoint get_processes (o : owner) (mapping : list str) (ds : list (dict pv))
    : res (list kmc_process) * list str :=
    match ds with
    | [] => (Ok [], mapping)
    | d :: t =>
        match get_single_process o d with
        | Err e => (Err e, mapping)
        | Ok (ps, m) =>
            match get_processes o (mapping ++ m) t with
            | (Ok rest, m') => (Ok (ps ++ rest), m')
            | (Err e, m') => (Err e, m')
            end
        end
    end.

  (** Solver state: the mapping and the cached processes. kmc_solver.py 45, 110-117. *)
  Record solver := { process_mapping : list str; cached : option (list kmc_process) }.

  (** A new solver, kmc_solver.py 45. *)
  Definition new_solver : solver := {| process_mapping := []; cached := None |}.

  (** kmc_solver.py 390-399, [processes]. *)
  Definition processes (o : owner) (ds : list (dict pv)) (s : solver)
    : res (list kmc_process) * solver :=
    match cached s with
    | Some ps => (Ok ps, s)
    | None =>
        match get_processes o (process_mapping s) ds with
        | (Ok ps, m) => (Ok ps, {| process_mapping := m; cached := Some ps |})
        | (Err e, m) => (Err e, {| process_mapping := m; cached := None |})
        end
    end.
End Generation.
Arguments kmc_process : clear implicits.
Arguments owner : clear implicits.
Arguments solver : clear implicits.
