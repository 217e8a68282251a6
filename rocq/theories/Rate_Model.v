(** Model of scaks/solvers/solver_base.py (whole file, log output left out).  The
    multi-precision branch of [get_kTST] is the same formula. *)
From Coq Require Import String Ascii List ZArith QArith Qreals Bool Arith Reals.
Import ListNotations.
From Verif Require Import PyBase Rxn_Model Mol_Model PyReal Energy_Model Thermo_Model.
Open Scope list_scope.

(** [get_kTST(Ga, T)], solver_base.py:26-45. *)
Definition kTST (Ga T : R) : res R :=
  do a <- pydiv (kB_eV * T)%R h_eV;
  do x <- pydiv (- Ga)%R (kB_eV * T)%R;
  Ok (a * exp x)%R.

(** [get_kCT(Ea, Auc, act_ratio, m, T, p, f)], solver_base.py:47-90. *)
Definition kCT (Ea Auc act_ratio m T p f : R) : res R :=
  if Rltb 1 act_ratio then Err ParameterError
  else if Rltb 1 f then Err ParameterError
  else
    do x <- pydiv (- Ea)%R (kB_eV * T)%R;
    let s := (f * act_ratio * exp x)%R in
    do r <- pysqrt (2 * PI * m * kB_J * T)%R;
    pydiv (s * (p * Auc))%R r.

(** [get_TST_barrier_from_CT(kCT, T)], solver_base.py:92-105. *)
Definition barrier_from_CT (k T : R) : res R :=
  do x <- pydiv (k * h_eV)%R (kB_eV * T)%R;
  do l <- pylog x;
  Ok (- l * (kB_eV * T))%R.

(** [_get_relative_energies], solver_base.py:346-358. *)
Definition rxn_energies (o : owner) (r : rel_energies) (e : str) : res (R * R * R) :=
  match index_of e (o_rxns o) with
  | None => Err ValueError
  | Some i => rel_get r i
  end.

(** [reduce(mul, pressures) if pressures else 1.0], solver_base.py:153-154. *)
Definition product (l : list R) : R :=
  match l with [] => 1%R | x :: t => fold_left Rmult t x end.

(** [get_rxn_rates_TST], solver_base.py:107-170. *)
Definition rates_TST (o : owner) (e : str) (r : rel_energies) (include_pressure : bool)
  : res (R * R) :=
  do t <- rxn_energies o r e;
  let '(gaf, gar, dg) := t in
  do rf <- kTST gaf (o_T o);
  do rr <- kTST gar (o_T o);
  if include_pressure then
    do ads <- rxn_adsorption_gases e;
    do ps <- mapM (fun g => pressure_of o (f_text g)) ads;
    do des <- rxn_desorption_gases e;
    do qs <- mapM (fun g => pressure_of o (f_text g)) des;
    Ok (product ps * rf, product qs * rr)%R
  else Ok (rf, rr).

(** First formula of type gas: [types.index("gas")]. solver_base.py:232, 286. *)
Fixpoint first_gas (fs : list formula) : option formula :=
  match fs with
  | [] => None
  | f :: t => if is_gas f then Some f else first_gas t
  end.

(** The pressure used with the gas, solver_base.py:235-238, 285-288. *)
Definition gas_pressure (o : owner) (include_pressure : bool) (gas : str) : res R :=
  if include_pressure then do p <- pressure_of o gas; Ok (P0 * p)%R else Ok P0.

(** [get_rxn_rates_CT], solver_base.py:172-344.  [ec] is the method [entropy_correction]
    of the corrector. *)
Definition rates_CT (ec : str -> R -> R -> R -> res R)
    (o : owner) (e : str) (r : rel_energies) (include_pressure : bool) : res (R * R) :=
  do t <- rxn_energies o r e;
  let '(gaf, gar, dg) := t in
  do fls <- rxn_formula_list e;
  do istate <- lfirst fls;
  do fstate <- llast fls;
  if negb (Rltb 0 (o_Auc o)) then Err AttributeError
  else if o_corrector_str o then Err SetupError
  else
    match first_gas istate with
    | Some f =>
        do m <- molecular_mass (f_species f) true;
        do p <- gas_pressure o include_pressure (f_text f);
        do rf <- kCT gaf (o_Auc o) (o_act_ratio o) (Q2R m) (o_T o) p 1;
        do gaf_tst <- barrier_from_CT rf (o_T o);
        do c <- ec (f_text f) (Q2R m) p (o_T o);
        let dg' := (dg - IZR (f_stoich f) * c)%R in
        let gar_tst := (gaf_tst - dg')%R in
        let gar_tst := if Rltb gar_tst 0 then 0%R else gar_tst in
        do rr <- kTST gar_tst (o_T o);
        Ok (rf, rr)
    | None =>
        match first_gas fstate with
        | Some f =>
            do p <- gas_pressure o include_pressure (f_text f);
            do m <- molecular_mass (f_species f) true;
            do c <- ec (f_text f) (Q2R m) p (o_T o);
            do rr <- kTST (gar - IZR (f_stoich f) * c)%R (o_T o);
            do rf <- kTST gaf (o_T o);
            Ok (rf, rr)
        | None =>
            do rf <- kTST gaf (o_T o);
            do rr <- kTST gar (o_T o);
            Ok (rf, rr)
        end
    end.
