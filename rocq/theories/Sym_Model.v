(** Model of the symbolic part of scaks/solvers/mean_field_solver.py:617-1068 and of
    scaks/solvers/steady_state_solver.py:503-664 (log output and archiving left out).

    A sympy expression is kept as the tree the code builds; sympy's rearrangements do not change
    its value.  Two symbols are equal if their names are.  [evalf] followed by [mpf] or [float]
    gives the real number; an expression with a symbol left over cannot be converted (TypeError);
    a division by zero is out of the model. *)
From Coq Require Import String Ascii List ZArith NArith Bool Arith Reals.
Import ListNotations.
From Verif Require Import PyBase Rxn_Model Species_Model PyReal Energy_Model Thermo_Model Rate_Model MF_Model.
Local Open Scope list_scope.

(** mean_field_solver.py:622-672. *)
Inductive sexpr :=
| SNum (x : R)
| SSym (n : str)
| SAdd (a b : sexpr)
| SSub (a b : sexpr)
| SMul (a b : sexpr)
| SDiv (a b : sexpr)
| SNeg (a : sexpr)
| SPow (a : sexpr) (n : nat)
| SExp (a : sexpr).

(** [mpf(expr.evalf(subs=d))] (mean_field_solver.py:911, 938) *)
Fixpoint sev (d : dict R) (e : sexpr) : res R :=
  match e with
  | SNum x => Ok x
  | SSym n => match dget d n with Some x => Ok x | None => Err TypeError end
  | SAdd a b => do x <- sev d a; do y <- sev d b; Ok (x + y)%R
  | SSub a b => do x <- sev d a; do y <- sev d b; Ok (x - y)%R
  | SMul a b => do x <- sev d a; do y <- sev d b; Ok (x * y)%R
  | SDiv a b => do x <- sev d a; do y <- sev d b; if Reqb y 0 then Err Unsupported else Ok (x / y)%R
  | SNeg a => do x <- sev d a; Ok (- x)%R
  | SPow a n => do x <- sev d a; Ok (x ^ n)%R
  | SExp a => do x <- sev d a; Ok (exp x)
  end.

(** [Derivative(e, x).doit()]: the rules of differentiation. steady_state_solver.py:636. *)
Fixpoint sdiff (x : str) (e : sexpr) : sexpr :=
  match e with
  | SNum _ => SNum 0
  | SSym n => if str_eqb n x then SNum 1 else SNum 0
  | SAdd a b => SAdd (sdiff x a) (sdiff x b)
  | SSub a b => SSub (sdiff x a) (sdiff x b)
  | SMul a b => SAdd (SMul (sdiff x a) b) (SMul a (sdiff x b))
  | SDiv a b => SDiv (SSub (SMul (sdiff x a) b) (SMul a (sdiff x b))) (SMul b b)
  | SNeg a => SNeg (sdiff x a)
  | SPow a n => SMul (SMul (SNum (INR n)) (SPow a (pred n))) (sdiff x a)
  | SExp a => SMul (SExp a) (sdiff x a)
  end.

(** mean_field_solver.py:622-672. *)
Record symbols := {
  y_p : list sexpr; y_c : list sexpr; y_ads : list sexpr; y_free : list sexpr;
  y_Ga : list sexpr; y_dG : list sexpr; y_K : list sexpr
}.

(** [symbol_tup[sp_list.index(sp_name)]], mean_field_solver.py:708-715. *)
Definition pick (names : list str) (l : list sexpr) (name : str) : res sexpr :=
  match index_of name names with
  | None => Err ParameterError
  | Some i => lindex l i
  end.

(** Free sites: [total - theta - ...], mean_field_solver.py:644-651. *)
Fixpoint minus_all (names : list str) (l : list sexpr) (acc : sexpr) (subtract : list str) : res sexpr :=
  match subtract with
  | [] => Ok acc
  | n :: t => do x <- pick names l n; minus_all names l (SSub acc x) t
  end.

(** mean_field_solver.py:653-672. *)
Definition indexed (prefix : str) (n : nat) : list sexpr :=
  map (fun i => SSym (prefix ++ dec (N.of_nat i))) (seq 0 n).

(** [get_data_symbols], mean_field_solver.py:622-673. *)
Definition data_symbols (s : setup) (cl : dict (list str)) : res symbols :=
  let ads := map (fun n => SSym (L "theta_" ++ n)) (l_ads (s_lists s)) in
  do free <- mapM (fun site =>
      do total <- dindex (s_total s) site;
      do names <- dindex cl site;
      minus_all (l_ads (s_lists s)) ads (SNum (n_val total)) names) (l_site (s_lists s));
  Ok {| y_p := map (fun n => SSym (L "p_" ++ n)) (l_gas (s_lists s));
        y_c := map (fun n => SSym (L "c_" ++ n)) (l_liq (s_lists s));
        y_ads := ads; y_free := free;
        y_Ga := indexed (L "Ga_") (length (s_exprs s));
        y_dG := indexed (L "dG_") (length (s_exprs s));
        y_K := indexed (L "K_") (length (l_rxns (s_lists s))) |}.

(** [_extract_symbol], mean_field_solver.py:675-717. *)
Definition extract (s : setup) (y : symbols) (name symbol_type : str) : res sexpr :=
  if str_eqb symbol_type (L "pressure") then pick (l_gas (s_lists s)) (y_p y) name
  else if str_eqb symbol_type (L "concentration") then pick (l_liq (s_lists s)) (y_c y) name
  else if str_eqb symbol_type (L "ads_cvg") then pick (l_ads (s_lists s)) (y_ads y) name
  else if str_eqb symbol_type (L "free_site_cvg") then pick (l_site (s_lists s)) (y_free y) name
  else Err ValueError.

(** mean_field_solver.py:41. *)
Definition kB_sym : sexpr := SSym (L "kB").
(** mean_field_solver.py:41. *)
Definition h_sym : sexpr := SSym (L "h").
(** mean_field_solver.py:41. *)
Definition T_sym : sexpr := SSym (L "T").

(** [kB*T/h*E**(-G/(kB*T))], mean_field_solver.py:770-774. *)
Definition tst_sym (g : sexpr) : sexpr :=
  SMul (SDiv (SMul kB_sym T_sym) h_sym) (SExp (SDiv (SNeg g) (SMul kB_sym T_sym))).

(** [get_rate_constant_syms], mean_field_solver.py:756-776. *)
Definition rate_constant_syms (y : symbols) : list sexpr * list sexpr :=
  (map (fun p => tst_sym (fst p)) (combine (y_Ga y) (y_dG y)),
   map (fun p => tst_sym (SSub (fst p) (snd p))) (combine (y_Ga y) (y_dG y))).

(** [get_equilibrium_constant_syms], mean_field_solver.py:737-754. *)
Definition equilibrium_syms (y : symbols) : list sexpr :=
  let (kf, kr) := rate_constant_syms y in map (fun p => SDiv (fst p) (snd p)) (combine kf kr).

(** The kind of symbol of a formula, mean_field_solver.py:812-820. *)
Definition symbol_type (f : formula) : str :=
  match formula_type f with
  | Gas => L "pressure"
  | Liquid => L "concentration"
  | Site => L "free_site_cvg"
  | Adsorbate => L "ads_cvg"
  end.

(** [rate_sym *= sp_data_sym**stoichiometry], mean_field_solver.py:802-823. *)
Fixpoint rate_product (s : setup) (y : symbols) (acc : sexpr) (fs : list formula) : res sexpr :=
  match fs with
  | [] => Ok acc
  | f :: t =>
      do x <- extract s y (f_species_site f) (symbol_type f);
      rate_product s y (SMul acc (SPow x (Z.to_nat (f_stoich f)))) t
  end.

(** [get_elementary_rate_sym], mean_field_solver.py:778-827. *)
Definition elementary_rate_sym (s : setup) (y : symbols) (e : str) : res (sexpr * sexpr) :=
  match index_of e (s_exprs s) with
  | None => Err ValueError
  | Some idx =>
      let (kfs, krs) := rate_constant_syms y in
      do kf <- lindex kfs idx;
      do kr <- lindex krs idx;
      do fls <- rxn_formula_list e;
      do first <- lfirst fls;
      do rf <- rate_product s y kf first;
      do last <- llast fls;
      do rr <- rate_product s y kr last;
      Ok (rf, rr)
  end.

(** [get_rate_syms], mean_field_solver.py:829-855. *)
Definition rate_syms (s : setup) (y : symbols) : res (list sexpr * list sexpr) :=
  do l <- mapM (elementary_rate_sym s y) (s_exprs s);
  Ok (map fst l, map snd l).

(** What [log_latex=True] appends to formulas.tex, mean_field_solver.py:102-110, 719-735 and
    843-853, for the forward and then for the reverse rates; [latex] is sympy's printer. *)
Fixpoint latex_lines (latex : sexpr -> str) (part1 part2 : str) (i : nat) (l : list sexpr) : str :=
  match l with
  | [] => []
  | e :: t => part1 ++ dec (N.of_nat (S i)) ++ part2 ++ L " = " ++ latex e ++ L "\\" ++ newline
              ++ latex_lines latex part1 part2 (S i) t
  end.
(** Same lines: mean_field_solver.py:102-110, 719-735 and 843-853. *)
Definition log_rates (latex : sexpr -> str) (s : setup) (y : symbols) : res str :=
  do (rf, rr) <- rate_syms s y;
  Ok (latex_lines latex (L "r_{f") (L "^{+}}") 0 rf ++ newline ++
      latex_lines latex (L "r_{r") (L "^{-}}") 0 rr ++ newline).

(** [for sym, x in zip(..): d.setdefault(sym, x)]; every key is a plain symbol.
    mean_field_solver.py:949-996. *)
Definition sym_name (e : sexpr) : str := match e with SSym n => n | _ => [] end.
(** mean_field_solver.py:949-996. *)
Definition subs_pairs (l : list sexpr) (xs : list R) (d : dict R) : dict R :=
  fold_left (fun d p => dsetdefault d (sym_name (fst p)) (snd p)) (combine l xs) d.

(** [_get_G_subs_dict], mean_field_solver.py:945-958. *)
Definition G_subs (y : symbols) (r : rel_energies) : dict R :=
  subs_pairs (y_dG y) (r_dG r) (subs_pairs (y_Ga y) (r_Gaf r) []).

(** [_get_p_subs_dict], mean_field_solver.py:971-982. *)
Fixpoint p_subs (src : dict R) (l : list sexpr) (names : list str) (d : dict R) : res (dict R) :=
  match l, names with
  | e :: l', n :: t => do x <- dindex src n; p_subs src l' t (dsetdefault d (sym_name e) x)
  | _, _ => Ok d
  end.

(** [_get_c_subs_dict], mean_field_solver.py:984-994: the table is asked for the whole tuple of
    names, which is no key of it. *)
Definition c_subs (y : symbols) (names : list str) : res (dict R) :=
  match combine (y_c y) names with
  | [] => Ok []
  | _ :: _ => Err KeyError
  end.

(** mean_field_solver.py:43-47 *)
Definition constants_subs (T : R) : dict R :=
  [(L "kB", kB_eV); (L "h", h_eV); (L "T", T)].

(** [get_subs_dict], mean_field_solver.py:857-895.  [data]: what [get_data] stored, if it was
    called.  Coverages are passed as a tuple; an empty one counts as none. *)
Definition subs_dict (s : setup) (y : symbols) (T : R) (r : rel_energies)
    (data : option (dict R * dict R)) (cvgs : option (list R)) : res (dict R) :=
  let G := G_subs y r in
  let theta := match cvgs with Some (x :: t) => Some (subs_pairs (y_ads y) (x :: t) []) | _ => None end in
  do p <- (match y_p y, data with
           | [], _ => Ok []
           | _, None => Err AttributeError
           | l, Some (p, _) => p_subs p l (l_gas (s_lists s)) []
           end);
  do c <- (match combine (y_c y) (l_liq (s_lists s)), data with
           | [], _ => Ok []
           | _, None => Err AttributeError
           | _, Some _ => c_subs y (l_liq (s_lists s))
           end);
  Ok (fold_left dupdate
        (match theta with
         | Some th => [G; th; constants_subs T; p; c]
         | None => [G; constants_subs T; p; c]
         end) []).

(** [get_rate_constants_by_sym], mean_field_solver.py:897-917. *)
Definition rate_constants_by_sym s y T r data : res (list R * list R) :=
  let (kf, kr) := rate_constant_syms y in
  do d <- subs_dict s y T r data None;
  do a <- mapM (sev d) kf;
  do b <- mapM (sev d) kr;
  Ok (a, b).

(** [get_rates_by_sym], mean_field_solver.py:919-943. *)
Definition rates_by_sym s y T r data (cvgs : list R) : res (list R * list R) :=
  do (rf, rr) <- rate_syms s y;
  do d <- subs_dict s y T r data (Some cvgs);
  do a <- mapM (sev d) rf;
  do b <- mapM (sev d) rr;
  Ok (a, b).

(** [get_net_rate_syms], mean_field_solver.py:996-1005. *)
Definition net_rate_syms s y : res (list sexpr) :=
  do (rf, rr) <- rate_syms s y;
  Ok (map (fun p => SSub (fst p) (snd p)) (combine rf rr)).

(** [get_net_rates_by_sym], mean_field_solver.py:1007-1032. *)
Definition net_rates_by_sym s y T r data (cvgs : list R) : res (list R) :=
  do l <- net_rate_syms s y;
  do d <- subs_dict s y T r data (Some cvgs);
  mapM (sev d) l.

(** [get_tof_syms], mean_field_solver.py:1034-1049: the row of net rates times minus the matrix
    of the gases and liquids.  Shapes that do not fit are out of the model. *)
Definition sym_sum (l : list sexpr) : sexpr := fold_left SAdd l (SNum 0).
(** Same lines: mean_field_solver.py:1034-1049. *)
Definition tof_syms s y : res (list sexpr) :=
  do (_, rm) <- stoichiometry_matrices (s_lists s);
  do l <- net_rate_syms s y;
  if negb (Nat.eqb (length l) (length rm)) then Err Unsupported
  else Ok (map (fun j => sym_sum (map (fun p => SMul (fst p) (SNum (- IZR (nth j (snd p) 0%Z)))) (combine l rm)))
               (seq 0 (length (l_gas (s_lists s) ++ l_liq (s_lists s))))).

(** [get_tof_by_sym], mean_field_solver.py:1051-1068. *)
Definition tof_by_sym s y T r data (cvgs : list R) : res (list R) :=
  do l <- tof_syms s y;
  do d <- subs_dict s y T r data (Some cvgs);
  mapM (sev d) l.

(** ** steady_state_solver.py *)

(** [get_elementary_dtheta_dt_sym], steady_state_solver.py:503-552; [Ok None] is the bare
    [return]. *)
Definition elementary_dtheta_sym s y (name e : str) : res (option sexpr) :=
  if negb (str_mem name (l_ads (s_lists s))) then Err ParameterError
  else if negb (str_mem e (s_exprs s)) then Err ParameterError
  else
    do fls <- rxn_formula_list e;
    match concat fls with
    | [] => Err UnboundLocalError
    | _ =>
      match find_in_states name 0 fls with
      | None => Ok None
      | Some (i, _) =>
          do (rf, rr) <- elementary_rate_sym s y e;
          Ok (Some (match i with
                    | O => SAdd (SNeg rf) rr
                    | S _ => SSub rf rr
                    end))
      end
    end.

(** [get_adsorbate_dtheta_dt_sym], steady_state_solver.py:554-574; [None] is the integer 0 of an
    empty sum. *)
Definition add_sym (acc : option sexpr) (x : sexpr) : sexpr :=
  match acc with None => x | Some a => SAdd a x end.
(** Same lines: steady_state_solver.py:554-574. *)
Fixpoint adsorbate_sum s y (name : str) (acc : option sexpr) (es : list str) : res (option sexpr) :=
  match es with
  | [] => Ok acc
  | e :: t =>
      do o <- elementary_dtheta_sym s y name e;
      adsorbate_sum s y name (match o with None => acc | Some x => Some (add_sym acc x) end) t
  end.
(** Same lines: steady_state_solver.py:554-574. *)
Definition adsorbate_dtheta_sym s y name : res (option sexpr) := adsorbate_sum s y name None (s_exprs s).

(** [get_dtheta_dt_syms], steady_state_solver.py:576-597: asked to log, it reads an attribute
    that does not exist. *)
Definition dtheta_syms s y (log_latex : bool) : res (list (option sexpr)) :=
  do l <- mapM (adsorbate_dtheta_sym s y) (l_ads (s_lists s));
  if log_latex then Err AttributeError else Ok l.

(** [steady_state_function_by_sym], steady_state_solver.py:599-617: an integer has no [evalf]. *)
Definition steady_state_by_sym s y T r data (cvgs : list R) : res (list R) :=
  do l <- dtheta_syms s y false;
  do d <- subs_dict s y T r data (Some cvgs);
  mapM (fun o => match o with None => Err AttributeError | Some e => sev d e end) l.

(** [m[i][j] = x] (steady_state_solver.py:636) *)
Fixpoint lset {A} (l : list A) (i : nat) (x : A) : res (list A) :=
  match l, i with
  | [], _ => Err IndexError
  | _ :: t, O => Ok (x :: t)
  | a :: t, S i' => do t' <- lset t i' x; Ok (a :: t')
  end.
(** [m[i][j] = x], steady_state_solver.py:636 *)
Definition mset {A} (m : list (list A)) (i j : nat) (x : A) : res (list (list A)) :=
  do row <- lindex m i; do row' <- lset row j x; lset m i row'.

(** [analytical_jacobian_sym], steady_state_solver.py:619-638: two rows are allocated, whatever
    the number of adsorbates. *)
Fixpoint jac_row s y (e : option sexpr) (i j : nat) (names : list str) (m : list (list sexpr))
  : res (list (list sexpr)) :=
  match names with
  | [] => Ok m
  | n :: t =>
      do th <- extract s y n (L "ads_cvg");
      do m' <- mset m i j (match e with None => SNum 0 | Some e => sdiff (sym_name th) e end);
      jac_row s y e i (S j) t m'
  end.
(** Same lines: steady_state_solver.py:619-638. *)
Fixpoint jac_rows s y (i : nat) (es : list (option sexpr)) (m : list (list sexpr))
  : res (list (list sexpr)) :=
  match es with
  | [] => Ok m
  | e :: t => do m' <- jac_row s y e i 0 (l_ads (s_lists s)) m; jac_rows s y (S i) t m'
  end.
(** Same lines: steady_state_solver.py:619-638. *)
Definition jacobian_sym s y : res (list (list sexpr)) :=
  do l <- dtheta_syms s y false;
  let n := length l in
  jac_rows s y 0 l [repeat (SNum 0) n; repeat (SNum 0) n].

(** [analytical_jacobian_by_sym], steady_state_solver.py:640-664: the size is read off the
    number of rows. *)
Fixpoint eval_row (d : dict R) (sym : list (list sexpr)) (i j n : nat) (m : list (list R)) : res (list (list R)) :=
  match n with
  | O => Ok m
  | S n' =>
      do row <- lindex sym i;
      do e <- lindex row j;
      do x <- sev d e;
      do m' <- mset m i j x;
      eval_row d sym i (S j) n' m'
  end.
(** Same lines: steady_state_solver.py:640-664. *)
Fixpoint eval_rows (d : dict R) (sym : list (list sexpr)) (size i n : nat) (m : list (list R)) : res (list (list R)) :=
  match n with
  | O => Ok m
  | S n' => do m' <- eval_row d sym i 0 size m; eval_rows d sym size (S i) n' m'
  end.
(** Same lines: steady_state_solver.py:640-664. *)
Definition jacobian_by_sym s y T r data (cvgs : list R) : res (list (list R)) :=
  do d <- subs_dict s y T r data (Some cvgs);
  do sym <- jacobian_sym s y;
  let n := length sym in
  eval_rows d sym n 0 n [repeat 0%R n; repeat 0%R n].
