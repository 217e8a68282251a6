(** The run scripts scripts/mkm_run/run.py and scripts/kmc_run/run.py, and the keywords of
    [MicroKineticModel.run] (scaks/models/micro_kinetic_model.py 179-193).

    Simplifications.  The working directory is the list of its files; all are ordinary files that
    may be read and removed, and names are compared byte by byte (the C locale).  The methods of
    the model are functions given from outside that may depend on all that the script did before;
    their exceptions are those of [exn].  [time.time()] is an exact fraction; [show] is
    ['{:f}'.format], [name_of] is [type(e).__name__].  The traceback that [logger.exception]
    adds is left out. *)
From Coq Require Import String Ascii List ZArith QArith Bool.
Import ListNotations.
From Verif Require Import PyBase SS_Model Fmt_Model Run_Model.
Local Open Scope list_scope.

(** ** The shell *)

(** [rm -rf out.log auto_*] mkm_run/run.py 24. *)
Definition old_output (n : str) : bool := str_eqb n (L "out.log") || is_prefix (L "auto_") n.
(** mkm_run/run.py 24. *)
Definition rm_rf (files : list str) : list str := filter (fun n => negb (old_output n)) files.

(** [rm -rm out.log auto_*]: there is no option -m, nothing is removed. kmc_run/run.py 15. *)
Definition rm_rm (files : list str) : list str := files.

(** The names that [*.mkm] stands for. mkm_run/run.py 30, kmc_run/run.py 21. *)
Definition ends_in (suffix s : str) : bool := is_prefix (rev suffix) (rev s).
(** Names that a pattern starting with a star stands for (mkm_run/run.py 30). *)
Definition visible (s : str) : bool := match s with c :: _ => negb (Ascii.eqb c ".") | [] => false end.
(** mkm_run/run.py 30, kmc_run/run.py 21. *)
Definition setups (files : list str) : list str :=
  filter (fun n => ends_in (L ".mkm") n && visible n) files.

(** Names that [ls] would take for options, and names of several lines, are out of the model.
    mkm_run/run.py 30, kmc_run/run.py 21. *)
Definition listable (s : str) : bool :=
  negb (has_char (ascii_of_nat 10) s) && match s with c :: _ => negb (Ascii.eqb c "-") | [] => false end.

(** [getstatusoutput("ls *.mkm | tail -1")]: the status is that of [tail].  Without such a file
    the pattern itself is handed to [ls], whose complaint is part of the output. *)
Definition complaint : str := L "ls: cannot access '*.mkm': No such file or directory".
(** mkm_run/run.py 30, kmc_run/run.py 21. *)
Definition last_setup (files : list str) : res (Z * str) :=
  match setups files with
  | [] => Ok (0%Z, complaint)
  | l => if forallb listable l then do n <- llast (sorted_set l); Ok (0%Z, n) else Err Unsupported
  end.

(** ** Keywords *)
Section Keywords.
  Context {C G X : Type}.

  (** The values the keywords may have here. micro_kinetic_model.py 180-186. *)
  Inductive kwval := KGuess (g : guess C) | KEnergies (g : option G) | KBool (b : bool) | KNumber (x : X)
                   | KText (s : str).

  (** [kwargs.pop(key, default)]: the value and the other keywords.
      micro_kinetic_model.py 180-186. *)
  Definition pop (kw : dict kwval) (key : str) : option kwval * dict kwval :=
    (dget kw key, filter (fun p => negb (str_eqb (fst p) key)) kw).

  (** 180-186; a value of another type than the documented one is out of the model.  The keywords
      that remain are only warned of (189-192). *)
  Definition keywords (kw : dict kwval) : res (args C G X * list str) :=
    let (init, kw) := pop kw (L "init_cvgs") in
    let (energies, kw) := pop kw (L "relative_energies") in
    let (fs, kw) := pop kw (L "fsolve") in
    let (coarse, kw) := pop kw (L "coarse_guess") in
    let (xrc, kw) := pop kw (L "XRC") in
    let (epsilon, kw) := pop kw (L "epsilon") in
    let (product, kw) := pop kw (L "product_name") in
    do i <- match init with None => Ok NoGuess | Some (KGuess g) => Ok g | _ => Err Unsupported end;
    do e <- match energies with None => Ok None | Some (KEnergies g) => Ok g | _ => Err Unsupported end;
    do f <- match fs with None => Ok false | Some (KBool b) => Ok b | _ => Err Unsupported end;
    do c <- match coarse with None => Ok true | Some (KBool b) => Ok b | _ => Err Unsupported end;
    do x <- match xrc with None => Ok false | Some (KBool b) => Ok b | _ => Err Unsupported end;
    do d <- match epsilon with None => Ok None | Some (KNumber y) => Ok (Some y) | _ => Err Unsupported end;
    do p <- match product with None => Ok None | Some (KText s) => Ok (Some s) | _ => Err Unsupported end;
    Ok ({| a_init := i; a_energies := e; a_fsolve := f; a_coarse := c; a_xrc := x; a_epsilon := d;
           a_product := p |}, map fst kw).
End Keywords.
Arguments kwval : clear implicits.

(** ** The scripts *)

(** Python 2 or 3. *)
Inductive python := Python2 | Python3.

(** How a script ends. mkm_run/run.py 35, 64, kmc_run/run.py 26, 43. *)
Inductive outcome :=
| Finished
| Exited (status : Z)               (* sys.exit *)
| NoModule (name : str)             (* an import fails *)
| Raised (e : exn).

Section Scripts.
  Context {C G X : Type}.

  (** What a script does besides the shell commands, in order.
      mkm_run/run.py 33-72, kmc_run/run.py 24-49. *)
  Inductive action :=
  | Build (setup_file : str)
  | ParseData (energy_file : option str)
  | GetData
  | SolveOde (time_span time_end : Q) (traj_output : bool)
  | RunMkm (kw : dict (kwval C G X))
  | RunKmc
  | Clock
  | Say (level : str) (text : str).

  (** What the scripts call: mkm_run/run.py 37-69, kmc_run/run.py 29-48. *)
  Record outside := {
    o_build : list action -> str -> res unit;
    o_parse : list action -> option str -> res unit;
    o_get_data : list action -> res unit;
    o_ode : list action -> Q -> Q -> bool -> res (X * C);
    o_run_mkm : list action -> dict (kwval C G X) -> res unit;
    o_run_kmc : list action -> res unit;
    o_time : list action -> Q;
    o_show : Q -> str;
    o_name_of : exn -> str
  }.

  (** The constants at the top of mkm_run/run.py, 14-20. *)
  Record constants := {
    OdeInterval : Q; OdeEnd : Q; OdeOutput : bool; CalcXRC : bool; ProductionName : str; OdeOnly : bool
  }.

  Variable o : outside.

  (** mkm_run/run.py 72, kmc_run/run.py 49. *)
  Definition time_used (t : Q) : str :=
    let '(h, m, s) := convert_time t in
    L "Time used: " ++ str_of_Z h ++ L " h " ++ str_of_Z m ++ L " min " ++ o_show o s ++ L " sec".
  (** mkm_run/run.py 62, kmc_run/run.py 41. *)
  Definition catched (e : exn) : str := o_name_of o e ++ L " exception is catched.".

  (** mkm_run/run.py 38-60: the [try] block. *)
  Definition mkm_body (c : constants) (setup : str) (h : list action) : res unit * list action :=
    let r := o_build o h setup in let h := h ++ [Build setup] in
    match r with Err e => (Err e, h) | Ok _ =>
    let r := o_parse o h None in let h := h ++ [ParseData None] in
    match r with Err e => (Err e, h) | Ok _ =>
    let r := o_get_data o h in let h := h ++ [GetData] in
    match r with Err e => (Err e, h) | Ok _ =>
    let r := o_ode o h (OdeInterval c) (OdeEnd c) (OdeOutput c) in
    let h := h ++ [SolveOde (OdeInterval c) (OdeEnd c) (OdeOutput c)] in
    match r with Err e => (Err e, h) | Ok (_, init_guess) =>
    let kw := [(L "init_cvgs", KGuess (Seq init_guess)); (L "solve_ode", KBool (OdeOnly c));
               (L "coarse_guess", KBool false); (L "XRC", KBool (CalcXRC c));
               (L "product_name", KText (ProductionName c))] in
    (o_run_mkm o h kw, h ++ [RunMkm kw])
    end end end end.

  (** mkm_run/run.py 22-73.  [getstatusoutput] exists in both versions of Python
      (compatutil.py 34-37). *)
  Definition mkm_script (c : constants) (master : bool) (files : list str)
    : res (outcome * list action * list str) :=
    let files := rm_rf files in
    do (status, output) <- last_setup files;
    if negb (status =? 0)%Z then
      Ok (Exited 1, if master then [Say (L "ERROR") output; Say (L "INFO") (L "Exiting...")] else [], files)
    else
      let start := o_time o [] in
      match mkm_body c output [Clock] with
      | (Err e, h) => Ok (Raised e, if master then h ++ [Say (L "ERROR") (catched e)] else h, files)
      | (Ok _, h) =>
          let t := (o_time o h - start)%Q in
          let h := h ++ [Clock] in
          Ok (Finished, if master then h ++ [Say (L "INFO") (time_used t)] else h, files)
      end.

  (** kmc_run/run.py 5-50.  The module [commands] is gone from Python 3; [sys] is not imported
      (NameError at 28).  The model is built outside of the [try] block. *)
  Definition kmc_script (py : python) (master : bool) (files : list str)
    : res (outcome * list action * list str) :=
    match py with
    | Python3 => Ok (NoModule (L "commands"), [], files)
    | Python2 =>
        let files := rm_rm files in
        do (status, output) <- last_setup files;
        if negb (status =? 0)%Z then
          Ok (Raised NameError,
              if master then [Say (L "ERROR") output; Say (L "INFO") (L "Exiting...")] else [], files)
        else
          let r := o_build o [] output in let h := [Build output] in
          match r with Err e => Ok (Raised e, h, files) | Ok _ =>
          let r := o_parse o h (Some (L "rel_energy.py")) in let h := h ++ [ParseData (Some (L "rel_energy.py"))] in
          match r with Err e => Ok (Raised e, h, files) | Ok _ =>
          let start := o_time o h in
          let h := if master then h ++ [Clock] else h in
          let r := o_run_kmc o h in let h := h ++ [RunKmc] in
          match r with
          | Err e => Ok (Raised e, if master then h ++ [Say (L "ERROR") (catched e)] else h, files)
          | Ok _ =>
              if master then
                Ok (Finished, h ++ [Clock] ++ [Say (L "INFO") (time_used (o_time o h - start)%Q)], files)
              else Ok (Finished, h, files)
          end end end
    end.
End Scripts.
Arguments action : clear implicits.
Arguments outside : clear implicits.
