(** Model of scaks/models/kinetic_model.py:332-372, the energy files written for the user
    to fill in, and of the reading of such files by
    scaks/parsers/relative_energy_parser.py:83-86 and absolute_energy_parser.py:31-34. *)
From Coq Require Import String Ascii List ZArith NArith Bool Arith Reals.
Import ListNotations.
From Verif Require Import PyBase PyData_Model Rxn_Model Species_Model Energy_Model.
Local Open Scope list_scope.
Local Open Scope nat_scope.

(** One block of a reaction, kinetic_model.py:344. *)
Definition relative_block (rxn : str) : str :=
  L "# " ++ rxn ++ [nl] ++ L "Ga.append()" ++ [nl] ++ L "dG.append()" ++ [nl; nl].

(** [generate_relative_energies_file], kinetic_model.py:340-345: the text written.
    [rxns] is [self.rxn_expressions], empty when the setup has none. *)
Definition relative_text (rxns : list str) : str :=
  L "# Relative Energies for all elementary reactions." ++ [nl] ++
  L "Ga, dG = [], []" ++ [nl; nl] ++ concat (map relative_block rxns).

(** One line of a species, kinetic_model.py:367. *)
Definition species_line (sp : str) : str :=
  L "    '" ++ sp ++ L "': 0.0, # eV" ++ [nl; nl].

(** [reduce(add, [...])], kinetic_model.py:360-364.  The names are attributes that exist
    only if reactions have been parsed (318-325). *)
Definition all_species (names : option lists) : res (list str) :=
  match names with
  | None => Err AttributeError
  | Some p => Ok (l_gas p ++ l_liq p ++ l_ads p ++ l_ts p ++ l_site p)
  end.

(** [generate_absolute_energies_file], kinetic_model.py:357-369: the text written. *)
Definition absolute_text (names : option lists) : res str :=
  do sps <- all_species names;
  Ok (L "# Absolute energies for all species." ++ [nl] ++
      L "absolute_energies = {" ++ [nl; nl] ++ concat (map species_line sps) ++
      L "}" ++ [nl; nl]).

(** The files of the directory: texts by name.  [open(filename, "w")] replaces the text.
    kinetic_model.py:347-348, 371-372. *)
Definition files := dict str.

(** kinetic_model.py:347-348. *)
Definition generate_relative (rxns : list str) (filename : str) (fs : files) : files * res unit :=
  (dset fs filename (relative_text rxns), Ok tt).

(** kinetic_model.py:371-372.  An exception comes before the file is opened. *)
Definition generate_absolute (names : option lists) (filename : str) (fs : files)
  : files * res unit :=
  match absolute_text names with
  | Err e => (fs, Err e)
  | Ok t => (dset fs filename t, Ok tt)
  end.

(** The names a model has after construction, kinetic_model.py:318-325. *)
Definition species_names (rxns : list str) : res (option lists) :=
  match rxns with
  | [] => Ok None
  | _ => do p <- parse_rxns rxns; Ok (Some p)
  end.

(** ** Reading: PyData with [a, b = [], []], [x.append(number)], [x.append()] and names
    standing alone.  Everything else is [Unsupported].
    relative_energy_parser.py:83-86, absolute_energy_parser.py:31-34. *)
Inductive gstmt :=
| GBase (s : stmt)
| GPair (a b : str)
| GAppend (n : str) (x : option str)
| GName (n : str).

(** A line as [exec] compiles it, relative_energy_parser.py:83-86, absolute_energy_parser.py:31-34. *)
Definition gparse_line (ts : list dtok) : res gstmt :=
  match ts with
  | [DIndent] => Ok (GBase SPass)                 (* blanks or a comment *)
  | DIndent :: _ => Err SyntaxError               (* unexpected indent *)
  | [DName a; DComma; DName b; DEq; DOpen "["; DClose "]"; DComma; DOpen "["; DClose "]"] =>
      Ok (GPair a b)
  | [DName n; DDot; DName m; DOpen "("; DClose ")"] =>
      if str_eqb m (L "append") then Ok (GAppend n None) else Err Unsupported
  | [DName n; DDot; DName m; DOpen "("; DNum x; DClose ")"] =>
      if str_eqb m (L "append") then Ok (GAppend n (Some x)) else Err Unsupported
  | [DName n] => Ok (GName n)
  | _ => do s <- parse_line ts; Ok (GBase s)
  end.

(** A statement as [exec] runs it, same lines. *)
Definition gexec_stmt (g : names) (s : gstmt) : res names :=
  match s with
  | GBase s => exec_stmt g s
  | GPair a b => Ok (dset (dset g a (OVal (VList []))) b (OVal (VList [])))
  | GAppend n x =>
      match dget g n with
      | None => Err NameError
      | Some (OVal (VList l)) =>
          match x with
          | Some t => Ok (dset g n (OVal (VList (l ++ [VNum t]))))
          | None => Err TypeError       (* append() takes exactly one argument *)
          end
      | Some _ => Err AttributeError
      end
  | GName n => match dget g n with None => Err NameError | Some _ => Ok g end
  end.

(** Statements in order, relative_energy_parser.py:83-86, absolute_energy_parser.py:31-34. *)
Fixpoint gexec_stmts (g : names) (l : list gstmt) : res names :=
  match l with
  | [] => Ok g
  | s :: t => do g' <- gexec_stmt g s; gexec_stmts g' t
  end.

(** [exec] compiles the whole file first, relative_energy_parser.py:83-86. *)
Definition gparse_prog (s : str) : res (list gstmt) :=
  do ts <- dlex s; mapM gparse_line (group 0 [] ts).

(** [exec(open(filename, "rb").read(), {}, locs)].
    relative_energy_parser.py:83-86, absolute_energy_parser.py:31-34. *)
Definition gexec_file (s : str) : res names :=
  do p <- gparse_prog s; gexec_stmts [] p.

(** ** From names to the data of the energy parsers.  [num] is the value of a number. *)
Section Data.
Variable num : str -> R.

(** A number of a list read from the file, relative_energy_parser.py:86. *)
Definition num_of (v : val) : res R :=
  match v with VNum s => Ok (num s) | _ => Err Unsupported end.

(** A list of numbers defined by the file, if the name is defined.
    relative_energy_parser.py:86-92. *)
Definition list_of (g : names) (n : str) : res (option (list R)) :=
  match dget g n with
  | None => Ok None
  | Some (OVal (VList l)) => do xs <- mapM num_of l; Ok (Some xs)
  | Some _ => Err Unsupported
  end.

(** [RelativeEnergyParser.parse_data(filename, energy_data)],
    relative_energy_parser.py:83-100, the data read from the file. *)
Definition relative_load (fs : files) (filename : str) (setup : option rel_data) (nrxns : nat)
  (st : energy_state) : energy_state * res unit :=
  match dget fs filename with
  | None => rel_parse_data None setup nrxns st
  | Some text =>
      match (do g <- gexec_file text;
             do ga <- list_of g (L "Ga"); do dg <- list_of g (L "dG");
             Ok {| d_Ga := ga; d_dG := dg |}) with
      | Err e => (st, Err e)
      | Ok d => rel_parse_data (Some d) setup nrxns st
      end
  end.

(** [AbsoluteEnergyParser.parse_data(filename)], absolute_energy_parser.py:31-45. *)
Definition absolute_load (fs : files) (filename : str) (rxns : list str) (st : energy_state)
  : energy_state * res unit :=
  match dget fs filename with
  | None => abs_parse_data None rxns st
  | Some text =>
      match gexec_file text with
      | Err e => (st, Err e)
      | Ok g =>
          match dget g (L "absolute_energies") with
          | None => abs_parse_data (Some None) rxns st
          | Some (ODict d) =>
              abs_parse_data (Some (Some (map (fun kv => (fst kv, num (snd kv))) d))) rxns st
          | Some (OVal _) => (st, Err Unsupported)
          end
      end
  end.
End Data.
