(** Model of the energy part of scaks/parsers/parser_base.py:281-386 and of
    scaks/parsers/relative_energy_parser.py, scaks/parsers/absolute_energy_parser.py. *)
From Coq Require Import String Ascii List ZArith Bool Arith Reals.
Import ListNotations.
From Verif Require Import PyBase Rxn_Model PyReal.
Open Scope list_scope.

(** The loop of [_get_state_energy], parser_base.py:303-313. *)
Fixpoint add_energies (ed : dict R) (acc : R) (fs : list formula) : res R :=
  match fs with
  | [] => Ok acc
  | f :: t =>
      let key := if negb (has_char "*" (f_species_site f)) then f_species_site f
                 else L "*_" ++ f_site f in
      do e <- dindex ed key;
      add_energies ed (acc + IZR (f_stoich f) * e)%R t
  end.

(** [_get_state_energy(state)], parser_base.py:281-315. *)
Definition state_energy (ed : dict R) (st : str) : res R :=
  do _ <- state_species_site_dict st;
  do _ <- state_sites st;
  do fs <- state_formulas st;
  add_energies ed 0%R fs.

(** [_get_single_relative_energies(rxn_expression)], parser_base.py:317-368: forward
    barrier, reverse barrier, reaction energy. *)
Definition single_relative (has_abs : bool) (ed : dict R) (e : str) : res (R * R * R) :=
  if negb has_abs then Err AttributeError
  else
    do sts <- rxn_tolist e;
    do first <- lfirst sts;
    do g_is <- state_energy ed first;
    do last <- llast sts;
    do g_fs <- state_energy ed last;
    let g_ts0 := if Nat.eqb (length sts) 2 then Rmax g_is g_fs else 0%R in
    do g_ts <- (if Nat.eqb (length sts) 3
                then do mid <- lindex sts 1; state_energy ed mid
                else Ok g_ts0);
    Ok (g_ts - g_is, g_ts - g_fs, g_fs - g_is)%R.

(** A dictionary of relative energies with its three lists, one entry per reaction.
    relative_energy_parser.py:62-68. *)
Record rel_energies := { r_Gaf : list R; r_Gar : list R; r_dG : list R }.

(** [_get_relative_from_absolute()], parser_base.py:370-386. *)
Definition relative_from_absolute (has_abs : bool) (ed : dict R) (es : list str) : res rel_energies :=
  do l <- mapM (single_relative has_abs ed) es;
  Ok {| r_Gaf := map (fun t => fst (fst t)) l;
        r_Gar := map (fun t => snd (fst t)) l;
        r_dG := map snd l |}.

(** What the energy parsers write in the model, relative_energy_parser.py:94-97,
    absolute_energy_parser.py:34-43. *)
Record energy_state := {
  es_rel : option rel_energies;      (* _relative_energies *)
  es_has_rel : bool;                 (* _has_relative_energy *)
  es_abs : option (dict R);          (* _absolute_energies *)
  es_has_abs : bool                  (* _has_absolute_energy *)
}.

(** Data of a relative-energy file or of the setup: entries may be missing.
    relative_energy_parser.py:83-92. *)
Record rel_data := { d_Ga : option (list R); d_dG : option (list R) }.

(** [__chk_data_validity], relative_energy_parser.py:27-40. *)
Definition wrong_length {A} (o : option (list A)) (n : nat) : bool :=
  match o with None => false | Some l => negb (Nat.eqb (length l) n) end.
(** [__chk_data_validity], relative_energy_parser.py:27-40. *)
Definition check_rel_data (d : rel_data) (nrxns : nat) : res unit :=
  if wrong_length (d_Ga d) nrxns then Err ValueError
  else if wrong_length (d_dG d) nrxns then Err ValueError
  else Ok tt.

(** [__get_relative_energies], relative_energy_parser.py:42-69. *)
Definition correct_barrier (p : R * R) : R :=
  if Rltb (Rabs (fst p - 0)) (1e-10)%R && Rltb 0 (snd p) then snd p else fst p.
(** [__get_relative_energies], relative_energy_parser.py:42-69. *)
Definition complete_rel_data (d : rel_data) : res rel_energies :=
  match d_Ga d with
  | None => Err KeyError
  | Some ga =>
    match d_dG d with
    | None => Err KeyError
    | Some dg =>
        let pairs := combine ga dg in
        let gafs := map correct_barrier pairs in
        let dgs := map snd pairs in
        Ok {| r_Gaf := gafs;
              r_Gar := map (fun p => fst p - snd p)%R (combine gafs dgs);
              r_dG := dgs |}
    end
  end.

(** [RelativeEnergyParser.parse_data], relative_energy_parser.py:71-100.  The file is
    None if it does not exist, otherwise the variables it defines.  The new state is
    returned also when an exception is raised. *)
Definition rel_parse_data (file setup : option rel_data) (nrxns : nat) (st : energy_state)
  : energy_state * res unit :=
  match (match file with Some d => Some d | None => setup end) with
  | None => (st, Err IOError)
  | Some d =>
      match check_rel_data d nrxns with
      | Err e => (st, Err e)
      | Ok _ =>
        match complete_rel_data d with
        | Err e => (st, Err e)
        | Ok r => ({| es_rel := Some r; es_has_rel := true;
                      es_abs := es_abs st; es_has_abs := es_has_abs st |}, Ok tt)
        end
      end
  end.

(** [AbsoluteEnergyParser.parse_data], absolute_energy_parser.py:22-45.  The file is
    None if it does not exist; it may define the table or not. *)
Definition abs_parse_data (file : option (option (dict R))) (es : list str) (st : energy_state)
  : energy_state * res unit :=
  match file with
  | None => (st, Err IOError)
  | Some None => (st, Err KeyError)
  | Some (Some ed) =>
      let st1 := {| es_rel := es_rel st; es_has_rel := es_has_rel st;
                    es_abs := Some ed; es_has_abs := true |} in
      match relative_from_absolute (es_has_abs st1) ed es with
      | Err e => (st1, Err e)
      | Ok r => ({| es_rel := Some r; es_has_rel := true;
                    es_abs := Some ed; es_has_abs := true |}, Ok tt)
      end
  end.
