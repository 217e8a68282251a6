(** Model of scaks/parsers/rxn_parser.py (whole file). *)
From Coq Require Import String Ascii List ZArith Bool Arith.
Import ListNotations.
From Verif Require Import PyBase Regex.

(** rxn_parser.py:298  r'(\d* )(([\w\*-]* )_(\d* )([a-zA-Z\*]+))' (blanks added here). *)
Definition is_species_char (c : ascii) : bool :=
  is_word c || Ascii.eqb c "*" || Ascii.eqb c "-".
(** Same lines: rxn_parser.py:298. *)
Definition is_site_char (c : ascii) : bool :=
  is_letter c || Ascii.eqb c "*".

(** rxn_parser.py:298. *)
Definition formula_regex : re :=
  RSeq (RGroup 1 (RStar is_digit))
       (RGroup 2 (RSeq (RGroup 3 (RStar is_species_char))
                 (RSeq (RChr (Ascii.eqb "_"))
                 (RSeq (RGroup 4 (RStar is_digit))
                       (RGroup 5 (RPlus is_site_char)))))).

(** rxn_parser.py:299  r'([a-zA-Z\*])(\d* )' (blank added here). *)
Definition sp_regex : re :=
  RSeq (RGroup 1 (RChr is_site_char)) (RGroup 2 (RStar is_digit)).

(** A [ChemFormula] object after construction, rxn_parser.py:293-323. *)
Record formula := {
  f_text : str;           (* __formula *)
  f_stoich : Z;           (* __stoich *)
  f_species_site : str;   (* __species_site *)
  f_species : str;        (* __species *)
  f_nsite : Z;            (* __nsite *)
  f_site : str            (* __site *)
}.

(** [int(g) if g else 1], rxn_parser.py:319, 323, 370. *)
Definition int_or_1 (g : str) : Z :=
  match g with [] => 1%Z | _ => int_of g end.

(** [ChemFormula(formula)], rxn_parser.py:293-323 (constructor and __split). *)
Definition parse_formula (s : str) : res formula :=
  match search formula_regex s with
  | None => Err ChemFormulaError
  | Some m =>
      Ok {| f_text := s;
            f_stoich := int_or_1 (group_text m 1);
            f_species_site := group_text m 2;
            f_species := group_text m 3;
            f_nsite := int_or_1 (group_text m 4);
            f_site := group_text m 5 |}
  end.

(** [ChemFormula.type], rxn_parser.py:325-336. *)
Inductive ftype := Gas | Liquid | Site | Adsorbate.

(** [ChemFormula.type], rxn_parser.py:325-336. *)
Definition formula_type (f : formula) : ftype :=
  if str_eqb (f_site f) (L "g") then Gas
  else if str_eqb (f_site f) (L "l") then Liquid
  else if has_char "*" (f_species_site f) then Site
  else Adsorbate.

(** [regex.findall(s)] for a pattern that never matches the empty text: the
    captures of the successive matches.  Every match consumes a character, so
    fuel [S (length s)] is never exhausted. rxn_parser.py:366, 427. *)
Fixpoint findall_fuel (fuel : nat) (r : re) (s : str) : list mtch :=
  match fuel with
  | O => []
  | S k => match search r s with
           | None => []
           | Some m => m :: findall_fuel k r (m_rest m)
           end
  end.

(** [regex.findall(s)], rxn_parser.py:366, 427. *)
Definition findall (r : re) (s : str) : list mtch := findall_fuel (S (length s)) r s.

(** Merging a number into a dictionary: [if k not in d: d.setdefault(k, n)
    else: d[k] += n], rxn_parser.py:192-195, 217-220, 371-374. *)
Definition dadd (d : dict Z) (kn : str * Z) : dict Z :=
  match dget d (fst kn) with
  | None => dset d (fst kn) (snd kn)
  | Some v => dset d (fst kn) (v + snd kn)%Z
  end.

(** [ChemFormula.get_species_elements_dict(species)], rxn_parser.py:350-376, with
    the species given. *)
Definition species_elements_dict (species : str) : dict Z :=
  if str_eqb species (L "*") then []
  else fold_left dadd
         (map (fun m => (group_text m 1, int_or_1 (group_text m 2)))
              (findall sp_regex species)) [].

(** [ChemFormula.get_elements_dict], rxn_parser.py:338-348. *)
Definition formula_elements (f : formula) : dict Z :=
  map (fun kn => (fst kn, (f_stoich f * snd kn)%Z)) (species_elements_dict (f_species f)).

(** [ChemFormula.get_sites_dict], rxn_parser.py:378-384. *)
Definition formula_sites (f : formula) : dict Z :=
  [(f_site f, (f_nsite f * f_stoich f)%Z)].

(** [ChemFormula.conserve], rxn_parser.py:386-419, for another ChemFormula. *)
Definition formula_conserve (f1 f2 : formula) : res bool :=
  if negb (dict_eqb Z.eqb (formula_elements f1) (formula_elements f2)) then Err ValueError
  else if negb (dict_eqb Z.eqb (formula_sites f1) (formula_sites f2)) then Err ValueError
  else Ok true.

(** A [ChemState] is its text, rxn_parser.py:145-148. *)
(** [ChemState.split], rxn_parser.py:150-153. *)
Definition state_split (st : str) : list str := map strip (split_on "+" st).

(** [ChemState.tolist], rxn_parser.py:155-160. *)
Definition state_formulas (st : str) : res (list formula) :=
  mapM parse_formula (state_split st).

(** [ChemState.get_species_site_list], rxn_parser.py:162-169. *)
Definition state_species_site_list (st : str) : res (list str) :=
  do fs <- state_formulas st; Ok (map f_species_site fs).

(** [ChemState.get_species_site_dict], rxn_parser.py:171-179: a dictionary
    comprehension, so a later formula overwrites an earlier one. *)
Definition state_species_site_dict (st : str) : res (dict Z) :=
  do fs <- state_formulas st;
  Ok (fold_left (fun d f => dset d (f_species_site f) (f_stoich f)) fs []).

(** [ChemState.get_elements_dict], rxn_parser.py:181-197. *)
Definition elements_of_formulas (fs : list formula) : dict Z :=
  fold_left (fun d f => fold_left dadd (formula_elements f) d) fs [].
(** Same lines: rxn_parser.py:181-197. *)
Definition state_elements (st : str) : res (dict Z) :=
  do fs <- state_formulas st; Ok (elements_of_formulas fs).

(** [site in exclusive_sites], rxn_parser.py:207, 214. *)
Definition exclusive_site (s : str) : bool := str_mem s [L "g"; L "l"].

(** [ChemState.get_sites_dict], rxn_parser.py:199-222. *)
Definition sites_of_formulas (fs : list formula) : dict Z :=
  fold_left (fun d f =>
    fold_left (fun d kn => if exclusive_site (fst kn) then d else dadd d kn)
              (formula_sites f) d) fs [].
(** Same lines: rxn_parser.py:199-222. *)
Definition state_sites (st : str) : res (dict Z) :=
  do fs <- state_formulas st; Ok (sites_of_formulas fs).

(** [ChemState.conserve], rxn_parser.py:224-258, for another ChemState. *)
Definition state_conserve (st1 st2 : str) : res bool :=
  do e1 <- state_elements st1;
  do e2 <- state_elements st2;
  if negb (dict_eqb Z.eqb e1 e2) then Err ValueError
  else
    do s1 <- state_sites st1;
    do s2 <- state_sites st2;
    if negb (dict_eqb Z.eqb s1 s2) then Err ValueError
    else Ok true.

(** rxn_parser.py:32-33
    r'([^\<\>]* )(?:\<?\-\>)(?:([^\<\>]* )(?:\<?\-\>))?([^\<\>]* )' (blanks added). *)
Definition not_angle (c : ascii) : bool :=
  negb (Ascii.eqb c "<") && negb (Ascii.eqb c ">").
(** Same lines: rxn_parser.py:32-33. *)
Definition arrow_regex : re :=
  RSeq (ROpt (RChr (Ascii.eqb "<"))) (RSeq (RChr (Ascii.eqb "-")) (RChr (Ascii.eqb ">"))).
(** Same lines: rxn_parser.py:32-33. *)
Definition states_regex : re :=
  RSeq (RGroup 1 (RStar not_angle))
  (RSeq arrow_regex
  (RSeq (ROpt (RSeq (RGroup 2 (RStar not_angle)) arrow_regex))
        (RGroup 3 (RStar not_angle)))).

(** [if m.group(idx): ... ChemState(m.group(idx).strip())], rxn_parser.py:36-39. *)
Definition state_of_group (g : option str) : list str :=
  match g with
  | None => []
  | Some [] => []
  | Some t => [strip t]
  end.

(** [RxnEquation.tolist], rxn_parser.py:26-41.  Without an arrow [m] is None and
    [m.group] raises AttributeError. *)
Definition rxn_tolist (e : str) : res (list str) :=
  match search states_regex e with
  | None => Err AttributeError
  | Some m => Ok (state_of_group (group m 1) ++ state_of_group (group m 2)
                  ++ state_of_group (group m 3))
  end.

(** [RxnEquation.to_formula_list], rxn_parser.py:43-54. *)
Definition rxn_formula_list (e : str) : res (list (list formula)) :=
  do sts <- rxn_tolist e; mapM state_formulas sts.

(** [RxnEquation.check_conservation], rxn_parser.py:56-69. *)
Fixpoint conserve_all (first : str) (rest : list str) : res bool :=
  match rest with
  | [] => Ok true
  | st :: t => do _ <- state_conserve first st; conserve_all first t
  end.
(** Same lines: rxn_parser.py:56-69. *)
Definition rxn_check_conservation (e : str) : res bool :=
  do sts <- rxn_tolist e;
  do first <- lfirst sts;
  conserve_all first (tl sts).

(** [RxnEquation.revert], rxn_parser.py:88-108: with a number of states other
    than two or three the template is never assigned. *)
Definition rxn_revert (e : str) : res str :=
  do sts <- rxn_tolist e;
  match rev sts with
  | [a; b] => Ok (a ++ L " -> " ++ b)
  | [a; b; c] => Ok (a ++ L " <-> " ++ b ++ L " -> " ++ c)
  | _ => Err UnboundLocalError
  end.

(** [RxnEquation.adsorption_gases / desorption_gases], rxn_parser.py:110-130. *)
Definition is_gas (f : formula) : bool :=
  match formula_type f with Gas => true | _ => false end.
(** Same lines: rxn_parser.py:110-130. *)
Definition rxn_adsorption_gases (e : str) : res (list formula) :=
  do fls <- rxn_formula_list e; do fl <- lfirst fls; Ok (filter is_gas fl).
(** Same lines: rxn_parser.py:110-130. *)
Definition rxn_desorption_gases (e : str) : res (list formula) :=
  do fls <- rxn_formula_list e; do fl <- llast fls; Ok (filter is_gas fl).

(** [ChemFormula.__sub_texen], rxn_parser.py:422-435. *)
Definition sub_texen (sub : str) : str :=
  concat (map (fun m =>
    match group_text m 2 with
    | [] => group_text m 1
    | n => group_text m 1 ++ L "_{" ++ n ++ L "}"
    end) (findall sp_regex sub)).

(** [ChemFormula.texen], rxn_parser.py:437-452.  [split('-')] of a text without
    dash is the text itself, so both branches of the [if] join the same list. *)
Definition formula_texen (f : formula) : str :=
  (if Z.eqb (f_stoich f) 1 then [] else str_of_Z (f_stoich f))
  ++ (if has_char "-" (f_species f)
      then join (L "-") (map sub_texen (split_on "-" (f_species f)))
      else sub_texen (f_species f))
  ++ L "(" ++ f_site f ++ L ")".

(** [ChemState.texen], rxn_parser.py:260-270. *)
Definition state_texen (st : str) : res str :=
  do fs <- state_formulas st;
  do f0 <- lfirst fs;
  Ok (fold_left (fun t f => t ++ L " + " ++ formula_texen f) (tl fs) (formula_texen f0)).

(** [RxnEquation.texen], rxn_parser.py:71-86. *)
Definition rxn_texen (e : str) : res str :=
  do sts <- rxn_tolist e;
  do ts <- mapM state_texen sts;
  match ts with
  | [a; b; c] => Ok (a ++ L " \leftrightarrow " ++ b ++ L " \rightarrow " ++ c)
  | [a; b] => Ok (a ++ L " \rightarrow " ++ b)
  | _ => Err UnboundLocalError
  end.
