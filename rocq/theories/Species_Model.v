(** Model of scaks/parsers/parser_base.py:35-245: classification of species,
    stoichiometry matrices, total reaction equation. *)
From Coq Require Import String Ascii List ZArith Bool Arith.
Import ListNotations.
From Verif Require Import PyBase Rxn_Model.

(** The lists being filled, parser_base.py:52-57. *)
Record lists := {
  l_ads : list str;
  l_gas : list str;
  l_liq : list str;
  l_site : list str;
  l_ts : list str;
  l_rxns : list (list (list formula))
}.

(** parser_base.py:52-57. *)
Definition empty_lists : lists :=
  {| l_ads := []; l_gas := []; l_liq := []; l_site := []; l_ts := []; l_rxns := [] |}.

(** Site names of a formula, parser_base.py:97-98. *)
Definition site_names_of (f : formula) : list str :=
  map (fun s => L "*_" ++ s)
      (filter (fun s => negb (str_mem s [L "g"; L "l"])) (map fst (formula_sites f))).

(** One formula, parser_base.py:80-98. *)
Definition add_formula (a : lists) (f : formula) : lists :=
  let name := f_species_site f in
  let a1 :=
    if dmem (formula_sites f) (L "g") then
      {| l_ads := l_ads a; l_gas := l_gas a ++ [name]; l_liq := l_liq a;
         l_site := l_site a; l_ts := l_ts a; l_rxns := l_rxns a |}
    else if dmem (formula_sites f) (L "l") then
      {| l_ads := l_ads a; l_gas := l_gas a; l_liq := l_liq a ++ [name];
         l_site := l_site a; l_ts := l_ts a; l_rxns := l_rxns a |}
    else if has_char "-" (f_species f) then
      {| l_ads := l_ads a; l_gas := l_gas a; l_liq := l_liq a;
         l_site := l_site a; l_ts := l_ts a ++ [name]; l_rxns := l_rxns a |}
    else if negb (has_char "*" (f_species f)) then
      {| l_ads := l_ads a ++ [name]; l_gas := l_gas a; l_liq := l_liq a;
         l_site := l_site a; l_ts := l_ts a; l_rxns := l_rxns a |}
    else a in
  {| l_ads := l_ads a1; l_gas := l_gas a1; l_liq := l_liq a1;
     l_site := l_site a1 ++ site_names_of f; l_ts := l_ts a1; l_rxns := l_rxns a1 |}.

(** One reaction, parser_base.py:59-101. *)
Definition add_rxn (a : lists) (e : str) : res lists :=
  do _ <- rxn_check_conservation e;
  do fls <- rxn_formula_list e;
  let a1 := fold_left add_formula (concat fls) a in
  Ok {| l_ads := l_ads a1; l_gas := l_gas a1; l_liq := l_liq a1;
        l_site := l_site a1; l_ts := l_ts a1; l_rxns := l_rxns a1 ++ [fls] |}.

(** The loop over reactions, parser_base.py:59-101. *)
Fixpoint add_rxns (a : lists) (es : list str) : res lists :=
  match es with
  | [] => Ok a
  | e :: t => do a1 <- add_rxn a e; add_rxns a1 t
  end.

(** [parse_elementary_rxns], parser_base.py:35-118.  The argument of the method is
    not used; the expressions come from the owner. *)
Definition parse_rxns (es : list str) : res lists :=
  do a <- add_rxns empty_lists es;
  Ok {| l_ads := sorted_set (l_ads a); l_gas := sorted_set (l_gas a);
        l_liq := sorted_set (l_liq a); l_site := sorted_set (l_site a);
        l_ts := sorted_set (l_ts a); l_rxns := l_rxns a |}.

(** [matrix[i, j] += z] on one row. parser_base.py:159-180. *)
Fixpoint row_add (row : list Z) (j : nat) (z : Z) : list Z :=
  match row, j with
  | [], _ => []
  | x :: t, O => (x + z)%Z :: t
  | x :: t, S k => x :: row_add t k z
  end.

(** [if name in names: j = names.index(name); row[j] += z],
    parser_base.py:158-165, 173-180. *)
Definition row_count (names : list str) (row : list Z) (name : str) (z : Z) : list Z :=
  match index_of name names with
  | None => row
  | Some j => row_add row j z
  end.

(** One row of either matrix, parser_base.py:151-180. *)
Definition matrix_row (names : list str) (rxn : list (list formula)) : res (list Z) :=
  do first <- lfirst rxn;
  let row1 := fold_left (fun row f => row_count names row (f_species_site f) (f_stoich f))
                        first (repeat 0%Z (length names)) in
  do last <- llast rxn;
  Ok (fold_left (fun row f => row_count names row (f_species_site f) (- f_stoich f)%Z) last row1).

(** [get_stoichiometry_matrices], parser_base.py:120-183: the site matrix and the
    reactant-product matrix.  Entries are numpy floats in the code and exact
    integers here. *)
Definition stoichiometry_matrices (p : lists) : res (list (list Z) * list (list Z)) :=
  do site_matrix <- mapM (matrix_row (l_site p ++ l_ads p)) (l_rxns p);
  do reapro_matrix <- mapM (matrix_row (l_gas p ++ l_liq p)) (l_rxns p);
  Ok (site_matrix, reapro_matrix).

(** Text of a coefficient, parser_base.py:219-231. *)
Definition coeff_text (c : Z) : str :=
  if Z.eqb c 1 then [] else str_of_Z c.

(** The loop over the names, parser_base.py:213-231. *)
Fixpoint total_lists (names all : list str) (coeffs : list Z) : res (list str * list str) :=
  match names with
  | [] => Ok ([], [])
  | n :: t =>
      match index_of n all with
      | None => Err ValueError
      | Some idx =>
          do c <- lindex coeffs idx;
          do rp <- total_lists t all coeffs;
          if (c <? 0)%Z then Ok (fst rp, (coeff_text (Z.abs c) ++ n) :: snd rp)
          else Ok ((coeff_text c ++ n) :: fst rp, snd rp)
      end
  end.

(** [get_total_rxn_equation], parser_base.py:185-245, after the coefficients have
    been computed (line 208): the null-space step is an arbitrary list here. *)
Definition total_rxn_equation (p : lists) (coeffs : list Z) : res str :=
  do rp <- total_lists (l_gas p ++ l_liq p) (l_gas p ++ l_liq p) coeffs;
  let e := join (L " + ") (fst rp) ++ L " -> " ++ join (L " + ") (snd rp) in
  do _ <- rxn_check_conservation e;
  Ok e.
