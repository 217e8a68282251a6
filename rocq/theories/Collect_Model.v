(** Scripts that collect the results of many kinetic Monte Carlo runs: /repo/scripts/kmc_plot. *)
From Coq Require Import String Ascii List ZArith Bool Arith QArith.
Import ListNotations.
From Verif Require Import PyBase Rxn_Model.
From Verif Require Attr_Model.
Local Open Scope list_scope.

(** The names that auto_coverages.py defines: possible_types and coverages (one list per type).
    kmc_plot/plot_merged_coverages.py 14-15, batch_plot/extract_cvgs.py 26-31. *)
Record cov_file := { c_types : list str; c_coverages : list (list Q) }.

(** ** plot_merged_coverages.py *)
(** [a += np.array(b)] for arrays of one dimension: entry by entry, or one entry for all.
    plot_merged_coverages.py 23-27. *)
Definition add_array (a b : list Q) : res (list Q) :=
  if (length a =? length b)%nat then Ok (map (fun xy => fst xy + snd xy)%Q (combine a b))
  else match b with
       | [y] => Ok (map (fun x => x + y)%Q a)
       | _ => Err ValueError
       end.

(** [O_cvgs, CO_cvgs, Vac_cvgs], plot_merged_coverages.py 20. *)
Record merged := { m_O : list Q; m_CO : list Q; m_Vac : list Q }.

(** [sp.startswith(...)] for a text of one character, plot_merged_coverages.py 22-26. *)
Definition starts (c : ascii) (s : str) : bool :=
  match s with x :: _ => Ascii.eqb x c | [] => false end.

(** plot_merged_coverages.py 21-27, one round *)
Definition merge_one (m : merged) (sp : str) (cvgs : list Q) : res merged :=
  if starts "O" sp then do a <- add_array (m_O m) cvgs; Ok {| m_O := a; m_CO := m_CO m; m_Vac := m_Vac m |}
  else if starts "C" sp then do a <- add_array (m_CO m) cvgs; Ok {| m_O := m_O m; m_CO := a; m_Vac := m_Vac m |}
  else if starts "V" sp then do a <- add_array (m_Vac m) cvgs; Ok {| m_O := m_O m; m_CO := m_CO m; m_Vac := a |}
  else Ok m.
(** The loop, plot_merged_coverages.py 21-27. *)
Fixpoint merge_all (m : merged) (l : list (str * list Q)) : res merged :=
  match l with
  | [] => Ok m
  | (sp, cvgs) :: t => do m' <- merge_one m sp cvgs; merge_all m' t
  end.

(** plot_merged_coverages.py 20-27; [zip] stops at the end of the shorter list *)
Definition merge (steps : nat) (f : cov_file) : res merged :=
  let z := repeat 0%Q steps in
  merge_all {| m_O := z; m_CO := z; m_Vac := z |} (combine (c_types f) (c_coverages f)).

(** ** batch_plot/extract_cvgs.py *)
(** extract_cvgs.py 10-11: ("C") is the text "C", so its names are its characters *)
Definition O_names : list str := map L ["O_s"; "O_r"; "O_u"; "O_d"; "O_l"]%string.
(** extract_cvgs.py 11 *)
Definition CO_names : list str := [L "C"].

(** [l[i]] for an index that is not negative (extract_cvgs.py 31, batch_plot/extract_tofs.py 30) *)
Definition at_index {A} (l : list A) (i : nat) : res A :=
  match nth_error l i with Some x => Ok x | None => Err IndexError end.

(** [locs["coverages"][possible_types.index(type_name)][-1]], extract_cvgs.py 30-31 *)
Definition last_coverage (f : cov_file) (type_name : str) : res Q :=
  match index_of type_name (c_types f) with
  | None => Err ValueError
  | Some i => do l <- at_index (c_coverages f) i; llast l
  end.
(** extract_cvgs.py 28-31, the loop *)
Fixpoint sum_coverages (f : cov_file) (names : list str) (acc : Q) : res Q :=
  match names with
  | [] => Ok acc
  | n :: t => do x <- last_coverage f n; sum_coverages f t (acc + x)%Q
  end.

Section Extract.
(** [float(text)]; None if the text is no number *)
Variable number : str -> option Q.

(** [float(text)], extract_cvgs.py 33, batch_plot/extract_tofs.py 32, map_plot/extract_tofs.py 16, 21 *)
Definition to_float (s : str) : res Q :=
  match number s with Some x => Ok x | None => Err ValueError end.

(** One directory of extract_cvgs.py 20-33: pressure, coverage of CO, coverage of O.  A directory
    without the file is left out. *)
Fixpoint extract_cvgs (dirs : list (str * option cov_file)) : res (list (Q * Q * Q)) :=
  match dirs with
  | [] => Ok []
  | (_, None) :: t => extract_cvgs t
  | (d, Some f) :: t =>
      do o <- sum_coverages f O_names 0%Q;
      do co <- sum_coverages f CO_names 0%Q;
      do p <- to_float (skipn 2 d);
      do rest <- extract_cvgs t;
      Ok ((p, co, o) :: rest)
  end.

(** [tof], batch_plot/extract_tofs.py 27-30 and map_plot/extract_tofs.py 29-33: rates of the
    reactions at the given places of the sorted list of names *)
Fixpoint rates_at (rates : dict Q) (names : list str) (idxs : list nat) (acc : Q) : res Q :=
  match idxs with
  | [] => Ok acc
  | i :: t => do n <- at_index names i; do x <- dindex rates n; rates_at rates names t (acc + x)%Q
  end.
(** batch_plot/extract_tofs.py 27-30 (indices 0 and 2), map_plot/extract_tofs.py 29-33 (10 and 12) *)
Definition tof_at (idxs : list nat) (rates : dict Q) : res Q :=
  rates_at rates (sorted_set (map fst rates)) idxs 0%Q.

(** batch_plot/extract_tofs.py 18-32: a file that does not define reaction_rates is left out *)
Fixpoint extract_tofs (dirs : list (str * option (option (dict Q)))) : res (list (Q * Q)) :=
  match dirs with
  | [] => Ok []
  | (_, None) :: t | (_, Some None) :: t => extract_tofs t
  | (d, Some (Some rates)) :: t =>
      do tof <- tof_at [0%nat; 2%nat] rates;
      do p <- to_float (skipn 2 d);
      do rest <- extract_tofs t;
      Ok ((p, tof) :: rest)
  end.

(** ** map_plot *)
(** [locs["coverages"][-2][-1]], extract_O_cvgs.py 26; [locs["coverages"][-1][-1]],
    extract_CO_cvgs.py 27 *)
Definition from_end {A} (l : list A) (k : nat) : res A := at_index (rev l) k.
(** map_plot/extract_O_cvgs.py 26 *)
Definition pick_O (f : cov_file) : res Q := do l <- from_end (c_coverages f) 1; llast l.
(** map_plot/extract_CO_cvgs.py 27 *)
Definition pick_CO (f : cov_file) : res Q := do l <- from_end (c_coverages f) 0; llast l.
(** map_plot/extract_tofs.py 28-33 *)
Definition pick_tof (rates : option (dict Q)) : res Q :=
  match rates with
  | None => Err KeyError
  | Some r => tof_at [10%nat; 12%nat] r
  end.

(** The loops of map_plot/extract_*.py over the directories of the oxygen pressures and the
    directories of the carbon monoxide pressures in them ([ls] gives the names, here without "pO2-"
    and "pCO-"; None: the file is missing).  [pCOs] is assigned again in every round. *)
Section Map.
Context {D : Type}.
Variable pick : D -> res Q.
(** [execfile(filename, globs, locs)] and the value read: map_plot/extract_O_cvgs.py 23-27,
    extract_CO_cvgs.py 24-28, extract_tofs.py 25-34 *)
Definition read_run (d : option D) : res Q :=
  match d with None => Err IOError | Some f => pick f end.
(** The loop over the oxygen pressures: map_plot/extract_O_cvgs.py 13-28, extract_CO_cvgs.py
    14-29, extract_tofs.py 15-35 *)
Fixpoint map_rows (pCOs : option (list Q)) (rows : list (str * list (str * option D)))
    : res (option (list Q) * list Q * list (list Q)) :=
  match rows with
  | [] => Ok (pCOs, [], [])
  | (po, runs) :: t =>
      do o <- to_float po;
      do cs <- mapM (fun r => to_float (fst r)) runs;
      do row <- mapM (fun r => read_run (snd r)) runs;
      do (pCOs', os, m) <- map_rows (Some cs) t;
      Ok (pCOs', o :: os, row :: m)
  end.
(** The three arrays that are saved: pCOs, pO2s and the table.  (Rows of different lengths, which
    numpy does not make an array of two dimensions from, are kept as they are.) *)
Definition extract_map (rows : list (str * list (str * option D))) : res (list Q * list Q * list (list Q)) :=
  do (pCOs, os, m) <- map_rows None rows;
  match pCOs with
  | None => Err NameError
  | Some cs => Ok (cs, os, m)
  end.
End Map.
End Extract.

(** ** Sorting of the results, extract_cvgs.py 35-43, extract_tofs.py 34-41 *)
(** [np.sort] extract_cvgs.py 41 *)
Fixpoint insert_Q (x : Q) (l : list Q) : list Q :=
  match l with
  | [] => [x]
  | y :: t => if Qle_bool x y then x :: l else y :: insert_Q x t
  end.
(** [np.sort], extract_cvgs.py 41, batch_plot/extract_tofs.py 39 *)
Definition sort_Q (l : list Q) : list Q := fold_right insert_Q [] l.

Section Sort.
(** [np.argsort]; the order of equal entries is not fixed *)
Variable argsort : list Q -> list nat.
(** [values[np.argsort(p)]] extract_cvgs.py 39-40 *)
Definition in_order (p values : list Q) : res (list Q) := mapM (at_index values) (argsort p).
(** extract_cvgs.py 35-41 *)
Definition sorted_cvgs (l : list (Q * Q * Q)) : res (list Q * list Q * list Q) :=
  let p := map (fun x => fst (fst x)) l in
  do co <- in_order p (map (fun x => snd (fst x)) l);
  do o <- in_order p (map snd l);
  Ok (sort_Q p, co, o).
(** batch_plot/extract_tofs.py 34-39 *)
Definition sorted_tofs (l : list (Q * Q)) : res (list Q * list Q) :=
  let p := map fst l in
  do t <- in_order p (map snd l);
  Ok (sort_Q p, t).
End Sort.

(** ** plot_tof.py *)
(** [s.strip(chars)] plot_tof.py 25, 31 *)
Fixpoint lstrip_chars (chars s : str) : str :=
  match s with
  | c :: t => if has_char c chars then lstrip_chars chars t else s
  | [] => []
  end.
(** [s.strip(chars)], plot_tof.py 25, 31 *)
Definition strip_chars (chars s : str) : str := rev (lstrip_chars chars (rev (lstrip_chars chars s))).

(** [production in RxnEquation(rxn_str).tolist()[-1].chem_state()], plot_tof.py 26-28, 32-34 *)
Definition produces (production rxn : str) : res bool :=
  do states <- rxn_tolist rxn;
  do final <- llast states;
  Ok (Attr_Model.substring production final).

(** plot_tof.py 22-35: 1 for an index of a forward, -1 for one of a reverse process, 0 for neither *)
Definition process_sign (production process : str) : res Z :=
  if Attr_Model.endswith process (L "(->)") then
    do b <- produces production (strip_chars (L "(->)") process); Ok (if b then 1%Z else 0%Z)
  else if Attr_Model.endswith process (L "(<-)") then
    do b <- produces production (strip_chars (L "(<-)") process); Ok (if b then (-1)%Z else 0%Z)
  else Ok 0%Z.

(** [forward_indices] and [reverse_indices], plot_tof.py 21-35 *)
Fixpoint indices_of (z : Z) (signs : list Z) (k : nat) : list nat :=
  match signs with
  | [] => []
  | s :: t => if Z.eqb s z then k :: indices_of z t (S k) else indices_of z t (S k)
  end.

(** plot_tof.py 39-45 *)
Fixpoint add_at (rates : list Q) (idxs : list nat) (f : Q -> Q) (acc : Q) : res Q :=
  match idxs with
  | [] => Ok acc
  | i :: t => do x <- at_index rates i; add_at rates t f (acc + f x)%Q
  end.
(** plot_tof.py 40-44 *)
Definition tof_of (signs : list Z) (rates : list Q) : res Q :=
  do a <- add_at rates (indices_of 1 signs 0%nat) (fun x => x) 0%Q;
  add_at rates (indices_of (-1) signs 0%nat) Qopp a.

(** plot_tof.py 13-45 *)
Definition plot_tofs (production : str) (processes : list str) (rates_lists : list (list Q)) : res (list Q) :=
  do signs <- mapM (process_sign production) processes;
  mapM (tof_of signs) rates_lists.

(** ** plot_frequencies.py *)
(** [l[::2]] and [l[1::2]] *)
Fixpoint evens {A} (l : list A) : list A :=
  match l with
  | [] => []
  | x :: t => x :: match t with [] => [] | _ :: t' => evens t' end
  end.
(** [l[1::2]], plot_frequencies.py 18 *)
Definition odds {A} (l : list A) : list A := match l with [] => [] | _ :: t => evens t end.

(** plot_frequencies.py 12-20: the two rows of bars *)
Definition bars (occ : dict Z) : res (list Z * list Z) :=
  let reactions := sorted_set (map fst occ) in
  do f <- mapM (dindex occ) (evens reactions);
  do r <- mapM (dindex occ) (odds reactions);
  Ok (f, r).
