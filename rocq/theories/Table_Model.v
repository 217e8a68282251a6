(** The tables that the solvers write into the log: [__log_rates], [__log_reversibilities],
    [__log_tof] (scaks/solvers/mean_field_solver.py 240-268, 486-510, 558-577), [__log_sscvg],
    [__log_single_XTRC], [__log_XTRC], [__log_single_XRC]
    (scaks/solvers/steady_state_solver.py 972-1050, 1149-1172).

    Simplifications.  The text of a number is an argument: [sci16 x] stands for
    ['{:.16e}'.format(float(x))], [sci4 x] for ['{:.4e}'.format(float(x))]; [float] does not
    fail.  Names and titles are texts.  [__log_single_XTRC] and [__log_XTRC] are called from
    nowhere in the repository. *)
From Coq Require Import String Ascii List ZArith NArith Bool Arith.
Import ListNotations.
From Verif Require Import PyBase Log_Model.
Local Open Scope list_scope.
Local Open Scope nat_scope.

(** ['{:<ws}'.format(s)]: blanks up to the width, longer texts as they are.
    steady_state_solver.py:976-989, mean_field_solver.py:253-268. *)
Definition left (w : nat) (s : str) : str := s ++ repeat (ch " ") (w - length s).

(** [str(i).zfill(2)]; there is no sign. *)
Definition zfill2 (s : str) : str := repeat (ch "0") (2 - length s) ++ s.

(** The character of line ends, steady_state_solver.py:976-988. *)
Definition nl : ascii := ascii_of_N 10.
(** ['-'*n + '\n'] (steady_state_solver.py:978, 1004) *)
Definition dashes (n : nat) : str := repeat (ch "-") n ++ [nl].

(** The logger of the class and the message with level INFO, if logging is allowed:
    mean_field_solver.py 28, 507-508, 574-575; steady_state_solver.py 30, 991-992, 1017-1018,
    1046-1047, 1168-1169. *)
Definition mean_field_logger : str := L "model.solvers.MeanFieldSolver".
(** Same lines: mean_field_solver.py 28, 507-508, 574-575; steady_state_solver.py 30, 991-992, 1017-1018, 1046-1047, 1168-1169. *)
Definition steady_state_logger : str := L "model.solvers.SteadyStateSolver".
(** Same lines: mean_field_solver.py 28, 507-508, 574-575; steady_state_solver.py 30, 991-992, 1017-1018, 1046-1047, 1168-1169. *)
Definition info (allowed : bool) (logger text : str) (w : world) : world :=
  if allowed then log logger 20 text w else w.

Section Tables.
  Variable D : Type.
  Variables sci16 sci4 : D -> str.

  (** One row [" {:<10s}{:<ws}{:<30.16e}\n"]. *)
  Definition row (w i : nat) (name : str) (x : D) : str :=
    L " " ++ left 10 (zfill2 (dec (N.of_nat i))) ++ left w name ++ left 30 (sci16 x) ++ [nl].

  (** [for idx, (name, x) in enumerate(zip(names, xs))]
      (steady_state_solver.py:985, 1011, 1162; mean_field_solver.py:500-503, 568-571) *)
  Fixpoint rows (w i : nat) (names : list str) (xs : list D) : str :=
    match names, xs with
    | name :: names', x :: xs' => row w i name x ++ rows w (S i) names' xs'
    | _, _ => []
    end.

  (** The shape that five of the tables share: title, heads of the columns, rows between lines.
      mean_field_solver.py:487-510, 558-577, steady_state_solver.py:972-1021, 1149-1172. *)
  Definition table (title head1 head2 : str) (w len : nat) (names : list str) (xs : list D) : str :=
    title ++ [nl] ++ ([nl] ++ L " " ++ left 10 (L "index") ++ left w head1 ++ left 30 head2 ++ [nl])
    ++ dashes len ++ rows w 0 names xs ++ dashes len.

  (** mean_field_solver.py 558-577 *)
  Definition log_tof (allowed : bool) (tof_list : list D) (gas_names : list str) (w : world) : world * str :=
    let all_data := table (L "Turnover Frequencies:") (L "gas name") (L "TOF") 25 60 gas_names tof_list in
    (info allowed mean_field_logger all_data w, all_data).

  (** mean_field_solver.py 486-510 *)
  Definition log_reversibilities (allowed : bool) (rxn_expressions : list str) (reversibilities : list D)
      (w : world) : world * str :=
    let all_data := table (L "Reversibilities:") (L "elementary reaction") (L "reversibilities") 70 100
                      rxn_expressions reversibilities in
    (info allowed mean_field_logger all_data w, all_data).

  (** steady_state_solver.py 972-994 *)
  Definition log_sscvg (allowed : bool) (cvgs : list D) (ads_names : list str) (w : world) : world * str :=
    let all_data := table (L "Steady State Coverages:") (L "intermediate name") (L "steady state coverage") 25 60
                      ads_names cvgs in
    (info allowed steady_state_logger all_data w, all_data).

  (** steady_state_solver.py 997-1020 *)
  Definition log_single_XTRC (allowed : bool) (adsorbate_names transition_state_names : list str) (XTRCs : list D)
      (gas_name : str) (w : world) : world * str :=
    let all_data := table (L "Degree of Rate Control for " ++ gas_name ++ L ":") (L "intermediate") (L "XTRC") 25 60
                      (adsorbate_names ++ transition_state_names) XTRCs in
    (info allowed steady_state_logger all_data w, all_data).

  (** steady_state_solver.py 1149-1171 *)
  Definition log_single_XRC (allowed : bool) (rxn_expressions : list str) (XRCs : list D) (gas_name : str)
      (w : world) : world * str :=
    let all_data := table (L "Degree of Rate Control for " ++ gas_name ++ L ":") (L "elementary reaction") (L "XRC")
                      70 100 rxn_expressions XRCs in
    (info allowed steady_state_logger all_data w, all_data).

  (** steady_state_solver.py 1040-1042: the rows of one gas. *)
  Fixpoint gas_rows (gas : str) (names : list str) (xs : list D) : str :=
    match names, xs with
    | name :: names', x :: xs' =>
        (left 15 gas ++ left 30 name ++ left 30 (sci16 x) ++ [nl]) ++ gas_rows gas names' xs'
    | _, _ => []
    end.
  (** steady_state_solver.py 1039-1042 *)
  Fixpoint all_rows (gases names : list str) (matrix : list (list D)) : str :=
    match gases, matrix with
    | gas :: gases', xs :: matrix' => gas_rows gas names xs ++ all_rows gases' names matrix'
    | _, _ => []
    end.
  (** steady_state_solver.py 1023-1049 *)
  Definition log_XTRC (allowed : bool) (gas_names adsorbate_names transition_state_names : list str)
      (XTRC_matrix : list (list D)) (w : world) : world * str :=
    let all_data := L "Degree of Thermodynamic Rate Control:" ++ [nl]
      ++ ([nl] ++ left 15 (L "gas") ++ left 30 (L "intermediate") ++ left 30 (L "XTRC") ++ [nl])
      ++ dashes 70 ++ all_rows gas_names (adsorbate_names ++ transition_state_names) XTRC_matrix ++ dashes 70 in
    (info allowed steady_state_logger all_data w, all_data).

  (** [sorted(l, key=lambda x: len(x))], which is stable. mean_field_solver.py:252. *)
  Fixpoint insert_by_len (x : str) (l : list str) : list str :=
    match l with
    | [] => [x]
    | y :: t => if length x <=? length y then x :: l else y :: insert_by_len x t
    end.
  (** mean_field_solver.py:252. *)
  Definition sorted_by_len (l : list str) : list str := fold_right insert_by_len [] l.

  (** mean_field_solver.py 262-263 *)
  Fixpoint rate_rows (w : nat) (rxns : list str) (f r : list D) : str :=
    match rxns, f, r with
    | e :: rxns', x :: f', y :: r' =>
        (left w e ++ left 12 (sci4 x) ++ left 12 (sci4 y) ++ [nl]) ++ rate_rows w rxns' f' r'
    | _, _, _ => []
    end.
  (** mean_field_solver.py 240-268; [log] is the flag of the callers (234, 426).  The cut-off
      line is as long as the title with its newline. *)
  Definition log_rates (allowed flag : bool) (rxn_expressions : list str) (fdata rdata : list D) (fname rname : str)
      (w : world) : res world :=
    if allowed && flag then
      do widest <- llast (sorted_by_len rxn_expressions);
      let rxn_width := length widest in
      let title := left (rxn_width + 3) (L "reactions") ++ left 12 fname ++ left 12 rname ++ [nl] in
      let line := dashes (length title) in
      let content := title ++ line ++ rate_rows (rxn_width + 3) rxn_expressions fdata rdata in
      Ok (log mean_field_logger 20 ([nl; nl] ++ content ++ line) w)
    else Ok w.
End Tables.
