(** Model of the construction of a mean field solver as far as numbers are concerned
    (scaks/solvers/mean_field_solver.py 24-67; the other branches are commented out) and of the
    constructors of the root finding iterators (scaks/solvers/rootfinding_iterators.py 14-22,
    69-91, 200-217), with the calls in scaks/solvers/steady_state_solver.py 820-836. *)
From Coq Require Import String Ascii List ZArith Bool.
From Verif Require Import PyBase.
Import ListNotations.
Local Open Scope list_scope.

(** What a construction uses of the model: [numerical_representation] and [decimal_precision].
    mean_field_solver.py 60-61 *)
Record owner := { ow_representation : str; ow_precision : Z }.

(** The constructor, lines 24-52: [precision] is [mp.mp.dps], one number for the whole program.
    [_mpf] is set in the branch only; line 43 reads it.  What comes before and after cannot
    depend on the two attributes. *)
Definition construct (o : owner) (precision : Z) : res unit * Z :=
  if str_eqb (ow_representation o) (L "mpmath") then (Ok tt, ow_precision o)
  else (Err AttributeError, precision).

(** One construction after the other; the precision at the end. mean_field_solver.py 24-67 *)
Fixpoint constructs (os : list owner) (precision : Z) : Z :=
  match os with [] => precision | o :: t => constructs t (snd (construct o precision)) end.

(** Keyword arguments: functions and types, of which only the presence matters to the
    constructors; values are of a type [V]. *)
Section Iterators.
  Context {V : Type}.

  (** rootfinding_iterators.py 17-22: the attributes set from the keyword arguments. *)
  Fixpoint set_attributes (attributes kwargs : dict V) : dict V :=
    match kwargs with
    | [] => attributes
    | (key, v) :: t => set_attributes (dset attributes (ch "_" :: key) v) t
    end.

  (** 74-75 *)
  Definition essential_params : list str :=
    [L "J"; L "constraint"; L "norm"; L "mpfloat"; L "matrix"; L "Axb_solver"].
  (** rootfinding_iterators.py 77-80 *)
  Fixpoint check_params (attributes : dict V) (params : list str) : res unit :=
    match params with
    | [] => Ok tt
    | p :: t => if dmem attributes (ch "_" :: p) then check_params attributes t else Err ParameterError
    end.
  (** 69-91, [ConstrainedNewton.__init__]: the attributes of the new object; [real_constraint] is
      the attribute [_constraint]. *)
  Definition constrained_newton (kwargs : dict V) : res (dict V) :=
    let attributes := set_attributes [] kwargs in
    do _ <- check_params attributes essential_params;
    do c <- dindex attributes (L "_constraint");
    Ok (dset attributes (L "real_constraint") c).

  (** A starting point: a list or tuple of numbers, or a matrix with so many rows and columns.
      [mp.matrix] of a list of numbers is a column; of an empty list an IndexError.
      rootfinding_iterators.py 200-205 *)
  Inductive point := Numbers (n : nat) | Matrix (rows cols : nat).

  (** 200-217, [MDNewton.__init__]: attributes [J] (None: the numerical one of mpmath), [norm] (the
      one of mpmath, [mp_norm]) and [verbose]. *)
  Record damped := { d_rows : nat; d_J : option V; d_norm : V; d_verbose : V }.
  (** rootfinding_iterators.py 200-217 *)
  Definition md_newton (mp_norm : V) (x0 : point) (kwargs : dict V) : res damped :=
    do shape <- (match x0 with
                 | Numbers O => Err IndexError
                 | Numbers n => Ok (n, 1)
                 | Matrix r c => Ok (r, c)
                 end);
    if Nat.eqb (snd shape) 1 then
      do v <- dindex kwargs (L "verbose");
      Ok {| d_rows := fst shape; d_J := dget kwargs (L "J"); d_norm := mp_norm; d_verbose := v |}
    else Err AssertionError.
End Iterators.
Arguments damped : clear implicits.

(** steady_state_solver.py 820-836: the iterator for a starting point of [n] coverages; [val]: the
    value the solver has for a keyword. *)
Definition iterator {V} (val : str -> V) (mp_norm : V) (rootfinding : str) (n : nat)
    : res (dict V + damped V) :=
  if str_eqb rootfinding (L "ConstrainedNewton") then
    do o <- constrained_newton (map (fun k => (k, val k))
              [L "J"; L "constraint"; L "norm"; L "mpfloat"; L "matrix"; L "Axb_solver"]);
    Ok (inl o)
  else if str_eqb rootfinding (L "MDNewton") then
    do o <- md_newton mp_norm (Numbers n) (map (fun k => (k, val k)) [L "J"; L "verbose"]);
    Ok (inr o)
  else Err ParameterError.
