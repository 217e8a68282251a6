(** Model of the operations of scaks/parsers/rxn_parser.py that take another object:
    [ChemFormula.conserve], [ChemState.conserve] and [ChemFormula.__add__]. *)
From Coq Require Import String Ascii List ZArith Bool.
Import ListNotations.
From Verif Require Import PyBase Rxn_Model.

(** What a caller may hand over as [another] / [formula_inst], rxn_parser.py:224, 303,
    386: a state (145-148, its text), a formula (293-323), or something of any other
    class, of which nothing is read before its class is tested.  Simplification: no
    subclasses (the project defines none), so [isinstance] is a test of the class. *)
Inductive pyobj := OState (st : str) | OFormula (f : formula) | OOther.

(** What a [conserve] may return, rxn_parser.py:237, 258, 419: a truth value or an
    exception object (handed back, not raised). *)
Inductive answer := ABool (b : bool) | AException (e : exn).

(** [ChemFormula.conserve], rxn_parser.py:386-419, for an object of any class. *)
Definition formula_conserve_any (f : formula) (o : pyobj) : res answer :=
  match o with
  | OFormula f2 => do b <- formula_conserve f f2; Ok (ABool b)
  | _ => Err ParameterError
  end.

(** [ChemState.conserve], rxn_parser.py:224-258, for an object of any class.  Line 237
    is [return ParameterError(msg)]. *)
Definition state_conserve_any (st : str) (o : pyobj) : res answer :=
  match o with
  | OState st2 => do b <- state_conserve st st2; Ok (ABool b)
  | _ => Ok (AException ParameterError)
  end.

(** What [self.formula] is, rxn_parser.py:306, 457-461: a bound method; [formula] is
    nowhere assigned as an attribute of the object. *)
Inductive member := MText (s : str) | MMethod.
(** [self.formula] (without call), rxn_parser.py:306, 457-461. *)
Definition formula_member (f : formula) : member := MMethod.
(** [x + text], rxn_parser.py:306: only a text can be extended by a text. *)
Definition member_plus (x : member) (t : str) : res str :=
  match x with MText s => Ok (s ++ t) | MMethod => Err TypeError end.
(** [formula_inst.formula], rxn_parser.py:306: no other class has such a member. *)
Definition other_member (o : pyobj) : res member :=
  match o with OFormula f => Ok (formula_member f) | _ => Err AttributeError end.

(** [ChemFormula.__add__], rxn_parser.py:303-307; the left sum is computed before
    [formula_inst] is looked at.  The result is the new state, by its text. *)
Definition formula_add (f : formula) (o : pyobj) : res str :=
  do l <- member_plus (formula_member f) (L " + ");
  do m <- other_member o;
  match m with MText s => Ok (l ++ s) | MMethod => Err TypeError end.
