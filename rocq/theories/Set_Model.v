(** Setting the components of a model (scaks/models/kinetic_model.py 379-414), on the objects
    of Attr_Model. *)
From Coq Require Import String Ascii List Bool.
Import ListNotations.
From Verif Require Import PyBase Attr_Model.
Local Open Scope list_scope.

Section Components.
(** [issubclass(class, base)] *)
Variable subclass : str -> str -> bool.

(** [isinstance(value, base)]; numbers, texts and collections are never components.
    kinetic_model.py 384-386 *)
Definition isinstance (v : tree) (base : str) : bool :=
  match v with TObj c => subclass c base | _ => false end.

(** [setattr(self, mangled_name(self, n), value)]: no class has an attribute of that name.
    kinetic_model.py 387-388, 412-414; functions.py 115-140 *)
Definition set_private (w : world) (i : nat) (n : str) (p : nat) : res unit * world :=
  match nth_error (objects w) i with
  | None => (Err NameError, w)
  | Some o => (Ok tt, store w i (private_name (o_class o) n) p)
  end.

(** kinetic_model.py 379-388 *)
Definition set_solver (w : world) (i p : nat) : res unit * world :=
  if isinstance (contents w p) (L "SolverBase") then set_private w i (L "solver") p
  else (Err TypeError, w).

(** kinetic_model.py 408-414; the definition at 390-399, which looks at the class of the value,
    is replaced by this one when the class is made. *)
Definition set_corrector (w : world) (i p : nat) : res unit * world :=
  set_private w i (L "corrector") p.

(** kinetic_model.py 401-406: the value is taken from the name [solver], which is not
    defined there; [p], the argument, is not used. *)
Definition set_plotter (w : world) (i p : nat) : res unit * world := (Err NameError, w).

(** One setting after the other. kinetic_model.py 379-388 *)
Fixpoint set_solvers (w : world) (i : nat) (ps : list nat) : world :=
  match ps with [] => w | p :: t => set_solvers (snd (set_solver w i p)) i t end.
End Components.
