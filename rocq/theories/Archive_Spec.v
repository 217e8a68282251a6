(** Vocabulary for the archive: the latest value in a history. *)
From Coq Require Import String Ascii List Arith Bool.
From Verif Require Import PyBase Archive_Model.
Import ListNotations.
Local Open Scope list_scope.
Local Open Scope nat_scope.

Section Spec.
  Context {V : Type}.
  Variable selected : nat -> str -> bool.

  (** [v] is the value that tool [t] archived last under [name] in this process. *)
  Definition latest (ops : list (op V)) (t : nat) (name : str) (v : V) : Prop :=
    selected t name = true /\
    exists a b, ops = a ++ Archive t name v :: b /\ ~ In Restart b /\
      forall v', ~ In (Archive t name v') b.

  (** The operation writes the file [p]. *)
  Definition writes (path : nat -> str) (opens : str -> bool) (p : str) (x : op V) : Prop :=
    match x with
    | Archive t name _ => selected t name = true /\ path t = p /\ opens p = true
    | Restart => False
    end.
End Spec.

(** What reading a dictionary back means for a pair of pickle functions. *)
Definition faithful {V B} (dump : dict V -> list B * option exn) (load : list B -> res (dict V)) : Prop :=
  forall d, snd (dump d) = None -> load (fst (dump d)) = Ok d.
