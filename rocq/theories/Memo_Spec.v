(** Vocabulary for the cache: what happened, the world and the object at a moment, equal keys. *)
From Coq Require Import String Ascii List ZArith Bool Reals.
From Verif Require Import PyBase PyBaseFacts Memo_Model.
Import ListNotations.
Local Open Scope list_scope.
Local Open Scope nat_scope.

Section Spec.
  Context {I W V : Type}.

  (** Operation number [m] of the history was [x] and gave [r]. *)
  Definition happened (ops : list (op I W)) (rs : list (option (res V))) (m : nat) (x : op I W)
    (r : option (res V)) : Prop := nth_error ops m = Some x /\ nth_error rs m = Some r.

  (** The world and the object looked up last, before operation number [m]. *)
  Fixpoint world_at (w : W) (ops : list (op I W)) (m : nat) : W :=
    match m, ops with
    | S m', World w' :: t => world_at w' t m'
    | S m', _ :: t => world_at w t m'
    | _, _ => w
    end.
  Fixpoint object_at (i : option I) (ops : list (op I W)) (m : nat) : option I :=
    match m, ops with
    | S m', Access i' :: t => object_at i' t m'
    | S m', _ :: t => object_at i t m'
    | _, _ => i
    end.
End Spec.

(** Dictionaries of Python: no key twice. *)
Definition wf_arg (a : arg) : Prop :=
  match a with AEnergies e => NoDup (map fst e) | _ => True end.
Definition wf_kw (kw : dict arg) : Prop :=
  NoDup (map fst kw) /\ forall n a, In (n, a) kw -> wf_arg a.

(** Equal arguments: the same names with the same values. *)
Definition same_arg (a b : arg) : Prop :=
  match a, b with
  | AEnergies x, AEnergies y => forall n, dget x n = dget y n
  | _, _ => a = b
  end.
Definition same_kw (x y : dict arg) : Prop :=
  forall n, match dget x n, dget y n with
            | Some a, Some b => same_arg a b
            | None, None => True
            | _, _ => False
            end.

(** The arguments with None for the energies replaced by the energies of the owner. *)
Definition filled (e : dict (list R)) (kw : dict arg) : dict arg :=
  map (fun na => match snd na with
                 | ANone => if str_eqb (fst na) (L "relative_energies")
                            then (fst na, AEnergies e) else na
                 | _ => na
                 end) kw.

(** What a call asks for; None if the energies of no owner are wanted. *)
Definition asked {I W} (energies : W -> I -> dict (list R)) (w : W) (i : option I) (kw : dict arg)
  : option (dict arg) :=
  match i with
  | Some j => Some (filled (energies w j) kw)
  | None => match dget kw (L "relative_energies") with Some ANone => None | _ => Some kw end
  end.

(** What a call of the rate constants may look like: the energies are an argument. *)
Definition keyed (kw : dict arg) : Prop :=
  wf_kw kw /\ exists a, dget kw (L "relative_energies") = Some a /\
    (a = ANone \/ exists e, e <> [] /\ a = AEnergies e).
