(** What splitting work over ranks should mean. *)
From Coq Require Import String Ascii List ZArith Bool Arith.
Import ListNotations.
From Verif Require Import PyBase Mpi_Model.
Local Open Scope list_scope.
Local Open Scope nat_scope.

(** All [size] ranks call [split_seq] on the same sequence and get these pieces. *)
Definition all_ranks_get {A} (size : nat) (s : list A) (pieces : list (list A)) : Prop :=
  length pieces = size /\
  forall r p, nth_error pieces r = Some p -> split_seq size r s = Ok p.

(** Every rank then merges: rank [r] passes its own piece and receives them all. *)
Definition merged_on_rank {A} (size r : nat) (pieces : list (list A)) : option (list A) :=
  match nth_error pieces r with
  | Some own => Some (merge_seq size own pieces)
  | None => None
  end.

Definition zsum (l : list Z) : Z := fold_right Z.add 0%Z l.
