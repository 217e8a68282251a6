(** Weighted fractions of sites. *)
From Coq Require Import String Ascii List ZArith NArith Bool Arith QArith.
Import ListNotations.
From Verif Require Import PyBase.
Local Open Scope list_scope.
Local Open Scope nat_scope.

(** Sum of [f i] for [i < n]. *)
Fixpoint Qsum_below (n : nat) (f : nat -> Q) : Q :=
  match n with O => 0%Q | S k => (Qsum_below k f + f k)%Q end.

(** The weight of lattice point [i]: the ratio of its basis site. *)
Definition weight (ratios : list Q) (i : nat) : Q := nth (i mod length ratios) ratios 0%Q.

(** Weight of the lattice points of type [t], per unit cell. *)
Definition fraction (ratios : list Q) (types : list str) (t : str) : Q :=
  (Qsum_below (length types)
     (fun i => if str_eqb (nth i types []) t then weight ratios i else 0) /
   inject_Z (Z.of_nat (length types / length ratios)))%Q.

(** A lattice of whole unit cells, at least one. *)
Definition whole_cells (ratios : list Q) (types : list str) : Prop :=
  types <> [] /\ ratios <> [] /\ exists k, length types = k * length ratios.

Definition total (l : list Q) : Q := fold_right Qplus 0%Q l.
