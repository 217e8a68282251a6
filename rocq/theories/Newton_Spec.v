(** What a user expects of the root finding iterators. *)
From Coq Require Import String Ascii List ZArith Bool Arith Reals.
Import ListNotations.
From Verif Require Import PyBase.
Local Open Scope list_scope.
Local Open Scope nat_scope.

(** A generator started in one state has given these items, one after the other, and is now in
    another state. *)
Inductive yields {I O : Type} (next : I -> res (option O * I)) : I -> list O -> I -> Prop :=
| yields_nothing : forall st, yields next st [] st
| yields_item : forall st o st1 os st2,
    next st = Ok (Some o, st1) -> yields next st1 os st2 -> yields next st (o :: os) st2.

(** A list of items in which item number [k] (counted from [k0] on) stands in a relation to
    the item before it; [prev] comes before the first. *)
Fixpoint each_from {P O : Type} (pt : O -> P) (rel : nat -> P -> O -> bool -> Prop) (k0 : nat)
    (prev : P) (os : list O) : Prop :=
  match os with
  | [] => True
  | o :: t =>
      rel k0 prev o (match t with [] => true | _ => false end) /\
      each_from pt rel (S k0) (pt o) t
  end.

Section Claims.
  Context {X F M D N A : Type}.
  Variable f : X -> res F.
  Variable norm : F -> res N.

  (** An item is reported with its own function value and norm. *)
  Definition own_residual (i : X * N * F) : Prop :=
    let '(x, n, v) := i in f x = Ok v /\ norm v = Ok n.

  Definition own_norm (i : X * N * F) : Prop :=
    let '(x, n, _) := i in exists v, f x = Ok v /\ norm v = Ok n.

  Variable J : X -> res M.
  Variable neg : F -> F.
  Variable solve : M -> F -> res D.
  Variable step : X -> A -> D -> X.

  (** The Newton direction at a point. *)
  Definition direction (x : X) (d : D) : Prop :=
    exists v m, f x = Ok v /\ J x = Ok m /\ solve m (neg v) = Ok d.

  (** The residual norm along a direction. *)
  Definition along (x : X) (d : D) (l : A) : res N := bind (f (step x l d)) norm.

  Variable golden : (A -> res N) -> res A.
  Variable constraint : X -> res X.
  Variable xeqb : X -> X -> bool.

  (** Item number [k] of the constrained iteration: a line search along the Newton direction,
      followed from the sixth item on by the constraint; only the last item may repeat the
      point before it. *)
  Definition constrained_step (k : nat) (x0 : X) (i : X * N * F) (last : bool) : Prop :=
    own_residual i /\
    (exists d l, direction x0 d /\ golden (along x0 d) = Ok l /\
       (if k <? 6 then step x0 l d = fst (fst i) else constraint (step x0 l d) = Ok (fst (fst i)))) /\
    (xeqb (fst (fst i)) x0 = true -> last = true).

  Variable add : X -> D -> X.
  Variable one : A.
  Variable half : A -> A.
  Variable nltb : N -> N -> bool.

  (** The step lengths 1, 1/2, 1/4, ... as they are computed, and the points tried with them. *)
  Fixpoint halved (k : nat) : A := match k with O => one | S k => half (halved k) end.
  Definition tried (x0 : X) (d : D) (k : nat) : X :=
    match k with O => add x0 d | _ => step x0 (halved k) d end.

  (** The norm at a point is not below [n]. *)
  Definition rejected (x0 : X) (n : N) (x : X) : Prop :=
    xeqb x x0 = false /\ exists v m, f x = Ok v /\ norm v = Ok m /\ nltb m n = false.

  (** One item of the damped iteration after the item [(x0, n0)]: either the first of the tried
      points that has a smaller norm, or, when a tried point is the old point, the old point
      again, as last item. *)
  Definition damped_step (p : X * N) (i : X * N * F) (last : bool) : Prop :=
    let '(x0, n0) := p in
    let '(x, n, v) := i in
    exists d k, direction x0 d /\ (forall j, j < k -> rejected x0 n0 (tried x0 d j)) /\
      ((x = tried x0 d k /\ xeqb x x0 = false /\ f x = Ok v /\ norm v = Ok n /\ nltb n n0 = true)
       \/ (xeqb (tried x0 d k) x0 = true /\ x = x0 /\ n = n0 /\ last = true /\
           f (match k with O => x0 | S j => tried x0 d j end) = Ok v)).
End Claims.

(** A vector moved along one coordinate. *)
Definition moved (x : list R) (j : nat) (d : R) : list R :=
  map (fun p => if Nat.eqb (fst p) j then (snd p + d)%R else snd p) (combine (seq 0 (length x)) x).

(** The length of the difference step in direction [j]. *)
Definition difference_step (h : R) (x : list R) (j : nat) : R := Rmax (Rabs (h * nth j x 0%R)) h.

(** The side on which the difference is taken. *)
Definition signed (left : bool) (x : R) : R := if left then (- x)%R else x.
Definition side_name (left : bool) : str := if left then L "left" else L "right".
