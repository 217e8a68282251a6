(** Root finding iterators (scaks/solvers/rootfinding_iterators.py) and the difference quotient
    Jacobian (scaks/functions.py 58-98). *)
From Coq Require Import String Ascii List ZArith Bool Arith Reals.
Import ListNotations.
From Verif Require Import PyBase PyReal Thermo_Model.
Local Open Scope list_scope.
Local Open Scope nat_scope.

Section Iterators.
  (** Points, function values, matrices, directions, norms and step lengths with the operations
      the two iterators use.  Nothing is assumed about them, so that they may be floats of any
      precision (trusted: mpmath, scipy.optimize.golden). *)
  Context {X F M D N A : Type}.
  Variable f : X -> res F.                       (* self.f, made a matrix *)
  Variable J : X -> res M.                       (* the Jacobian *)
  Variable norm : F -> res N.
  Variable neg : F -> F.
  Variable solve : M -> F -> res D.              (* Axb_solver, mp.lu_solve *)
  Variable step : X -> A -> D -> X.              (* x + l*s *)
  Variable xeqb : X -> X -> bool.                (* x == y *)

  (** What an iterator yields: the point, the norm and the value.
      rootfinding_iterators.py 147, 262. *)
  Definition item : Type := X * N * F.

  (** A generator: not yet started, suspended at its yield, or exhausted.
      rootfinding_iterators.py 92-147. *)
  Inductive cn_state := CNew (x0 : X) | CRun (iter_counter : nat) (x0 : X) | CEnd.

  Variable constraint : X -> res X.
  (** [golden(fl)]: a step length for a function of the step length. *)
  Variable golden : (A -> res N) -> res A.

  (** rootfinding_iterators.py 111-147, one turn of the loop of [ConstrainedNewton.__iter__].
      The two tests with a log message only have no effect here. *)
  Definition cn_turn (iter_counter : nat) (x0 : X) : res (item * cn_state) :=
    let iter_counter := S iter_counter in
    let constrain := if iter_counter <=? 5 then (fun x => Ok x) else constraint in
    do fx <- f x0;
    do Jx <- J x0;
    do s <- match solve Jx (neg fx) with
            | Err ZeroDivisionError => Err ValueError
            | r => r
            end;
    do l <- golden (fun l => do fx <- f (step x0 l s); norm fx);
    do x1 <- constrain (step x0 l s);
    do fx <- f x1;
    do fxnorm <- norm fx;
    Ok ((x1, fxnorm, fx), if xeqb x1 x0 then CEnd else CRun iter_counter x1).

  (** rootfinding_iterators.py 92-147, [ConstrainedNewton.__iter__]: the next item, or None when
      the generator is exhausted. *)
  Definition cn_next (st : cn_state) : res (option item * cn_state) :=
    match st with
    | CNew x0 =>
        do fx <- f x0;
        do _ <- norm fx;
        do (i, st) <- cn_turn 0 x0;
        Ok (Some i, st)
    | CRun n x0 => do (i, st) <- cn_turn n x0; Ok (Some i, st)
    | CEnd => Ok (None, CEnd)
    end.

  (** The states of [MDNewton.__iter__], rootfinding_iterators.py 218-262. *)
  Inductive md_state := MNew (x0 : X) | MRun (x0 : X) (fx : F) (fxnorm : N) | MEnd.

  Variable add : X -> D -> X.                    (* x + s *)
  Variable one : A.
  Variable half : A -> A.                        (* l /= 2 *)
  Variable nltb : N -> N -> bool.                (* newnorm < fxnorm *)

  (** rootfinding_iterators.py 245-259, the damping loop of [MDNewton.__iter__]; the number of
      turns is not bounded in the code.  Returns the point, its norm, the last value computed
      and whether the point is stationary. *)
  Fixpoint md_damp (fuel : nat) (x0 : X) (s : D) (fxnorm : N) (l : A) (x1 : X) (fx : F)
    : res (item * bool) :=
    match fuel with
    | O => Err OutOfFuel
    | S k =>
        if xeqb x1 x0 then Ok ((x0, fxnorm, fx), true)
        else
          do fx <- f x1;
          do newnorm <- norm fx;
          if nltb newnorm fxnorm then Ok ((x1, newnorm, fx), false)
          else md_damp k x0 s fxnorm (half l) (step x0 (half l) s) fx
    end.

  (** rootfinding_iterators.py 233-262, one turn of the outer loop. *)
  Definition md_turn (fuel : nat) (x0 : X) (fx : F) (fxnorm : N) : res (item * md_state) :=
    let fxn := neg fx in
    do Jx <- J x0;
    do s <- solve Jx fxn;
    do (i, cancel) <- md_damp fuel x0 s fxnorm one (add x0 s) fx;
    let '(x, n, v) := i in
    Ok (i, if cancel : bool then MEnd else MRun x v n).

  (** rootfinding_iterators.py 218-262, [MDNewton.__iter__]. *)
  Definition md_next (fuel : nat) (st : md_state) : res (option item * md_state) :=
    match st with
    | MNew x0 =>
        do fx <- f x0;
        do fxnorm <- norm fx;
        do (i, st) <- md_turn fuel x0 fx fxnorm;
        Ok (Some i, st)
    | MRun x0 fx fxnorm => do (i, st) <- md_turn fuel x0 fx fxnorm; Ok (Some i, st)
    | MEnd => Ok (None, MEnd)
    end.
End Iterators.
Arguments cn_state : clear implicits.
Arguments md_state : clear implicits.

(** [xj[j] += delta] functions.py 79-97. *)
Fixpoint shift_at (x : list R) (j : nat) (d : R) : list R :=
  match x, j with
  | [], _ => []
  | a :: t, O => (a + d)%R :: t
  | a :: t, S k => a :: shift_at t k d
  end.
(** The difference of two matrices with one column. functions.py 79-97. *)
Definition col_minus (a b : list R) : res (list R) :=
  if Nat.eqb (length a) (length b)
  then Ok (map (fun p => fst p - snd p)%R (combine a b)) else Err ValueError.

(** functions.py 79-97: column [j] of the Jacobian.  In [vec2list] both number representations
    give the entries back, others give None.  An unknown direction leaves [Jj] unbound; both
    are noticed only if there is an entry to store. *)
Definition jacobian_column (f : list R -> res (list R)) (x fx : list R) (num_repr : str) (h : R)
    (direction : str) (j : nat) : res (list R) :=
  do xj <- lindex x j;
  let delta := Rmax (Rabs (h * xj)) h in
  let known := str_eqb num_repr (L "gmpy") || str_eqb num_repr (L "mpmath") in
  do col <-
    (if str_eqb direction (L "left") then
       do v <- f (shift_at x j (- delta)%R);
       do d <- col_minus v fx;
       do q <- mapM (fun a => pydiv a (- delta)%R) d;
       Ok (Some q)
     else if str_eqb direction (L "right") then
       do v <- f (shift_at x j delta);
       do d <- col_minus v fx;
       do q <- mapM (fun a => pydiv a delta) d;
       Ok (Some q)
     else Ok None);
  match fx, col with
  | [], _ => Ok []
  | _, None => Err UnboundLocalError
  | _, Some q => if known then Ok q else Err TypeError
  end.

(** functions.py 58-98, [numerical_jacobian], as the list of its columns; [x] is a mutable
    vector.  Floats are exact reals here. *)
Definition numerical_jacobian (f : list R -> res (list R)) (x : list R) (num_repr : str) (h : R)
    (direction : str) : res (list (list R)) :=
  do fx <- f x;
  mapM (jacobian_column f x fx num_repr h direction) (seq 0 (length x)).
