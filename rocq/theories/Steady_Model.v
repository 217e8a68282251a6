(** The search for a steady state (scaks/solvers/steady_state_solver.py 684-705, 758-970).
    Logging is left out. *)
From Coq Require Import String Ascii List ZArith Bool Arith Reals.
Import ListNotations.
From Verif Require Import PyBase PyReal.
Local Open Scope list_scope.
Local Open Scope nat_scope.

(** What the search does to others: the calls of the methods of plugin number [ap] of the list
    [analysis], and the calls of the hybrid method. steady_state_solver.py 758-970. *)
Inductive event :=
| Setup (ap outer : nat)
| Register (ap inner outer : nat)
| Finalize (ap outer : nat)
| Hybrid (outer : nat).

(** [max([abs(dtheta_dt) for dtheta_dt in dtheta_dts])] steady_state_solver.py 684-707. *)
Definition py_max (l : list R) : res R :=
  match l with [] => Err ValueError | x :: t => Ok (fold_left Rmax t x) end.
(** steady_state_solver.py 684-705, [get_residual], for the function [f]. *)
Definition get_residual (f : list R -> res (list R)) (cvgs : list R) : res R :=
  do v <- f cvgs; py_max (map Rabs v).

(** steady_state_solver.py 868-875: is there a value below zero?  For no value at all the
    variable is not bound (then the residual could not have been computed either). *)
Definition lt_zero (x : list R) : res bool :=
  match x with [] => Err UnboundLocalError | _ => Ok (existsb (fun c => Rltb c 0) x) end.

Section Search.
  (** States of a root finding iterator. *)
  Context {I : Type}.
  (** What the search uses of the solver and the model.  The hybrid method and the plugins are
      code of others: what they do may depend on all that happened before; a plugin method may
      raise an exception. steady_state_solver.py 758-832. *)
  Record search := {
    q_f : list R -> res (list R);        (* steady_state_function, given relative energies *)
    q_f0 : list R -> res (list R);       (* steady_state_function, relative energies of the model *)
    q_norm : list R -> res R;
    q_constrain : list R -> res (list R);
    q_rootfinding : str;
    q_constrained : list R -> I;         (* ConstrainedNewton(f, c0, ...) *)
    q_damped : list R -> I;              (* MDNewton(f, c0, ...) *)
    q_next : I -> res (option (list R * R * list R) * I);
    q_hybrid : option (list event -> nat -> res (list R));
    q_tolerance : R;
    q_max : nat;                         (* max_rootfinding_iterations *)
    q_single_pt : bool;
    q_intervals : list Z;                (* the attribute interval of every plugin *)
    q_call : list event -> event -> option exn
  }.
  (** steady_state_solver.py 758-970: the attributes it sets. *)
  Record state := {
    coverages : option (list R);         (* self._coverages, if set *)
    error : option R;                    (* self._error *)
    converged : bool;
    trace : list event
  }.
  (** [self._coverages], [self._error] and the flag, steady_state_solver.py 801-814, 890-897. *)
  Definition found (x : list R) (e : R) (st : state) : state :=
    {| coverages := Some x; error := Some e; converged := true; trace := trace st |}.
  (** [self._coverages] and [self._error], steady_state_solver.py 920-921. *)
  Definition current (x : list R) (e : R) (st : state) : state :=
    {| coverages := Some x; error := Some e; converged := converged st; trace := trace st |}.
  (** A call is made: steady_state_solver.py 861, 926-928, 941, 952, 956. *)
  Definition happen (e : event) (st : state) : state :=
    {| coverages := coverages st; error := error st; converged := converged st; trace := trace st ++ [e] |}.

  Variable q : search.

  (** [for ap in self._owner.analysis: ap.method(...)] steady_state_solver.py 861, 956. *)
  Fixpoint calls (es : list event) (st : state) : res unit * state :=
    match es with
    | [] => (Ok tt, st)
    | e :: t => match q_call q (trace st) e with
                | Some x => (Err x, happen e st)
                | None => calls t (happen e st)
                end
    end.
  (** The loops over the plugins, steady_state_solver.py 860-861, 955-956. *)
  Definition all_plugins (e : nat -> event) : list event :=
    map e (seq 0 (length (q_intervals q))).

  (** steady_state_solver.py 913-917. *)
  Fixpoint register (ap : nat) (intervals : list Z) (inner outer : nat) (st : state) : res unit * state :=
    match intervals with
    | [] => (Ok tt, st)
    | iv :: t =>
        if (iv =? 0)%Z then (Err ZeroDivisionError, st)
        else if (Z.of_nat inner mod iv =? 0)%Z then
          match calls [Register ap inner outer] st with
          | (Err e, st) => (Err e, st)
          | (Ok _, st) => register (S ap) t inner outer st
          end
        else register (S ap) t inner outer st
    end.

  (** The inner loop, steady_state_solver.py 850-917; true if a root was found.  The loop runs
      at most [q_max] + 1 times. *)
  Fixpoint inner (fuel : nat) (outer nt_counter : nat) (it : I) (st : state) : res bool * state :=
    match fuel with
    | O => (Err OutOfFuel, st)
    | S k =>
        match q_next q it with
        | Err e => (Err e, st)
        | Ok (None, _) => (Ok false, st)
        | Ok (Some (x, err, fx), it) =>
            let nt_counter := S nt_counter in
            let go_on err :=
              let st := current x err st in
              match register 0 (q_intervals q) nt_counter outer st with
              | (Err e, st) => (Err e, st)
              | (Ok _, st) => inner k outer nt_counter it st
              end in
            match get_residual (q_f q) x with
            | Err e => (Err e, st)
            | Ok resid =>
                let reach_max_iter := q_max q <? nt_counter in
                if negb reach_max_iter && Rltb err (q_tolerance q) then
                  if Rltb resid (q_tolerance q) then
                    match lt_zero x with
                    | Err e => (Err e, st)
                    | Ok true => (Ok false, st)
                    | Ok false => (Ok true, found x err st)
                    end
                  else
                    match get_residual (q_f q) x with
                    | Err e => (Err e, st)
                    | Ok err => go_on err
                    end
                else if reach_max_iter then (Ok false, st)
                else go_on err
            end
        end
    end.

  (** How a turn of the outer loop ends: the loop is left, or goes on with a new guess.
      steady_state_solver.py 797-953. *)
  Inductive verdict := Leave | Again (c0 : list R).

  (** steady_state_solver.py 921-933 and 936-945: a new guess. *)
  Definition new_guess (outer : nat) (st : state) : res verdict * state :=
    match q_hybrid q with
    | None => (Ok Leave, st)
    | Some h => match h (trace st) outer with
                | Err e => (Err e, happen (Hybrid outer) st)
                | Ok c0 => (Ok (Again c0), happen (Hybrid outer) st)
                end
    end.

  (** steady_state_solver.py 798-933, the body of the [try]. *)
  Definition attempt (outer : nat) (c0 : list R) (st : state) : res verdict * state :=
    match get_residual (q_f q) c0 with
    | Err e => (Err e, st)
    | Ok resid =>
        if Rleb resid (q_tolerance q) && negb (q_single_pt q) then
          let st := {| coverages := Some c0; error := error st; converged := true; trace := trace st |} in
          match (do fx <- q_f q c0;
                 do norm <- q_norm q fx;
                 do resid <- get_residual (q_f0 q) c0;
                 Ok (Rmin norm resid)) with
          | Err e => (Err e, st)
          | Ok err => (Ok Leave, found c0 err st)
          end
        else
          match (if str_eqb (q_rootfinding q) (L "ConstrainedNewton") then Ok (q_constrained q c0)
                 else if str_eqb (q_rootfinding q) (L "MDNewton") then Ok (q_damped q c0)
                 else Err ParameterError) with
          | Err e => (Err e, st)
          | Ok it =>
              match calls (all_plugins (fun ap => Setup ap outer)) st with
              | (Err e, st) => (Err e, st)
              | (Ok _, st) =>
                  match inner (S (S (q_max q))) outer 0 it st with
                  | (Err e, st) => (Err e, st)
                  | (Ok true, st) => (Ok Leave, st)
                  | (Ok false, st) => new_guess outer st
                  end
              end
          end
    end.

  (** steady_state_solver.py 796-949, the outer loop, which need not end.  The counter has been
      increased when the plugins are finalized after a restart. *)
  Fixpoint outer_loop (fuel : nat) (outer : nat) (c0 : list R) (st : state) : res (list R) * state :=
    match fuel with
    | O => (Err OutOfFuel, st)
    | S k =>
        let '(r, st) :=
          match attempt outer c0 st with
          | (Err ZeroDivisionError, st) => new_guess outer st
          | rs => rs
          end in
        let outer := match r with Ok (Again _) => S outer | _ => outer end in
        match calls (all_plugins (fun ap => Finalize ap outer)) st with
        | (Err e, st) => (Err e, st)
        | (Ok _, st) =>
            match r with
            | Err e => (Err e, st)
            | Ok Leave => (Ok c0, st)
            | Ok (Again c0) => outer_loop k outer c0 st
            end
        end
    end.

  (** What is returned and archived: [steady_state_coverages], [steady_state_error] and
      [initial_guess]. steady_state_solver.py 961-969. *)
  Record answer := { a_coverages : option (list R); a_error : option R; a_guess : list R }.
  (** steady_state_solver.py 25-32. *)
  Definition new_state : state := {| coverages := None; error := None; converged := false; trace := [] |}.

  (** steady_state_solver.py 758-963, [get_steady_state_cvgs].  A solver that is used for the
      first time; the first call of the hybrid method has the number 0. *)
  Definition get_steady_state_cvgs (fuel : nat) (c0 : option (list R)) : res (option answer) * state :=
    match (match c0 with
           | Some c0 => (Ok c0, new_state)
           | None => match q_hybrid q with
                     | None => (Err TypeError, new_state)
                     | Some h => (h [] 0, happen (Hybrid 0) new_state)
                     end
           end) with
    | (Err e, st) => (Err e, st)
    | (Ok c0, st) =>
        match q_constrain q c0 with
        | Err e => (Err e, st)
        | Ok c0 =>
            match outer_loop fuel 1 c0 st with
            | (Err e, st) => (Err e, st)
            | (Ok c0, st) =>
                (if converged st then
                   match coverages st, error st with
                   | Some _, Some _ =>
                       Ok (Some {| a_coverages := coverages st; a_error := error st; a_guess := c0 |})
                   | _, _ => Err AttributeError     (* 953-954: an attribute that was never set *)
                   end
                 else Ok None, st)
            end
        end
    end.
End Search.
Arguments search : clear implicits.
