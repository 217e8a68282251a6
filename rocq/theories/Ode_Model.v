(** Model of the integration in time, scaks/solvers/steady_state_solver.py 1195-1360
    ([solve_ode], [__ode_flush]).

    Outside the model: scipy's [ode] object, whose state is of a type [S]; [integrate s t] is
    [r.integrate(t)], which may raise; [time s] and [values s] are [r.t] and [r.y.tolist()].
    Numbers are exact rationals; [show] is Python's [str] of a float.  Files can be opened.  The
    log output is left out. *)
From Coq Require Import String Ascii List ZArith QArith Bool.
From Verif Require Import PyBase PyData_Model Fmt_Model KPlug_Model.
Import ListNotations.
Local Open Scope list_scope.

(** 1245-1250: the coverages at the beginning; [boltzmann] is [self.boltzmann_coverages()] (C53). *)
Definition initial_values (given : option (list Q)) (boltzmann : res (list Q)) (nads : nat) : res (list Q) :=
  match given with
  | Some (x :: l) => Ok (x :: l)
  | _ => match boltzmann with
         | Err IOError => Ok (repeat 0%Q nads)
         | r => r
         end
  end.

Section Ode.
  Context {S : Type}.
  Variable start : list Q -> Q -> S.              (* ode(f), set_integrator, set_initial_value: 1253-1259 *)
  Variable time : S -> Q.
  Variable values : S -> list Q.
  Variable integrate : S -> Q -> res unit * S.
  Variable show : Q -> str.
  Variable header : str.                          (* file_header *)

  (** 1329-1357, the text that is appended. *)
  Definition ode_flush (counter : nat) (times : list Q) (coverages : list (list Q)) : res str :=
    do times_str <- extension (L "times") counter (map (num show) times) 5;
    do coverages_str <- extension (L "coverages") counter (map (fun y => VList (map (num show) y)) coverages) 5;
    Ok (flush_comment counter ++ times_str ++ coverages_str).

  (** What the loop keeps and the files, steady_state_solver.py 1262-1327. *)
  Record state := {
    o_ode : S; o_nstep : Z; o_ts : list Q; o_ys : list (list Q); o_counter : nat; o_file : option str }.

  (** One pass of the loop, 1286-1310. *)
  Definition ode_step (traj : bool) (interval : Z) (t_step : Q) (s : state) : res unit * state :=
    let n := (o_nstep s + 1)%Z in
    if (interval =? 0)%Z then
      (Err ZeroDivisionError, {| o_ode := o_ode s; o_nstep := n; o_ts := o_ts s; o_ys := o_ys s;
                                 o_counter := o_counter s; o_file := o_file s |})
    else
      let output_allowed := (n mod interval =? 0)%Z in
      match integrate (o_ode s) (time (o_ode s) + t_step)%Q with
      | (Err e, r) => (Err e, {| o_ode := r; o_nstep := n; o_ts := o_ts s; o_ys := o_ys s;
                                 o_counter := o_counter s; o_file := o_file s |})
      | (Ok _, r) =>
          if traj && output_allowed then
            let ts := o_ts s ++ [time r] in
            let ys := o_ys s ++ [values r] in
            match ode_flush (o_counter s) ts ys with
            | Err e => (Err e, {| o_ode := r; o_nstep := n; o_ts := ts; o_ys := ys;
                                  o_counter := o_counter s; o_file := o_file s |})
            | Ok text => (Ok tt, {| o_ode := r; o_nstep := n; o_ts := []; o_ys := [];
                                    o_counter := Datatypes.S (o_counter s);
                                    o_file := append_file (o_file s) text |})
            end
          else (Ok tt, {| o_ode := r; o_nstep := n; o_ts := o_ts s; o_ys := o_ys s;
                          o_counter := o_counter s; o_file := o_file s |})
      end.

  (** 1286: [while r.t < t_end]; None when the fuel is used up. *)
  Fixpoint ode_loop (fuel : nat) (traj : bool) (interval : Z) (t_end t_step : Q) (s : state)
      : option (res unit * state) :=
    match fuel with
    | O => None
    | Datatypes.S k =>
        if negb (Qle_bool t_end (time (o_ode s))) then
          match ode_step traj interval t_step s with
          | (Ok _, s1) => ode_loop k traj interval t_end t_step s1
          | (Err e, s1) => Some (Err e, s1)
          end
        else Some (Ok tt, s)
    end.

  (** 1195-1327: what is returned or raised and the file auto_ode_coverages.py afterwards, [old]
      before. *)
  Definition solve_ode (fuel : nat) (traj : bool) (interval : Z) (t_start t_end t_step : Q)
      (initial : list Q) (old : option str) : option (res (Q * list Q) * option str) :=
    let file := if traj then Some (header ++ L "times = []" ++ [nl; nl] ++ L "coverages = []" ++ [nl; nl])
                else old in
    match ode_loop fuel traj interval t_end t_step
            {| o_ode := start initial t_start; o_nstep := 0; o_ts := []; o_ys := []; o_counter := 0; o_file := file |} with
    | None => None
    | Some (r, s) =>
        let last := (time (o_ode s), values (o_ode s)) in
        if traj then
          match ode_flush (o_counter s) (o_ts s) (o_ys s) with
          | Err e => Some (Err e, o_file s)
          | Ok text => Some (do _ <- r; Ok last, append_file (o_file s) text)
          end
        else Some (do _ <- r; Ok last, o_file s)
    end.
End Ode.
Arguments state : clear implicits.
