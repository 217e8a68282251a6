(** Model of the degree of rate control, [get_single_XRC]
    (scaks/solvers/steady_state_solver.py 1052-1147).

    Relative energies are a dictionary of lists; the lists are objects on a heap, so that a change
    of the caller's data can be told from a change of a copy.  The other methods of the solver are
    functions given from outside: they see the current values of the energies, and [W] is all
    they may read and change.  Log output is left out. *)
From Coq Require Import String Ascii List Arith Bool Reals.
Import ListNotations.
From Verif Require Import PyBase PyReal.
Local Open Scope list_scope.
Local Open Scope nat_scope.

(** Lists by address: [relative_energies] of steady_state_solver.py 1066-1068, 1103-1105. *)
Definition heap := list (list R).
(** A dictionary from names to the addresses of lists. steady_state_solver.py 1066-1068. *)
Definition refs := dict nat.

(** The values a dictionary of lists has now; an address that is not on the heap cannot occur.
    steady_state_solver.py 1081-1118. *)
Fixpoint view (h : heap) (d : refs) : res (dict (list R)) :=
  match d with
  | [] => Ok []
  | (n, a) :: t =>
      match nth_error h a with
      | None => Err Unsupported
      | Some l => do t' <- view h t; Ok ((n, l) :: t')
      end
  end.

(** [copy.deepcopy(relative_energies)], steady_state_solver.py 1103: a list that occurs twice is copied once ([memo]). *)
Fixpoint lookup (memo : list (nat * nat)) (a : nat) : option nat :=
  match memo with
  | [] => None
  | (x, b) :: t => if Nat.eqb x a then Some b else lookup t a
  end.
Fixpoint deepcopy (memo : list (nat * nat)) (d : refs) (h : heap) : res (refs * heap) :=
  match d with
  | [] => Ok ([], h)
  | (n, a) :: t =>
      match lookup memo a with
      | Some b => do (t', h') <- deepcopy memo t h; Ok ((n, b) :: t', h')
      | None =>
          match nth_error h a with
          | None => Err Unsupported
          | Some l =>
              let b := length h in
              do (t', h') <- deepcopy ((a, b) :: memo) t (h ++ [l]); Ok ((n, b) :: t', h')
          end
      end
  end.

(** [l[idx] += epsilon] (steady_state_solver.py 1104-1105) *)
Fixpoint add_at (l : list R) (i : nat) (e : R) : res (list R) :=
  match l, i with
  | [], _ => Err IndexError
  | x :: t, O => Ok ((x + e)%R :: t)
  | x :: t, S i' => do t' <- add_at t i' e; Ok (x :: t')
  end.
(** The list at an address is replaced. steady_state_solver.py 1104-1105. *)
Fixpoint store (h : heap) (a : nat) (l : list R) : heap :=
  match h, a with
  | [], _ => []
  | _ :: t, O => l :: t
  | x :: t, S a' => x :: store t a' l
  end.
(** [relative_energies_copy[name][idx] += epsilon], steady_state_solver.py 1104-1105. *)
Definition raise_at (h : heap) (d : refs) (name : str) (i : nat) (e : R) : res heap :=
  do a <- dindex d name;
  match nth_error h a with
  | None => Err Unsupported
  | Some l => do l' <- add_at l i e; Ok (store h a l')
  end.

(** A number, or the text 'inf'. steady_state_solver.py 1121-1127. *)
Inductive xrc := Num (x : R) | Inf.
(** [k/r*(dr/dk)], steady_state_solver.py 1121-1126. *)
Definition control (k r dr dk : R) : xrc :=
  if Reqb r 0 then Inf else if Reqb dk 0 then Inf else Num (k / r * (dr / dk))%R.

Section Xrc.
  Context {W : Type}.
  (** The methods that are called: steady_state_solver.py 1081-1118. *)
  Record tools := {
    t_stored : W -> option (list R);                                     (* self._coverages *)
    t_tof : option (list R) -> dict (list R) -> str -> W -> res R * W;    (* get_tof *)
    t_constants : dict (list R) -> W -> res (list R) * W;                (* get_rate_constants: forward *)
    t_search : list R -> dict (list R) -> W -> res (option (list R)) * W; (* get_steady_state_cvgs *)
    t_own : refs;                                                        (* self._owner.relative_energies *)
    t_size : R;                                                          (* perturbation_size *)
    t_rxns : nat                                                         (* number of reactions *)
  }.
  Variable q : tools.

  (** [get_XRCi], steady_state_solver.py 1098-1128. *)
  Definition one (gas : str) (eps : R) (d : refs) (guess : list R) (r : R) (kfs : list R) (i : nat) (h : heap) (w : W)
    : res xrc * heap * W :=
    match deepcopy [] d h with
    | Err e => (Err e, h, w)
    | Ok (c, h1) =>
        match raise_at h1 c (L "Gaf") i eps with
        | Err e => (Err e, h1, w)
        | Ok h2 =>
            match raise_at h2 c (L "Gar") i eps with
            | Err e => (Err e, h2, w)
            | Ok h3 =>
                match lindex kfs i with
                | Err e => (Err e, h3, w)
                | Ok k =>
                    match view h3 c with
                    | Err e => (Err e, h3, w)
                    | Ok energies =>
                        match t_constants q energies w with
                        | (Err e, w) => (Err e, h3, w)
                        | (Ok ks, w) =>
                            match lindex ks i with
                            | Err e => (Err e, h3, w)
                            | Ok k' =>
                                match t_search q guess energies w with
                                | (Err e, w) => (Err e, h3, w)
                                | (Ok cvgs, w) =>
                                    match t_tof q cvgs energies gas w with
                                    | (Err e, w) => (Err e, h3, w)
                                    | (Ok r', w) => (Ok (control k r (r' - r) (k' - k)), h3, w)
                                    end
                                end
                            end
                        end
                    end
                end
            end
        end
    end.

  (** steady_state_solver.py 1130-1144 *)
  Fixpoint each (gas : str) (eps : R) (d : refs) (guess : list R) (r : R) (kfs : list R) (i n : nat) (h : heap) (w : W)
    : res (list xrc) * heap * W :=
    match n with
    | O => (Ok [], h, w)
    | S n' =>
        match one gas eps d guess r kfs i h w with
        | (Err e, h, w) => (Err e, h, w)
        | (Ok x, h, w) =>
            match each gas eps d guess r kfs (S i) n' h w with
            | (Err e, h, w) => (Err e, h, w)
            | (Ok l, h, w) => (Ok (x :: l), h, w)
            end
        end
    end.

  (** 1052-1147, [get_single_XRC]. *)
  Definition single_xrc (gas : str) (epsilon : option R) (given : option refs) (h : heap) (w : W)
    : res (list xrc) * heap * W :=
    let d := match given with Some d => d | None => t_own q end in
    match t_stored q w with
    | None => (Err AttributeError, h, w)
    | Some guess =>
        match view h d with
        | Err e => (Err e, h, w)
        | Ok energies =>
            match t_tof q (Some guess) energies gas w with
            | (Err e, w) => (Err e, h, w)
            | (Ok r, w) =>
                match t_constants q energies w with
                | (Err e, w) => (Err e, h, w)
                | (Ok kfs, w) =>
                    let eps := match epsilon with Some e => e | None => t_size q end in
                    each gas eps d guess r kfs 0 (t_rxns q) h w
                end
            end
        end
    end.
End Xrc.
Arguments tools : clear implicits.
