(** Model of [MicroKineticModel.run] and the results kept by the model
    (scaks/models/micro_kinetic_model.py 126-137, 146-281, 311-325, 344-371).

    The methods of the solver are functions given from outside.  Their arguments and results are
    those of the calls; [W] is everything they may read and change (the solver's attributes, its
    data file, the caches, the log).  Log output and the warnings for unknown keywords are left out. *)
From Coq Require Import String Ascii List Arith Bool.
Import ListNotations.
From Verif Require Import PyBase.
Local Open Scope list_scope.
Local Open Scope nat_scope.

Section Run.
  (** [C]: coverages (list, tuple or array), [G]: relative energies, [D]: lists of numbers,
      [X]: a number. *)
  Context {W C G D X : Type}.

  (** The keyword [init_cvgs]: missing or None, a list or a tuple, or something else with its
      truth value. micro_kinetic_model.py 180, 201-212. *)
  Inductive guess := NoGuess | Seq (c : C) | Other (truth : res bool).

  (** The keywords, micro_kinetic_model.py 180-186. *)
  Record args := {
    a_init : guess;
    a_energies : option G;
    a_fsolve : bool;
    a_coarse : bool;
    a_xrc : bool;
    a_epsilon : option X;        (* None: the default, 1e-5 *)
    a_product : option str
  }.
  (** Same lines: micro_kinetic_model.py 180-186. *)
  Definition defaults : args :=
    {| a_init := NoGuess; a_energies := None; a_fsolve := false; a_coarse := true; a_xrc := false;
       a_epsilon := None; a_product := None |}.

  (** The methods of the solver that [run] calls, micro_kinetic_model.py 201-280. *)
  Record solver := {
    v_len : C -> nat;                                        (* len(init_cvgs) *)
    v_nads : nat;                                            (* len(self.adsorbate_names) *)
    v_exists : W -> bool;                                    (* os.path.exists(self.data_file) *)
    v_load : W -> res (dict C);                              (* pickle.load *)
    v_ode : W -> res C * W;                                  (* solver.solve_ode()[-1] *)
    v_fsolve : C -> option G -> W -> res C * W;              (* scipy's fsolve from these coverages *)
    v_search : option C -> option G -> W -> res (option C) * W;   (* get_steady_state_cvgs *)
    v_constants : option G -> W -> res unit * W;             (* get_rate_constants *)
    v_rates : option C -> option G -> W -> res (D * D) * W;  (* get_rates *)
    v_tofs : option C -> option G -> W -> res D * W;         (* get_tof *)
    v_reversibilities : D -> D -> W -> res D * W;            (* get_reversibilities *)
    v_error : W -> res X;                                    (* solver.error *)
    v_xrc : str -> option X -> option G -> W -> res unit * W (* get_single_XRC *)
  }.

  (** The attributes of the model; [None] of the first three is Python's None, [None] of the
      last an attribute that does not exist (micro_kinetic_model.py 134-137). *)
  Record model := {
    m_cvgs : option C;
    m_tofs : option D;
    m_reversibilities : option D;
    m_error : option X
  }.
  (** Same lines: micro_kinetic_model.py 134-137. *)
  Definition new_model : model :=
    {| m_cvgs := None; m_tofs := None; m_reversibilities := None; m_error := None |}.
  (** Same lines: micro_kinetic_model.py 134-137. *)
  Definition with_cvgs (c : option C) (m : model) : model :=
    {| m_cvgs := c; m_tofs := m_tofs m; m_reversibilities := m_reversibilities m; m_error := m_error m |}.
  (** Same lines: micro_kinetic_model.py 134-137. *)
  Definition with_tofs (d : D) (m : model) : model :=
    {| m_cvgs := m_cvgs m; m_tofs := Some d; m_reversibilities := m_reversibilities m; m_error := m_error m |}.
  (** Same lines: micro_kinetic_model.py 134-137. *)
  Definition with_reversibilities (d : D) (m : model) : model :=
    {| m_cvgs := m_cvgs m; m_tofs := m_tofs m; m_reversibilities := Some d; m_error := m_error m |}.
  (** Same lines: micro_kinetic_model.py 134-137. *)
  Definition with_error (x : X) (m : model) : model :=
    {| m_cvgs := m_cvgs m; m_tofs := m_tofs m; m_reversibilities := m_reversibilities m; m_error := Some x |}.

  Variable v : solver.

  (** [bool(init_cvgs)] (micro_kinetic_model.py 201) *)
  Definition truth (g : guess) : res bool :=
    match g with
    | NoGuess => Ok false
    | Seq c => Ok (negb (Nat.eqb (v_len v c) 0))
    | Other b => b
    end.

  (** The data file, micro_kinetic_model.py 219-233; the flag tells that the coarse guess is
      skipped. *)
  Definition restart_guess (w : W) : res (C * bool) * W :=
    match v_load v w with
    | Err e => (Err e, w)
    | Ok data =>
        match dget data (L "steady_state_coverage") with
        | Some c => (Ok (c, true), w)
        | None =>
            match v_ode v w with
            | (Err e, w) => (Err e, w)
            | (Ok c, w) => (Ok (c, false), w)
            end
        end
    end.

  (** The start of the search, micro_kinetic_model.py 201-237: the coverages (a guess that is not
      used as a sequence stays what it was) and whether a coarse guess is wanted. *)
  Definition first_guess (a : args) (w : W) : res (guess * bool) * W :=
    match truth (a_init a) with
    | Err e => (Err e, w)
    | Ok true =>
        match a_init a with
        | Seq c => if Nat.eqb (v_len v c) (v_nads v) then (Ok (Seq c, a_coarse a), w) else (Err ParameterError, w)
        | _ => (Err ParameterError, w)
        end
    | Ok false =>
        if v_exists v w then
          match restart_guess w with
          | (Err e, w) => (Err e, w)
          | (Ok (c, skip), w) => (Ok (Seq c, if skip then false else a_coarse a), w)
          end
        else (Ok (a_init a, a_coarse a), w)
    end.

  (** [coarse_steady_state_cvgs] and [fsolve_steady_state_cvgs], steady_state_solver.py 709-756:
      [[float(c) for c in c0]] needs a sequence.  Other objects that count as false are out of
      the model. *)
  Definition coarse (g : guess) (e : option G) (w : W) : res C * W :=
    match g with
    | Seq c => v_fsolve v c e w
    | NoGuess => (Err TypeError, w)
    | Other _ => (Err Unsupported, w)
    end.
  (** Same lines: steady_state_solver.py 709-756. *)
  Definition search (g : guess) (e : option G) (w : W) : res (option C) * W :=
    match g with
    | Seq c => v_search v (Some c) e w
    | NoGuess => v_search v None e w
    | Other _ => (Err Unsupported, w)
    end.

  (** The coverages, micro_kinetic_model.py 239-255. *)
  Definition solve (a : args) (w : W) : res (option C) * W :=
    match first_guess a w with
    | (Err e, w) => (Err e, w)
    | (Ok (g, want), w) =>
        if a_fsolve a then
          match coarse g (a_energies a) w with
          | (Err e, w) => (Err e, w)
          | (Ok c, w) => (Ok (Some c), w)
          end
        else if want then
          match coarse g (a_energies a) w with
          | (Err e, w) => (Err e, w)
          | (Ok c, w) => search (Seq c) (a_energies a) w
          end
        else search g (a_energies a) w
    end.

  (** micro_kinetic_model.py 257-281. *)
  Definition evaluate (a : args) (c : option C) (w : W) (m : model) : res unit * W * model :=
    match v_constants v (a_energies a) w with
    | (Err e, w) => (Err e, w, m)
    | (Ok _, w) =>
        match v_rates v c (a_energies a) w with
        | (Err e, w) => (Err e, w, m)
        | (Ok (rf, rr), w) =>
            match v_tofs v c (a_energies a) w with
            | (Err e, w) => (Err e, w, m)
            | (Ok t, w) =>
                let m := with_tofs t m in
                match v_reversibilities v rf rr w with
                | (Err e, w) => (Err e, w, m)
                | (Ok r, w) =>
                    let m := with_reversibilities r m in
                    match v_error v w with
                    | Err e => (Err e, w, m)
                    | Ok x =>
                        let m := with_error x m in
                        if a_xrc a then
                          match a_product a with
                          | None => (Err ParameterError, w, m)
                          | Some p => let (o, w) := v_xrc v p (a_epsilon a) (a_energies a) w in (o, w, m)
                          end
                        else (Ok tt, w, m)
                    end
                end
            end
        end
    end.

  (** micro_kinetic_model.py 146-281, [run]. *)
  Definition run (a : args) (w : W) (m : model) : res unit * W * model :=
    match solve a w with
    | (Err e, w) => (Err e, w, m)
    | (Ok c, w) => evaluate a c w (with_cvgs c m)
    end.

  (** The properties, micro_kinetic_model.py 344-371. *)
  Definition steady_state_coverages (m : model) : res (option C) := Ok (m_cvgs m).
  (** Same lines: micro_kinetic_model.py 344-371. *)
  Definition TOFs (m : model) : res (option D) := Ok (m_tofs m).
  (** Same lines: micro_kinetic_model.py 344-371. *)
  Definition reversibilities (m : model) : res (option D) := Ok (m_reversibilities m).
  (** Same lines: micro_kinetic_model.py 344-371. *)
  Definition error (m : model) : res X := match m_error m with Some x => Ok x | None => Err AttributeError end.

  (** [model_info], micro_kinetic_model.py 311-325, without the names: the numbers are listed,
      which None does not allow. *)
  Definition model_info (m : model) : res (C * D * option D) :=
    match m_cvgs m with
    | None => Err TypeError
    | Some c => match m_tofs m with
                | None => Err TypeError
                | Some t => Ok (c, t, m_reversibilities m)
                end
    end.
End Run.
Arguments guess : clear implicits.
Arguments args : clear implicits.
Arguments solver : clear implicits.
Arguments model : clear implicits.
