(** Model of the cache of method results, scaks/descriptors/descriptors.py 344-399
    ([HashableDict], [make_hashable], [Memoized]), and of the two methods it is used for:
    [get_rate_constants] (scaks/solvers/mean_field_solver.py 186-238) and
    [poly_adsorbate_derivation] (scaks/solvers/steady_state_solver.py 399-438).

    Simplifications.  The arguments are None, booleans, texts and dictionaries of lists of
    numbers, the kinds that the methods take.  A look-up in [results] finds the entry whose key
    is equal; the hash functions of 345-373 only have to agree on equal keys, which they do.
    A dictionary that was passed is not changed afterwards by the caller (an entry whose key
    changed is not found any more, and its value is computed again), and the caller does not
    change the lists that a call returned. *)
From Coq Require Import String Ascii List ZArith Bool Reals.
From Verif Require Import PyBase PyReal Energy_Model Thermo_Model Rate_Model MF_Model SS_Model.
Import ListNotations.
Local Open Scope list_scope.

(** The value of a keyword argument. mean_field_solver.py 187, steady_state_solver.py 400. *)
Inductive arg := ANone | ABool (b : bool) | AStr (s : str) | AEnergies (e : dict (list R)).

(** [==] of lists of numbers, of arguments, of dictionaries of arguments. descriptors.py 395-396. *)
Fixpoint reals_eqb (l m : list R) : bool :=
  match l, m with
  | [], [] => true
  | x :: l', y :: m' => Reqb x y && reals_eqb l' m'
  | _, _ => false
  end.
(** Arguments: descriptors.py 395-396. *)
Definition arg_eqb (a b : arg) : bool :=
  match a, b with
  | ANone, ANone => true
  | ABool x, ABool y => Bool.eqb x y
  | AStr x, AStr y => str_eqb x y
  | AEnergies x, AEnergies y => dict_eqb reals_eqb x y
  | _, _ => false
  end.
(** Keys: descriptors.py 395-396. *)
Definition key_eqb : dict arg -> dict arg -> bool := dict_eqb arg_eqb.

Section Memo.
  (** The objects that own the method, the state of the world, the values of the method;
      [energies w i] is [i._owner.relative_energies], [func w i kwargs] the method itself;
      [i] is None when the method is looked up in the class. *)
  Context {I W V : Type}.
  Variable energies : W -> I -> dict (list R).
  Variable func : W -> option I -> dict arg -> res V.

  (** [self.results] in order of insertion, [self.instance]; descriptors.py 379-381. *)
  Record memo := { results : list (dict arg * V); current : option I }.

  (** [self.results[key]] (descriptors.py 396) *)
  Fixpoint lookup (rs : list (dict arg * V)) (key : dict arg) : option V :=
    match rs with
    | [] => None
    | (k, v) :: t => if key_eqb k key then Some v else lookup t key
    end.

  (** The key, descriptors.py 388-394. *)
  Definition make_key (w : W) (i : option I) (kwargs : dict arg) : res (dict arg) :=
    match dget kwargs (L "relative_energies") with
    | Some ANone =>
        match i with
        | None => Err AttributeError
        | Some i => Ok (dset kwargs (L "relative_energies") (AEnergies (energies w i)))
        end
    | _ => Ok kwargs
    end.

  (** [__call__], descriptors.py 387-401. *)
  Definition call (w : W) (m : memo) (kwargs : dict arg) : res V * memo :=
    match make_key w (current m) kwargs with
    | Err e => (Err e, m)
    | Ok key =>
        match lookup (results m) key with
        | Some v => (Ok v, m)
        | None =>
            match func w (current m) kwargs with
            | Ok v => (Ok v, {| results := results m ++ [(key, v)]; current := current m |})
            | Err e => (Err e, m)
            end
        end
    end.

  (** What can happen: the method is looked up in an object ([__get__], 383-385), the thing
      looked up last is called, the world changes. *)
  Inductive op := Access (i : option I) | Call (kwargs : dict arg) | World (w : W).

  (** One of these: descriptors.py 382-399. *)
  Definition step (s : W * memo) (x : op) : option (res V) * (W * memo) :=
    match x with
    | Access i => (None, (fst s, {| results := results (snd s); current := i |}))
    | World w => (None, (w, snd s))
    | Call kwargs => let (r, m) := call (fst s) (snd s) kwargs in (Some r, (fst s, m))
    end.

  (** A sequence of them: descriptors.py 382-399. *)
  Fixpoint run (s : W * memo) (ops : list op) : list (option (res V)) * (W * memo) :=
    match ops with
    | [] => ([], s)
    | x :: t => let (r, s1) := step s x in let (rs, s2) := run s1 t in (r :: rs, s2)
    end.

  (** A new descriptor, descriptors.py 378-380. *)
  Definition empty : memo := {| results := []; current := None |}.
End Memo.
Arguments memo : clear implicits.
Arguments op : clear implicits.

(** [get_rate_constants] as a method of a solver: what it reads of its owner besides the
    energies.  A missing "Gaf" or "dG" is reported even if there is no reaction.
    mean_field_solver.py 205-238. *)
Record solver := { sv_ec : str -> R -> R -> R -> res R; sv_owner : owner; sv_algo : str }.

(** The lists of a dictionary of energies, mean_field_solver.py 205-222. *)
Definition rel_of (e : dict (list R)) : res rel_energies :=
  if dmem e (L "Gar") then
    do a <- dindex e (L "Gaf");
    do b <- dindex e (L "Gar");
    do c <- dindex e (L "dG");
    Ok {| r_Gaf := a; r_Gar := b; r_dG := c |}
  else Err ParameterError.

(** mean_field_solver.py 205-238; [own] are the energies of the owner, none if empty.  The log
    output is left out. *)
Definition rate_constants_of (own : solver -> dict (list R)) (i : option solver) (kwargs : dict arg)
  : res (list R * list R) :=
  match i with
  | None => Err AttributeError
  | Some s =>
      let go (e : dict (list R)) :=
        do r <- rel_of e; rate_constants (sv_ec s) (sv_owner s) (sv_algo s) (Some r) None in
      let mine := match own s with [] => Err AttributeError | e => go e end in
      match dget kwargs (L "relative_energies") with
      | None | Some ANone | Some (AEnergies []) | Some (ABool false) | Some (AStr []) => mine
      | Some (AEnergies e) => go e
      | Some (AStr _) => Err ParameterError
      | Some (ABool true) => Err TypeError
      end
  end.

(** [poly_adsorbate_derivation] as a method: it reads the setup of its owner.
    steady_state_solver.py 399-438. *)
Definition derivation_of (i : option (setup * dict (list str))) (kwargs : dict arg) : res str :=
  match i with
  | None => Err AttributeError
  | Some (s, cl) =>
      match dget kwargs (L "adsorbate_name"), dget kwargs (L "poly_expression") with
      | Some (AStr name), Some (AStr poly) => poly_derivation s cl name poly
      | _, _ => Err TypeError
      end
  end.

(** Solvers by number; the world gives the energies of their owners. descriptors.py 393. *)
Definition own_energies (w : nat -> dict (list R)) (i : nat) : dict (list R) := w i.
(** mean_field_solver.py 186-238. *)
Definition method (sv : nat -> solver) (w : nat -> dict (list R)) (i : option nat) (kw : dict arg)
  : res (list R * list R) :=
  match i with
  | None => rate_constants_of (fun _ => []) None kw
  | Some j => rate_constants_of (fun _ => w j) (Some (sv j)) kw
  end.
