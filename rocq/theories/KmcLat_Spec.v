(** What KMCLib does with processes, as its users understand it (specification only; the library is not
    modelled): a lattice of n sites, each occupied by an element. *)
From Coq Require Import String Ascii List ZArith Bool Arith QArith Reals.
Import ListNotations.
From Verif Require Import PyBase Kmc_Model Kmc_Spec.
Local Open Scope list_scope.
Local Open Scope nat_scope.

Definition config := list str.

(** The texts of a list or tuple. *)
Definition texts (v : pv) : list str :=
  match v with
  | PList l | PTuple l => flat_map (fun x => match x with PStr s => [s] | _ => [] end) l
  | _ => []
  end.
(** The number that an integer (or a boolean, in Python) is. *)
Definition number (v : pv) : option Z :=
  match v with PInt z => Some z | PBool b => Some (if b then 1 else 0)%Z | _ => None end.

Fixpoint put (X : config) (s : nat) (e : str) : config :=
  match X, s with
  | [], _ => []
  | _ :: t, O => e :: t
  | x :: t, S k => x :: put t k e
  end.

(** An element matches a site if it is the one there; the wildcard matches all and changes nothing. *)
Definition fits (X : config) (se : nat * str) : bool :=
  str_eqb (snd se) (L "*") || match nth_error X (fst se) with Some x => str_eqb x (snd se) | None => false end.
Definition write (X : config) (se : nat * str) : config :=
  if str_eqb (snd se) (L "*") then X else put X (fst se) (snd se).

Section Lattice.
  (** The site that a coordinate relative to an anchor leads to, and the basis site that a site is. *)
  Variable neighbour : nat -> list Q -> nat.
  Variable basis : nat -> Z.
  (** Number of sites. *)
  Variable n : nat.

  Definition event (p : kmc_process R) (a : nat) (X : config) : option config :=
    let sites := map (neighbour a) (p_coordinates p) in
    if (match number (p_site p) with Some z => (z =? basis a)%Z | None => false end) &&
       forallb (fits X) (combine sites (texts (p_before p)))
    then Some (fold_left write (combine sites (texts (p_after p))) X) else None.

  Definition same_config : forall X Y : config, {X = Y} + {X <> Y} := list_eq_dec (list_eq_dec ascii_dec).
  Definition leads (p : kmc_process R) (a : nat) (X Y : config) : bool :=
    match event p a X with Some Z => if same_config Z Y then true else false | None => false end.

  (** The rate at which the lattice goes from one configuration to another. *)
  Definition sum (l : list R) : R := fold_right Rplus 0%R l.
  Definition flow (ps : list (kmc_process R)) (X Y : config) : R :=
    sum (map (fun p => sum (map (fun a => if leads p a X Y then p_rate p else 0%R) (seq 0 n))) ps).
End Lattice.

(** The weight of a configuration, for energies (over kT) of the elements; of a process definition
    likewise, where wildcards do not count. *)
Definition energy (E : str -> R) (X : list str) : R := sum (map E X).
Definition weight (E : str -> R) (X : list str) : R := exp (- energy E X).
Definition named (l : list str) : list str := filter (fun e => negb (str_eqb e (L "*"))) l.

(** Wildcards at the same places before and after. *)
Definition same_wildcards (p : pdef) : Prop :=
  Forall2 (fun b c => b = L "*" <-> c = L "*") (d_before p) (d_after p).

(** The lattice has room for the processes: neighbours are sites, and different coordinates of a process lead
    to different sites. *)
Definition roomy (neighbour : nat -> list Q -> nat) (n : nat) (p : pdef) : Prop :=
  forall a cs, a < n -> In cs (d_group p) ->
    NoDup (map (neighbour a) cs) /\ forall c, In c cs -> neighbour a c < n.

(** In equilibrium with the energies: the rates of a definition are in the ratio of the weights. *)
Definition balanced (E : str -> R) (p : pdef) (rf rr : R) : Prop :=
  (rf * weight E (named (d_before p)) = rr * weight E (named (d_after p)))%R.

(** What a simulation can reach: any number of events of any of the processes at any places.  (Of a process
    declared as a redistribution only its plain event is meant.) *)
Inductive reaches (neighbour : nat -> list Q -> nat) (basis : nat -> Z) (n : nat) (ps : list (kmc_process R))
  : config -> config -> Prop :=
| reaches_none X : reaches neighbour basis n ps X X
| reaches_more X Y Z p a : reaches neighbour basis n ps X Y -> In p ps -> a < n ->
    event neighbour basis p a Y = Some Z -> reaches neighbour basis n ps X Z.
