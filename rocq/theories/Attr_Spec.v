(** What a user of the setup attributes relies on, said without the
    descriptors: which place an attribute holds, histories of operations, and
    which values are acceptable. *)
From Coq Require Import String Ascii List ZArith QArith Bool.
From Verif Require Import PyBase Attr_Model.
Import ListNotations.
Local Open Scope list_scope.
Local Open Scope nat_scope.

(** The [k]-th operation of a history and its outcome. *)
Definition happened (ops : list op) (rs : list (res (option nat))) (k : nat)
    (x : op) (r : res (option nat)) : Prop :=
  nth_error ops k = Some x /\ nth_error rs k = Some r.

(** The class of an object. *)
Definition class_of (w : world) (i : nat) (c : str) : Prop :=
  exists o, nth_error (objects w) i = Some o /\ o_class o = c.

(** No object has any entry in its instance dictionary. *)
Definition fresh (w : world) : Prop :=
  forall i o, nth_error (objects w) i = Some o -> o_dict o = [].

(** Nobody writes the private name of the attribute [n] of class [c] directly,
    as [object._Class__name = value] would. *)
Definition respects (c n : str) (ops : list op) : Prop :=
  forall i p, ~ In (Put i (L "_" ++ c ++ L "__" ++ n) p) ops.

(** Text [b] occurs in [a]. *)
Definition occurs (b a : str) : Prop := exists x y, a = x ++ b ++ y.

(** The types of Python values; an instance has its class. *)
Inductive of_type : tree -> str -> Prop :=
| of_none : of_type TNone (L "NoneType")
| of_bool b : of_type (TBool b) (L "bool")
| of_int z : of_type (TInt z) (L "int")
| of_float q : of_type (TFloat q) (L "float")
| of_str s : of_type (TStr s) (L "str")
| of_list l : of_type (TList l) (L "list")
| of_tuple l : of_type (TTuple l) (L "tuple")
| of_dict l : of_type (TDict l) (L "dict")
| of_class c : of_type (TObj c) c.

(** Acceptable values, attribute kind by attribute kind. *)
Definition is_text (t : tree) : Prop := exists s, t = TStr s.
Definition is_integer (t : tree) : Prop := exists z, t = TInt z.
Definition is_number (t : tree) : Prop := (exists z, t = TInt z) \/ (exists q, t = TFloat q).
Definition is_sequence_of (P : tree -> Prop) (t : tree) : Prop :=
  exists l, (t = TList l \/ t = TTuple l) /\ forall x, In x l -> P x.

(** A definition of a species that mentions a pressure. *)
Inductive has_pressure : tree -> Prop :=
| hp_dict l v : In (TStr (L "pressure"), v) l -> has_pressure (TDict l)
| hp_list l : In (TStr (L "pressure")) l -> has_pressure (TList l)
| hp_tuple l : In (TStr (L "pressure")) l -> has_pressure (TTuple l)
| hp_text s : occurs (L "pressure") s -> has_pressure (TStr s).

Definition good_species (t : tree) : Prop :=
  exists l, t = TDict l /\
  forall k v, In (k, v) l ->
    exists s, k = TStr s /\ ((exists s0, s = s0 ++ L "_g") -> has_pressure v).

Definition good_ref (t : tree) : Prop :=
  exists l, t = TDict l /\
  forall k v, In (k, v) l -> is_text k /\ exists q, v = TFloat q.

Definition good_interval1 (t : tree) : Prop :=
  is_integer t \/
  exists a b s, (t = TList [TInt a; TInt b; TInt s] \/ t = TTuple [TInt a; TInt b; TInt s])
                /\ (a <= b)%Z /\ (s <= b - a)%Z.

Definition good_interval (t : tree) : Prop :=
  is_integer t \/ is_sequence_of good_interval1 t.

(** A list of rows of numbers, all rows equally long (of [width] numbers if that is given), not
    all of the numbers integers or booleans. *)
Definition row_of (r : tree) (xs : list tree) : Prop := r = TList xs \/ r = TTuple xs.
Definition good_vectors (width : option nat) (t : tree) : Prop :=
  exists rows n, t = TList rows /\ rows <> [] /\
  (forall r, In r rows -> exists xs, row_of r xs /\ length xs = n /\
     forall x, In x xs -> is_number x \/ exists b, x = TBool b) /\
  (n <> 0 -> exists r xs q, In r rows /\ row_of r xs /\ In (TFloat q) xs) /\
  match width with Some m => n = m | None => True end.

(** A setup dictionary of a class from which a model can be made. *)
Definition fixed_keys : list str :=
  [L "logger_level"; L "file_handler_level"; L "console_handler_level"; L "setup_dict"].

Definition component_choices : list (str * str) :=
  [ (L "parser", L "RelativeEnergyParser"); (L "parser", L "AbsoluteEnergyParser");
    (L "solver", L "SteadyStateSolver"); (L "corrector", L "ThermodynamicCorrector");
    (L "plotter", L "EnergyProfilePlotter"); (L "parser", L "KMCParser"); (L "solver", L "KMCSolver") ].

Definition good_entry (cls : str) (w : world) (kp : str * nat) : Prop :=
  match model_table cls (fst kp) with
  | None | Some APlain => True
  | Some AProperty => False
  | Some (AValue k _ _) => ~ In (fst kp) fixed_keys /\ check k (contents w (snd kp)) = Ok tt
  | Some (AComponent _ _) =>
      exists s, contents w (snd kp) = TStr s /\ In (fst kp, s) component_choices
  end.

Definition level_ok (w : world) (p : nat) : Prop :=
  exists z, contents w p = TInt z /\ In z [0; 10; 20; 30; 40; 50]%Z.

(** Equal values: numbers by what they are (a boolean is 0 or 1), texts, lists, tuples and
    dictionaries by what they contain. *)
Inductive numeric : tree -> Q -> Prop :=
| num_true : numeric (TBool true) 1
| num_false : numeric (TBool false) 0
| num_int z : numeric (TInt z) (inject_Z z)
| num_float q : numeric (TFloat q) q.

Inductive same_value : tree -> tree -> Prop :=
| same_none : same_value TNone TNone
| same_text s : same_value (TStr s) (TStr s)
| same_number a b p q : numeric a p -> numeric b q -> (p == q)%Q -> same_value a b
| same_list l m : same_values l m -> same_value (TList l) (TList m)
| same_tuple l m : same_values l m -> same_value (TTuple l) (TTuple m)
| same_dict l m : length l = length m ->
    (forall k v, In (k, v) l -> exists k' v', In (k', v') m /\ same_value k k' /\ same_value v v') ->
    same_value (TDict l) (TDict m)
with same_values : list tree -> list tree -> Prop :=
| same_nil : same_values [] []
| same_cons a b l m : same_value a b -> same_values l m -> same_values (a :: l) (b :: m).

(** Among the candidates. *)
Definition among (l : list tree) (t : tree) : Prop := exists c, In c l /\ same_value t c.

(** What is wrong with one entry of the species definitions. *)
Definition container (t : tree) : Prop :=
  (exists l, t = TDict l) \/ (exists l, t = TList l) \/ (exists l, t = TTuple l) \/ (exists s, t = TStr s).
Definition species_fault (k v : tree) (e : exn) : Prop :=
  (~ is_text k /\ e = AttributeError) \/
  (exists s0, k = TStr (s0 ++ L "_g") /\
    ((~ container v /\ e = TypeError) \/ (container v /\ ~ has_pressure v /\ e = SetupError))).

(** The defaults that the classes document (kinetic_model.py 38-76, micro_kinetic_model.py 43-78)
    or state, kinetic_model.py 87-130 and
    micro_kinetic_model.py 82-123. *)
Definition documented : list (str * tree) :=
  [ (L "setup_file", TStr []); (L "setup_dict", TDict []);
    (L "logger_level", TInt 20); (L "file_handler_level", TInt 10);
    (L "console_handler_level", TInt 20); (L "temperature", TFloat 298);
    (L "rxn_expressions", TList []); (L "species_definitions", TDict []);
    (L "rate_algo", TStr (L "TST")); (L "components", TList [TStr (L "parser")]);
    (L "unitcell_area", TFloat 0); (L "active_ratio", TFloat 1);
    (L "decimal_precision", TInt 100); (L "perturbation_size", TFloat (1 # 100));
    (L "perturbation_direction", TStr (L "right"));
    (L "archived_variables", TList [TStr (L "steady_state_coverages")]);
    (L "numerical_representation", TStr (L "mpmath")); (L "rootfinding", TStr (L "MDNewton"));
    (L "tolerance", TFloat (1 # 100000000)); (L "max_rootfinding_iterations", TInt 100);
    (L "ode_buffer_size", TInt 500); (L "ode_output_interval", TInt 200);
    (L "ref_energies", TDict []); (L "analysis", TList []) ].

(** The defaults that KMCModel states, kmc_model.py 13-113, besides those of every model. *)
Definition kmc_documented : list (str * tree) :=
  [ (L "cell_vectors", TList [TList [TFloat 1; TFloat 0; TFloat 0]; TList [TFloat 0; TFloat 1; TFloat 0];
                              TList [TFloat 0; TFloat 0; TFloat 1]]);
    (L "basis_sites", TList [TList [TFloat 0; TFloat 0; TFloat 0]]);
    (L "repetitions", TTuple [TInt 1; TInt 1; TInt 1]);
    (L "periodic", TTuple [TBool true; TBool true; TBool true]); (L "nstep", TInt 1);
    (L "random_seed", TNone); (L "time_seed", TBool false); (L "trajectory_dump_interval", TInt 1);
    (L "random_generator", TStr (L "MT")); (L "analysis", TList []); (L "analysis_interval", TNone);
    (L "possible_element_types", TList []); (L "possible_site_types", TList []);
    (L "empty_type", TStr (L "V")); (L "tof_start", TInt 0); (L "time_limit", TObj (L "float"));
    (L "coverage_ratios", TList []); (L "extra_trajectories", TNone); (L "start_time", TFloat 0);
    (L "tof_interval", TInt 10); (L "do_redistribution", TBool false);
    (L "redistribution_interval", TInt 1); (L "fast_species", TNone);
    (L "nsplits", TTuple [TInt 1; TInt 1; TInt 1]); (L "distributor_type", TStr (L "RandomDistributor")) ].

(** What may be assigned to each attribute: of every model, of a micro-kinetic model and of a KMC model. *)
Definition one_of (l : list str) (t : tree) : Prop := exists s, t = TStr s /\ In s l.
Definition is_bool (t : tree) : Prop := exists b, t = TBool b.
Definition is_level (t : tree) : Prop := exists z, t = TInt z /\ In z [0; 10; 20; 30; 40; 50]%Z.
Definition typed (ty : str) (t : tree) : Prop := of_type t ty.
Definition acceptable_every : list (str * (tree -> Prop)) :=
  [ (L "setup_file", is_text); (L "setup_dict", fun t => exists l, t = TDict l);
    (L "logger_level", is_level); (L "file_handler_level", is_level); (L "console_handler_level", is_level);
    (L "temperature", is_number); (L "rxn_expressions", is_sequence_of (typed (L "str")));
    (L "species_definitions", good_species); (L "rate_algo", is_text);
    (L "components", is_sequence_of (typed (L "str"))); (L "unitcell_area", is_number);
    (L "active_ratio", is_number) ].
Definition acceptable_micro : list (str * (tree -> Prop)) :=
  [ (L "decimal_precision", is_integer); (L "perturbation_size", is_number);
    (L "perturbation_direction", one_of [L "right"; L "left"]);
    (L "archived_variables", is_sequence_of (typed (L "str")));
    (L "numerical_representation", one_of [L "mpmath"; L "sympy"]);
    (L "rootfinding", one_of [L "MDNewton"; L "ConstrainedNewton"]);
    (L "tolerance", is_number); (L "max_rootfinding_iterations", is_integer);
    (L "ode_buffer_size", is_integer); (L "ode_output_interval", is_integer);
    (L "ref_energies", good_ref); (L "analysis", is_sequence_of (typed (L "OnTheFlyAnalysis"))) ].
Definition acceptable_kmc : list (str * (tree -> Prop)) :=
  [ (L "cell_vectors", good_vectors (Some 3)); (L "basis_sites", good_vectors (Some 3));
    (L "repetitions", is_sequence_of (typed (L "int"))); (L "periodic", is_sequence_of (typed (L "bool")));
    (L "nstep", is_integer); (L "random_seed", is_integer); (L "time_seed", is_bool);
    (L "trajectory_dump_interval", is_integer);
    (L "random_generator", one_of [L "MT"; L "MINSTD"; L "RANLUX24"; L "RANLUNX48"]);
    (L "analysis", is_sequence_of (one_of [L "CoveragesAnalysis"; L "FrequencyAnalysis"; L "TOFAnalysis";
                                           L "EventAnalysis"]));
    (L "analysis_interval", good_interval);
    (L "possible_element_types", is_sequence_of (typed (L "str")));
    (L "possible_site_types", is_sequence_of (typed (L "str"))); (L "empty_type", is_text);
    (L "tof_start", is_integer); (L "time_limit", is_number);
    (L "coverage_ratios", is_sequence_of (typed (L "float")));
    (L "extra_trajectories", is_sequence_of (typed (L "int"))); (L "start_time", is_number);
    (L "tof_interval", is_number); (L "do_redistribution", is_bool); (L "redistribution_interval", is_integer);
    (L "fast_species", is_sequence_of (typed (L "str"))); (L "nsplits", is_sequence_of (typed (L "int")));
    (L "distributor_type", one_of [L "RandomDistributor"; L "ProcessRandomDistributor"]) ].
