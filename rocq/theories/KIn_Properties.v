(** C69: the input files of a kinetic Monte Carlo simulation. *)
From Coq Require Import String Ascii List ZArith Bool Arith.
Import ListNotations.
From Verif Require Import PyBase Kmc_Model KIn_Model KIn_Spec KIn_Proofs KIn_Names.
Local Open Scope list_scope.
Local Open Scope nat_scope.

(** The check of a text: one of the given texts, and SetupError for everything else. *)
Theorem C69_text : forall v range r, check_string v range = r <->
  (exists s, v = PStr s /\ In s range /\ r = Ok s) \/
  ((forall s, v = PStr s -> ~ In s range) /\ r = Err SetupError).
Proof. exact check_string_iff. Qed.
Print Assumptions C69_text.

Section Worlds.
Context {E PD La Cf Sm : Type}.
Notation world := (world E PD La Cf Sm).
Notation model := (model E PD Cf Sm).

(** The sites map: the library gets the types of the file, or the first possible type for
    every site, only if there is one possible type per site. *)
Theorem C69_sites : forall (w : world) o file r,
  construct_sitesmap w o file = r <-> sites_end w o file r.
Proof. exact sites_iff. Qed.

(** The configuration: the types of the file, or every site empty. *)
Theorem C69_configuration : forall (w : world) o file r,
  parse_configuration w o file = r <-> configuration_end w o file r.
Proof. exact configuration_iff. Qed.

(** The processes have no default. *)
Theorem C69_processes : forall (w : world) o file r,
  parse_processes w o file = r <-> processes_end w o file r.
Proof. exact processes_iff. Qed.

(** Without a file for the sites a lattice of positive size is always accepted. *)
Theorem C69_default_sites : forall (w : world) o file t rest,
  k_repetitions o <> [] -> Forall (fun x => (0 < x)%Z) (k_repetitions o) ->
  k_site_types o = t :: rest -> read w file "kmc_sites.py" = None ->
  construct_sitesmap w o file =
  (do la <- w_lattice w; w_sitesmap w la (PList (map PStr (repeat t (Z.to_nat (sites o))))) (t :: rest)).
Proof. exact default_accepted. Qed.

(** A model shows the three inputs together once all have been read. *)
Theorem C69_stored : forall (w : world) o pf cf sf (m : model) en p c s,
  w_energies w (m_energies m) = (en, Ok tt) -> inputs_end w o pf cf sf (Ok (p, c, s)) ->
  k_class o = L "KMCModel" ->
  let '(m', r) := parse_data w o pf cf sf m in
  r = Ok tt /\ m_energies m' = en /\
  shows m' (Ok (AProcesses p)) (Ok (AConfiguration c)) (Ok (ASitesmap s)).
Proof. exact stored. Qed.

(** The attributes carry the private names Python gives them in the class of the model; no other changes. *)
Theorem C69_names : forall (w : world) o pf cf sf (m : model) en p c s,
  w_energies w (m_energies m) = (en, Ok tt) -> inputs_end w o pf cf sf (Ok (p, c, s)) ->
  let m' := fst (parse_data w o pf cf sf m) in
  let name := fun text => L "_" ++ k_class o ++ L text in
  dget (m_attrs m') (name "__process_dicts"%string) = Some (AProcesses p) /\
  dget (m_attrs m') (name "__configuration"%string) = Some (AConfiguration c) /\
  dget (m_attrs m') (name "__sitesmap"%string) = Some (ASitesmap s) /\
  (forall n, n <> name "__process_dicts"%string -> n <> name "__configuration"%string ->
    n <> name "__sitesmap"%string -> dget (m_attrs m') n = dget (m_attrs m) n).
Proof. exact stored_names. Qed.

(** If one of them fails, the inputs stay as they were; the energies are already new. *)
Theorem C69_failed : forall (w : world) o pf cf sf (m : model) en e,
  w_energies w (m_energies m) = (en, Ok tt) -> inputs_end w o pf cf sf (Err e) ->
  let '(m', r) := parse_data w o pf cf sf m in
  r = Err e /\ m_energies m' = en /\ m_attrs m' = m_attrs m.
Proof. exact inputs_fail. Qed.

Theorem C69_energies_failed : forall (w : world) o pf cf sf (m : model) en e,
  w_energies w (m_energies m) = (en, Err e) ->
  let '(m', r) := parse_data w o pf cf sf m in
  r = Err e /\ m_energies m' = en /\ m_attrs m' = m_attrs m.
Proof. exact energies_fail. Qed.

(** A class derived from [KMCModel] never shows what its files hold. *)
Theorem C69_derived_class : forall (w : world) o pf cf sf (m : model),
  k_class o <> L "KMCModel" ->
  let '(m', r) := parse_data w o pf cf sf m in
  shows m' (process_dicts m) (configuration m) (sitesmap m).
Proof. exact not_seen. Qed.
End Worlds.
Print Assumptions C69_sites.
Print Assumptions C69_configuration.
Print Assumptions C69_processes.
Print Assumptions C69_default_sites.
Print Assumptions C69_stored.
Print Assumptions C69_names.
Print Assumptions C69_failed.
Print Assumptions C69_energies_failed.
Print Assumptions C69_derived_class.

(** ** A lattice of 2 x 3 cells with two sites each; the library keeps what it is given. *)
Definition grid (cls : str) : kmc_owner :=
  {| k_class := cls; k_repetitions := [2; 3; 1]%Z; k_nbasis := 2;
     k_site_types := [L "t"; L "b"]; k_element_types := [L "V"; L "CO"];
     k_empty := L "V"; k_log := true |}.

Definition plain (fs : dict (locs nat)) : world nat nat unit (pv * list str) (pv * list str) :=
  {| w_energies := fun n => (S n, Ok tt);
     w_exec := fun n => match dget fs n with Some l => Some (Ok l) | None => None end;
     w_len := fun n => Ok n; w_lattice := Ok tt;
     w_configuration := fun _ t p => Ok (t, p); w_sitesmap := fun _ t p => Ok (t, p) |}.

Definition processes_only : dict (locs nat) :=
  [(L "kmc_processes.py", {| f_processes := Some 7; f_types := None; f_site_types := None |})].
Definition fresh : model nat nat (pv * list str) (pv * list str) := {| m_energies := 0; m_attrs := [] |}.

(** The inputs of a model of a derived class are read without complaint but not found. *)
Theorem C69_derived_class_refuted : exists o m',
  k_class o <> L "KMCModel" /\
  parse_data (plain processes_only) o None None None fresh = (m', Ok tt) /\
  shows m' (Err AttributeError) (Err AttributeError) (Err AttributeError).
Proof.
  exists (grid (L "MyModel")). eexists. split; [discriminate|].
  split; [vm_compute; reflexivity|]. repeat split.
Qed.
Print Assumptions C69_derived_class_refuted.

(** Unlike the types of the sites, the types of a configuration file are not looked at: any
    value is handed to the library. *)
Theorem C69_configuration_unchecked_refuted : exists l,
  parse_configuration (plain [(L "kmc_configuration.py", l)]) (grid (L "KMCModel")) None
  = Ok (PList [PInt 5], [L "V"; L "CO"]).
Proof.
  exists {| f_processes := None; f_types := Some (PList [PInt 5]); f_site_types := None |}. reflexivity.
Qed.
Print Assumptions C69_configuration_unchecked_refuted.

Example C69_example_stored :
  let '(m', r) := parse_data (plain processes_only) (grid (L "KMCModel")) None None None fresh in
  r = Ok tt /\ m_energies m' = 1 /\
  shows m' (Ok (AProcesses 7)) (Ok (AConfiguration (PList (repeat (PStr (L "V")) 12), [L "V"; L "CO"])))
    (Ok (ASitesmap (PList (repeat (PStr (L "t")) 12), [L "t"; L "b"]))).
Proof. vm_compute. repeat split. Qed.

Example C69_example_inputs : inputs_end (plain processes_only) (grid (L "KMCModel")) None None None
  (Ok (7, (PList (repeat (PStr (L "V")) 12), [L "V"; L "CO"]), (PList (repeat (PStr (L "t")) 12), [L "t"; L "b"]))).
Proof. apply inputs_iff. reflexivity. Qed.

(** A wrong number of site types, and an unknown one. *)
Definition site_file (v : pv) : dict (locs nat) :=
  [(L "kmc_sites.py", {| f_processes := None; f_types := None; f_site_types := Some v |})].
Example C69_example_short : sites_end (plain (site_file (PList [PStr (L "t")]))) (grid (L "KMCModel")) None (Err SetupError).
Proof. apply sites_iff. reflexivity. Qed.
Example C69_example_unknown :
  sites_end (plain (site_file (PList (PStr (L "x") :: repeat (PStr (L "t")) 11)))) (grid (L "KMCModel")) None (Err SetupError).
Proof. apply sites_iff. reflexivity. Qed.
(** A text of the right length is taken letter by letter. *)
Example C69_example_letters :
  sites_end (plain (site_file (PStr (L "tttbbbtttbbb")))) (grid (L "KMCModel")) None
    (Ok (PStr (L "tttbbbtttbbb"), [L "t"; L "b"])).
Proof. apply sites_iff. reflexivity. Qed.

Example C69_example_text : check_string (PStr (L "RandomWalk")) [L "RandomWalk"; L "Tracing"] = Ok (L "RandomWalk") /\
  check_string (PStr (L "Random")) [L "RandomWalk"; L "Tracing"] = Err SetupError /\
  check_string (PList []) [L "RandomWalk"] = Err SetupError.
Proof. repeat split. Qed.
