(** Specification vocabulary for the input of a kinetic Monte Carlo simulation (C69). *)
From Coq Require Import String Ascii List ZArith Bool Arith.
Import ListNotations.
From Verif Require Import PyBase Kmc_Model KIn_Model.
Local Open Scope list_scope.
Local Open Scope nat_scope.

(** The number of sites of the lattice: unit cells times sites of a unit cell. *)
Fixpoint product (l : list Z) : Z := match l with [] => 1%Z | x :: t => (x * product t)%Z end.
Definition sites (o : kmc_owner) : Z := (product (k_repetitions o) * Z.of_nat (k_nbasis o))%Z.

(** A sequence of names: a list or tuple of texts, or a text as the sequence of its letters. *)
Inductive name_sequence : pv -> list str -> Prop :=
| ns_list l : name_sequence (PList (map PStr l)) l
| ns_tuple l : name_sequence (PTuple (map PStr l)) l
| ns_text s : name_sequence (PStr s) (map (fun c => [c]) s).

(** A value without length. *)
Definition unsized (v : pv) : Prop :=
  match v with PStr _ | PList _ | PTuple _ => False | _ => True end.
Definition size (v : pv) : nat :=
  match v with PStr s => length s | PList l | PTuple l => length l | _ => 0 end.

Section Spec.
  Context {E PD La Cf Sm : Type}.
  Notation world := (world E PD La Cf Sm).

  (** The file that is read: the one named, else the usual one. *)
  Definition read (w : world) (given : option str) (usual : string) : option (res (locs PD)) :=
    w_exec w (match given with Some n => n | None => L usual end).

  (** Where a sequence comes from: the file, or a value repeated for all sites. *)
  Inductive chosen (f : option (res (locs PD))) (field : locs PD -> option pv) (dflt : res pv) : res pv -> Prop :=
  | ch_file l v : f = Some (Ok l) -> field l = Some v -> chosen f field dflt (Ok v)
  | ch_broken e : f = Some (Err e) -> chosen f field dflt (Err e)
  | ch_default : (f = None \/ exists l, f = Some (Ok l) /\ field l = None) -> chosen f field dflt dflt.

  (** The same type on all sites. *)
  Definition filled (o : kmc_owner) (t : str) : pv := PList (repeat (PStr t) (Z.to_nat (sites o))).

  Definition default_site (o : kmc_owner) : res pv :=
    match k_site_types o with [] => Err IndexError | t :: _ => Ok (filled o t) end.

  (** All outcomes of reading the sites. *)
  Inductive sites_end (w : world) (o : kmc_owner) (given : option str) : res Sm -> Prop :=
  | se_norep : k_repetitions o = [] -> sites_end w o given (Err TypeError)
  | se_source e : k_repetitions o <> [] ->
      chosen (read w given "kmc_sites.py") f_site_types (default_site o) (Err e) ->
      sites_end w o given (Err e)
  | se_unsized v : k_repetitions o <> [] ->
      chosen (read w given "kmc_sites.py") f_site_types (default_site o) (Ok v) ->
      unsized v -> sites_end w o given (Err TypeError)
  | se_length v : k_repetitions o <> [] ->
      chosen (read w given "kmc_sites.py") f_site_types (default_site o) (Ok v) ->
      ~ unsized v -> Z.of_nat (size v) <> sites o -> sites_end w o given (Err SetupError)
  | se_unknown v : k_repetitions o <> [] ->
      chosen (read w given "kmc_sites.py") f_site_types (default_site o) (Ok v) ->
      ~ unsized v -> Z.of_nat (size v) = sites o ->
      ~ (exists l, name_sequence v l /\ forall t, In t l -> In t (k_site_types o)) ->
      sites_end w o given (Err SetupError)
  | se_library v l r : k_repetitions o <> [] ->
      chosen (read w given "kmc_sites.py") f_site_types (default_site o) (Ok v) ->
      Z.of_nat (size v) = sites o ->
      name_sequence v l -> (forall t, In t l -> In t (k_site_types o)) ->
      r = (do la <- w_lattice w; w_sitesmap w la v (k_site_types o)) ->
      sites_end w o given r.

  (** The default configuration: every site empty. *)
  Definition default_types (o : kmc_owner) : res pv :=
    match k_repetitions o with [] => Err TypeError | _ => Ok (filled o (k_empty o)) end.

  (** All outcomes of reading the configuration. *)
  Inductive configuration_end (w : world) (o : kmc_owner) (given : option str) : res Cf -> Prop :=
  | ce_empty : ~ In (k_empty o) (k_element_types o) -> configuration_end w o given (Err SetupError)
  | ce_source e : In (k_empty o) (k_element_types o) ->
      chosen (read w given "kmc_configuration.py") f_types (default_types o) (Err e) ->
      configuration_end w o given (Err e)
  | ce_library v r : In (k_empty o) (k_element_types o) ->
      chosen (read w given "kmc_configuration.py") f_types (default_types o) (Ok v) ->
      r = (do la <- w_lattice w; w_configuration w la v (k_element_types o)) ->
      configuration_end w o given r.

  (** All outcomes of reading the processes. *)
  Inductive processes_end (w : world) (o : kmc_owner) (given : option str) : res PD -> Prop :=
  | pe_none : read w given "kmc_processes.py" = None -> processes_end w o given (Err IOError)
  | pe_broken e : read w given "kmc_processes.py" = Some (Err e) -> processes_end w o given (Err e)
  | pe_missing l : read w given "kmc_processes.py" = Some (Ok l) -> f_processes l = None ->
      processes_end w o given (Err KeyError)
  | pe_uncounted l p e : read w given "kmc_processes.py" = Some (Ok l) -> f_processes l = Some p ->
      k_log o = true -> w_len w p = Err e -> processes_end w o given (Err e)
  | pe_ok l p : read w given "kmc_processes.py" = Some (Ok l) -> f_processes l = Some p ->
      (k_log o = true -> exists n, w_len w p = Ok n) -> processes_end w o given (Ok p).
End Spec.

Section Data.
  Context {E PD La Cf Sm : Type}.
  Notation world := (world E PD La Cf Sm).
  Notation model := (model E PD Cf Sm).

  (** What a model shows as its processes, configuration and sites map. *)
  Definition shows (m : model) (p : res (attr PD Cf Sm)) (c : res (attr PD Cf Sm)) (s : res (attr PD Cf Sm)) : Prop :=
    process_dicts m = p /\ configuration m = c /\ sitesmap m = s.

  (** The three inputs are read in this order; the first that fails decides. *)
  Inductive inputs_end (w : world) (o : kmc_owner) (pf cf sf : option str) : res (PD * Cf * Sm) -> Prop :=
  | ie_processes e : processes_end w o pf (Err e) -> inputs_end w o pf cf sf (Err e)
  | ie_configuration p e : processes_end w o pf (Ok p) -> configuration_end w o cf (Err e) ->
      inputs_end w o pf cf sf (Err e)
  | ie_sites p c e : processes_end w o pf (Ok p) -> configuration_end w o cf (Ok c) ->
      sites_end w o sf (Err e) -> inputs_end w o pf cf sf (Err e)
  | ie_ok p c s : processes_end w o pf (Ok p) -> configuration_end w o cf (Ok c) ->
      sites_end w o sf (Ok s) -> inputs_end w o pf cf sf (Ok (p, c, s)).
End Data.
