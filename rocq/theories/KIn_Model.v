(** Model of scaks/parsers/kmc_parser.py:41-229, the input files of a kinetic Monte Carlo
    simulation, and of the attributes of scaks/models/kmc_model.py:169-202 that are set from
    them. *)
From Coq Require Import String Ascii List ZArith Bool Arith.
Import ListNotations.
From Verif Require Import PyBase Kmc_Model.
Local Open Scope list_scope.
Local Open Scope nat_scope.

(** [reduce(mul, l)]. kmc_parser.py:91, 171. *)
Definition reduce_mul (l : list Z) : res Z :=
  match l with
  | [] => Err TypeError
  | x :: t => Ok (fold_left Z.mul t x)
  end.

(** [[x]*n] and [[x for i in range(n)]]: empty for a negative number. kmc_parser.py:99, 172. *)
Definition times {A} (x : A) (n : Z) : list A := repeat x (Z.to_nat n).

(** [len(v)]. kmc_parser.py:114. *)
Definition py_len (v : pv) : res nat :=
  match v with
  | PStr s => Ok (length s)
  | PList l | PTuple l => Ok (length l)
  | _ => Err TypeError
  end.

(** The items of [for x in v]: a text gives its characters. kmc_parser.py:119. *)
Definition py_iter (v : pv) : list pv :=
  match v with
  | PStr s => map (fun c => PStr [c]) s
  | PList l | PTuple l => l
  | _ => []
  end.

(** [v in names] for a sequence of texts. kmc_parser.py:120. *)
Definition in_names (v : pv) (names : list str) : bool :=
  match v with PStr s => str_mem s names | _ => false end.

(** What the parser reads from the model; the types come from checked attributes.
    kmc_parser.py:86-90, 148-149, 169-178. *)
Record kmc_owner := {
  k_class : str;                 (* self._owner.__class__.__name__ *)
  k_repetitions : list Z;
  k_nbasis : nat;                (* len(basis_sites) *)
  k_site_types : list str;       (* possible_site_types *)
  k_element_types : list str;    (* possible_element_types *)
  k_empty : str;                 (* empty_type *)
  k_log : bool                   (* log_allowed *)
}.

Section Parse.
  (** Energies, process definitions, and the objects of KMCLibX. *)
  Context {E PD La Cf Sm : Type}.

  (** The names that matter in a file that has been executed.
      kmc_parser.py:106-111, 188-190, 222-229. *)
  Record locs := {
    f_processes : option PD;
    f_types : option pv;
    f_site_types : option pv
  }.

  (** The outside world: [RelativeEnergyParser.parse_data] as it changes the energies of the
      model (Energy_Model.v and Gen_Model.v look inside), the files (None if there is none,
      otherwise what executing it gives), [len] of process definitions,
      [construct_lattice] of kmc_parser.py:135-154 and the constructors of KMCLibX. *)
  Record world := {
    w_energies : E -> E * res unit;
    w_exec : str -> option (res locs);
    w_len : PD -> res nat;
    w_lattice : res La;
    w_configuration : La -> pv -> list str -> res Cf;
    w_sitesmap : La -> pv -> list str -> res Sm
  }.

  (** The default names, kmc_parser.py:83-84, 182-183, 218-219. *)
  Definition file_name (given : option str) (default : string) : str :=
    match given with Some n => n | None => L default end.

  (** kmc_parser.py:91 and 171. *)
  Definition number_of_sites (o : kmc_owner) : res Z :=
    do v <- reduce_mul (k_repetitions o); Ok (v * Z.of_nat (k_nbasis o))%Z.

  (** kmc_parser.py:93-99. *)
  Definition default_site_types (o : kmc_owner) (nsite : Z) : res pv :=
    do t <- lindex (k_site_types o) 0; Ok (PList (times (PStr t) nsite)).

  (** kmc_parser.py:119-123. *)
  Definition check_site_types (o : kmc_owner) (v : pv) : res unit :=
    if forallb (fun t => in_names t (k_site_types o)) (py_iter v) then Ok tt else Err SetupError.

  (** [construct_sitesmap], kmc_parser.py:71-133. *)
  Definition construct_sitesmap (w : world) (o : kmc_owner) (filename : option str) : res Sm :=
    do nsite <- number_of_sites o;
    do types <- match w_exec w (file_name filename "kmc_sites.py") with
                | None => default_site_types o nsite
                | Some r => do l <- r;
                            match f_site_types l with
                            | None => default_site_types o nsite
                            | Some v => Ok v
                            end
                end;
    do n <- py_len types;
    if negb (Z.of_nat n =? nsite)%Z then Err SetupError
    else
      do _ <- check_site_types o types;
      do lattice <- w_lattice w;
      w_sitesmap w lattice types (k_site_types o).

  (** kmc_parser.py:168-173. *)
  Definition empty_types (o : kmc_owner) : res pv :=
    do nsite <- number_of_sites o; Ok (PList (times (PStr (k_empty o)) nsite)).

  (** [parse_configuration], kmc_parser.py:156-205. *)
  Definition parse_configuration (w : world) (o : kmc_owner) (filename : option str) : res Cf :=
    do _ <- check_string (PStr (k_empty o)) (k_element_types o);
    do types <- match w_exec w (file_name filename "kmc_configuration.py") with
                | Some r => do l <- r;
                            match f_types l with
                            | Some v => Ok v
                            | None => empty_types o
                            end
                | None => empty_types o
                end;
    do lattice <- w_lattice w;
    w_configuration w lattice types (k_element_types o).

  (** [parse_processes], kmc_parser.py:208-229: the number is only needed for the log. *)
  Definition parse_processes (w : world) (o : kmc_owner) (filename : option str) : res PD :=
    match w_exec w (file_name filename "kmc_processes.py") with
    | None => Err IOError
    | Some r =>
        do l <- r;
        match f_processes l with
        | None => Err KeyError
        | Some p => if k_log o then do _ <- w_len w p; Ok p else Ok p
        end
    end.

  (** Attributes of the model, by their true name. kmc_parser.py:67-69. *)
  Inductive attr := AProcesses (p : PD) | AConfiguration (c : Cf) | ASitesmap (s : Sm).
  (** What [parse_data] changes in the model, kmc_parser.py:59, 67-69. *)
  Record model := { m_energies : E; m_attrs : dict attr }.

  (** scaks/functions.py:115-140, [mangled_name]. *)
  Definition mangled_name (cls name : str) : str := L "_" ++ cls ++ L "__" ++ name.

  (** [parse_data], kmc_parser.py:41-69. *)
  Definition parse_data (w : world) (o : kmc_owner) (pf cf sf : option str) (m : model)
    : model * res unit :=
    match w_energies w (m_energies m) with
    | (en, Err e) => ({| m_energies := en; m_attrs := m_attrs m |}, Err e)
    | (en, Ok _) =>
        let m1 := {| m_energies := en; m_attrs := m_attrs m |} in
        match (do p <- parse_processes w o pf;
               do c <- parse_configuration w o cf;
               do s <- construct_sitesmap w o sf;
               Ok (p, c, s)) with
        | Err e => (m1, Err e)
        | Ok (p, c, s) =>
            ({| m_energies := en;
                m_attrs := dset (dset (dset (m_attrs m)
                  (mangled_name (k_class o) (L "process_dicts")) (AProcesses p))
                  (mangled_name (k_class o) (L "configuration")) (AConfiguration c))
                  (mangled_name (k_class o) (L "sitesmap")) (ASitesmap s) |}, Ok tt)
        end
    end.

  (** kmc_model.py:169-195: the name is the one of the class that holds the code.  An
      attribute that is there but of another kind cannot happen for the names used. *)
  Definition get_attr (m : model) (name : string) : res attr :=
    match dget (m_attrs m) (mangled_name (L "KMCModel") (L name)) with
    | Some a => Ok a
    | None => Err AttributeError
    end.
  (** kmc_model.py:169-174. *)
  Definition process_dicts (m : model) : res attr := get_attr m "process_dicts".
  (** kmc_model.py:183-188. *)
  Definition configuration (m : model) : res attr := get_attr m "configuration".
  (** kmc_model.py:190-195. *)
  Definition sitesmap (m : model) : res attr := get_attr m "sitesmap".
End Parse.
Arguments locs : clear implicits.
Arguments world : clear implicits.
Arguments attr : clear implicits.
Arguments model : clear implicits.
