(** Specification vocabulary for coverages, rates and turnover frequencies (C25-C31). *)
From Coq Require Import String Ascii List ZArith Bool Reals.
Import ListNotations.
From Verif Require Import PyBase Rxn_Model Rxn_Spec Species_Model Species_Spec PyReal MF_Model.
Open Scope list_scope.
Local Open Scope R_scope.

(** The solver is set up for a mechanism that was parsed, and every site, gas and liquid
    has its number in the setup. *)
Definition prepared (s : setup) : Prop :=
  parse_rxns (s_exprs s) = Ok (s_lists s) /\
  (forall n, In n (l_site (s_lists s)) -> exists t, dget (s_total s) n = Some t) /\
  (forall n, In n (l_gas (s_lists s)) -> exists x, dget (s_pressure s) n = Some x) /\
  (forall n, In n (l_liq (s_lists s)) -> exists x, dget (s_conc s) n = Some x).

Definition ads (s : setup) : list str := l_ads (s_lists s).
Definition sites (s : setup) : list str := l_site (s_lists s).

(** The empty site an adsorbate sits on, read from its name. *)
Definition site_tag (n : str) : str := L "*_" ++ after_digits (after_last_underscore n).

Definition value (d : dict R) (n : str) : R := match dget d n with Some x => x | None => 0 end.
Definition total (s : setup) (site : str) : R :=
  match dget (s_total s) site with Some t => n_val t | None => 0 end.

(** Sum of the coverages of the adsorbates of a site. *)
Fixpoint covered (site : str) (names : list str) (cvgs : list R) : R :=
  match names, cvgs with
  | n :: ns, x :: xs => (if str_eqb (site_tag n) site then x else 0) + covered site ns xs
  | _, _ => 0
  end.

(** Coverage of an adsorbate or of a free site. *)
Definition coverage (s : setup) (cvgs : list R) (n : str) : R :=
  match dget (combine (ads s) cvgs) n with
  | Some x => x
  | None => total s n - covered n (ads s) cvgs
  end.

(** Physical coverages (C26). *)
Definition feasible (s : setup) (cvgs : list R) : Prop :=
  length cvgs = length (ads s) /\
  (forall i n x, nth_error (ads s) i = Some n -> nth_error cvgs i = Some x ->
     0 <= x <= 1 /\ x <= total s (site_tag n)) /\
  (forall site, In site (sites s) -> covered site (ads s) cvgs <= total s site).

(** Rate of a state by the law of mass action: pressure of a gas, concentration of a
    liquid, coverage of anything on the surface, to the stoichiometric number. *)
Definition activity (s : setup) (cvgs : list R) (f : formula) : R :=
  if str_eqb (f_site f) (L "g") then value (s_pressure s) (f_species_site f)
  else if str_eqb (f_site f) (L "l") then value (s_conc s) (f_species_site f)
  else coverage s cvgs (f_species_site f).
Fixpoint mass_action (s : setup) (cvgs : list R) (k : R) (st : list formula) : R :=
  match st with
  | [] => k
  | f :: t => activity s cvgs f ^ Z.to_nat (f_stoich f) * mass_action s cvgs k t
  end.

(** States whose species are all adsorbates, single empty sites, gases or liquids. *)
Definition usable (st : list formula) : Prop :=
  tabulated st /\
  forall f, In f st -> ~ surface_site (f_site f) -> ~ In ("*"%char) (f_species f).
Definition usable_rxn (fls : list (list formula)) : Prop :=
  forall first last, lfirst fls = Ok first -> llast fls = Ok last -> usable first /\ usable last.
Definition usable_setup (s : setup) : Prop :=
  prepared s /\ forall fls, In fls (l_rxns (s_lists s)) -> usable_rxn fls.

(** Position of the first reaction written with the same text. *)
Definition first_position {A} (l : list A) (x : A) (j : nat) : Prop :=
  nth_error l j = Some x /\ forall k, (k < j)%nat -> nth_error l k <> Some x.

(** Where an adsorbate is met first in a reaction: state number and number of molecules
    in that formula. *)
Definition met_first (name : str) (fls : list (list formula)) (i : nat) (n : Z) : Prop :=
  exists st before f after,
    nth_error fls i = Some st /\ st = before ++ f :: after /\
    f_species_site f = name /\ f_stoich f = n /\
    (forall g, In g before -> f_species_site g <> name) /\
    (forall k st', (k < i)%nat -> nth_error fls k = Some st' -> forall g, In g st' -> f_species_site g <> name).
Definition absent (name : str) (fls : list (list formula)) : Prop :=
  forall st g, In st fls -> In g st -> f_species_site g <> name.

(** An adsorbate that occurs in at most one formula of the first and last states of a
    reaction taken together, and in no middle state unless also in the first one. *)
Definition plain_in (name : str) (fls : list (list formula)) : Prop :=
  absent name fls \/
  (exists before f after middle last, fls = (before ++ f :: after) :: middle ++ [last] /\
     f_species_site f = name /\ absent name [before; after; last]) \/
  (exists before f after front, fls = front ++ [before ++ f :: after] /\ front <> [] /\
     f_species_site f = name /\ absent name (before :: after :: front)).

(** The bounds of one coverage, and the share a site has to be scaled by. *)
Definition clipped (s : setup) (cvgs : list R) : list R :=
  map (fun p => Rmin (Rmax 0 (Rmin 1 (snd p))) (total s (site_tag (fst p)))) (combine (ads s) cvgs).
Definition share (s : setup) (b : list R) (site : str) : R :=
  let load := covered site (ads s) b in
  if Rle_dec load (total s site) then 1 else total s site / load.

(** Change of an adsorbate by one reaction, as the code counts it: only the formula met first
    matters. *)
Definition counted_change (name : str) (fls : list (list formula)) (rf rr x : R) : Prop :=
  (absent name fls /\ x = 0) \/
  (exists n, met_first name fls 0 n /\ x = IZR n * (rr - rf)) \/
  (exists i n, met_first name fls (S i) n /\ x = IZR n * (rf - rr)).

(** Net change of a species by one reaction running at the given net rate. *)
Definition net_change (name : str) (fls : list (list formula)) (net x : R) : Prop :=
  forall first last, lfirst fls = Ok first -> llast fls = Ok last ->
    x = - IZR (net_consumption name first last) * net.

(** Sum over the positions of two lists. *)
Fixpoint weighted_sum (w : str -> Z) (names : list str) (xs : list R) : R :=
  match names, xs with
  | n :: ns, x :: t => IZR (w n) * x + weighted_sum w ns t
  | _, _ => 0
  end.
