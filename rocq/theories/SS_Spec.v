(** Specification vocabulary for the Jacobian (C29). *)
From Coq Require Import String Ascii List ZArith Bool Reals.
Import ListNotations.
From Verif Require Import PyBase Rxn_Model Rxn_Spec Species_Model Species_Spec PyReal PyExpr_Model
  PyExpr_Proofs MF_Model MF_Spec.
Local Open Scope list_scope.

(** The coverages with the one at position [j] replaced. *)
Definition with_coverage (cvgs : list R) (j : nat) (t : R) : list R :=
  firstn j cvgs ++ t :: skipn (S j) cvgs.

(** Every surface species of a state is written once, with one to nine molecules. *)
Definition sparse (st : list formula) : Prop :=
  forall before f after, st = before ++ f :: after -> surface_site (f_site f) ->
    (forall g, In g (before ++ after) -> f_species_site g <> f_species_site f) /\
    (1 <= f_stoich f <= 9)%Z.

(** The totals of the sites are written with digits and at most one point, and read back as
    the number they are. *)
Definition readable_totals (s : setup) : Prop :=
  forall site t, In site (sites s) -> dget (s_total s) site = Some t ->
    num_text (n_text t) /\ num_value (n_text t) = Ok (n_val t).

(** The state whose rate is subtracted in the rate equation of an adsorbate. *)
Definition subtracted (name : str) (fls : list (list formula)) (st : list formula) : Prop :=
  (exists n, met_first name fls 0 n /\ lfirst fls = Ok st) \/
  (exists i n, met_first name fls (S i) n /\ llast fls = Ok st).

Definition named (name : str) (st : list formula) : Prop := exists f, In f st /\ f_species_site f = name.

(** A rate that depends on an adsorbate and on its free site is never subtracted in the
    equation of [row]. *)
Definition no_clash (row column : str) (fls : list (list formula)) : Prop :=
  forall st, subtracted row fls st -> ~ (named column st /\ named (site_tag column) st).

(** Sites are called by letters. *)
Definition lettered_sites (s : setup) : Prop :=
  forall site, In site (sites s) -> exists w, site = L "*_" ++ w /\ forallb is_letter w = true.

Definition differentiable_setup (s : setup) : Prop :=
  usable_setup s /\ readable_totals s /\ lettered_sites s /\
  forall fls first last, In fls (l_rxns (s_lists s)) -> lfirst fls = Ok first -> llast fls = Ok last ->
    sparse first /\ sparse last.

(** ** What is wrong where such a rate is subtracted *)

(** The rate of a state with the coverage of a free site replaced by [u]. *)
Fixpoint rate_with (s : setup) (cvgs : list R) (site : str) (u k : R) (st : list formula) : R :=
  match st with
  | [] => k
  | f :: t => ((if str_eqb (f_species_site f) site then u else activity s cvgs f) ^ Z.to_nat (f_stoich f)
               * rate_with s cvgs site u k t)%R
  end.

(** The rate that the reaction [e] subtracts in the equation of [row]: [n] times the rate of the
    state [st] with rate constant [k]. *)
Definition taken_off (s : setup) (kf kr : list R) (row e : str) (n : Z) (k : R) (st : list formula) : Prop :=
  exists fls j, rxn_formula_list e = Ok fls /\ first_position (s_exprs s) e j /\
    ((met_first row fls 0 n /\ lfirst fls = Ok st /\ nth_error kf j = Some k) \/
     (exists i, met_first row fls (S i) n /\ llast fls = Ok st /\ nth_error kr j = Some k)).

(** [c]: if the subtracted rate depends on [col] and on its free site, its derivative with respect
    to the free site alone; otherwise 0. *)
Definition missed (s : setup) (kf kr cvgs : list R) (row col e : str) (c : R) : Prop :=
  (exists n k st, taken_off s kf kr row e n k st /\ named col st /\ named (site_tag col) st /\
     derivable_pt_lim (fun u => IZR n * rate_with s cvgs (site_tag col) u k st)%R
       (coverage s cvgs (site_tag col)) c) \/
  (c = 0%R /\ forall n k st, taken_off s kf kr row e n k st -> ~ (named col st /\ named (site_tag col) st)).
