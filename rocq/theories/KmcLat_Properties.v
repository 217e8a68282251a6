(** Properties C108, C109: the processes on a lattice.  Vocabulary: KmcLat_Spec.v, Kmc_Spec.v, Rate_Spec.v. *)
From Coq Require Import String Ascii List ZArith QArith Reals Lra.
Import ListNotations.
From Verif Require Import PyBase Kmc_Model Kmc_Spec Kmc_Witness KmcLat_Spec KmcLat_Witness KmcLat_Reach.
From Verif Require Rxn_Model PyReal Thermo_Model Rate_Model Rate_Spec KCov_Model KCov_Spec.
Local Open Scope list_scope.
Local Open Scope nat_scope.

(** Unless something is a redistribution or a wildcard is overwritten, every event can be undone at the same
    place by another of the processes; on every lattice with room for them. *)
Theorem C108_reversible : forall neighbour basis n (o : owner R) mapping ds ps m p a X Y,
  get_processes o mapping ds = (Ok ps, m) ->
  (forall d, In d ds -> flag d "redist" false) ->
  (forall d q, In d ds -> describes d q -> same_wildcards q /\ roomy neighbour n q) ->
  In p ps -> a < n -> length X = n -> event neighbour basis p a X = Some Y ->
  length Y = n /\ exists q, In q ps /\ event neighbour basis q a Y = Some X /\
    p_coordinates q = p_coordinates p /\ p_site q = p_site p.
Proof. exact reversible'. Qed.
Print Assumptions C108_reversible.

(** If moreover the two rates of every definition are in the ratio of the weights, the whole lattice is in
    detailed balance: between any two configurations as much goes forth as back. *)
Theorem C108_detailed_balance_partial : forall neighbour basis n E (o : owner R) mapping ds ps m X Y,
  get_processes o mapping ds = (Ok ps, m) ->
  (forall d, In d ds -> flag d "redist" false) ->
  (forall d q, In d ds -> describes d q -> same_wildcards q /\ roomy neighbour n q) ->
  (forall d p rf rr, In d ds -> describes d p -> rate_pair o (d_reaction p) rf rr -> balanced E p rf rr) ->
  length X = n -> length Y = n ->
  (weight E X * flow neighbour basis n ps X Y = weight E Y * flow neighbour basis n ps Y X)%R.
Proof. exact balance'. Qed.
Print Assumptions C108_detailed_balance_partial.

(** So the weights are stationary: what flows into a configuration flows out. *)
Theorem C108_stationary_partial : forall neighbour basis n E (o : owner R) mapping ds ps m Y Xs,
  get_processes o mapping ds = (Ok ps, m) ->
  (forall d, In d ds -> flag d "redist" false) ->
  (forall d q, In d ds -> describes d q -> same_wildcards q /\ roomy neighbour n q) ->
  (forall d p rf rr, In d ds -> describes d p -> rate_pair o (d_reaction p) rf rr -> balanced E p rf rr) ->
  length Y = n -> (forall X, In X Xs -> length X = n) ->
  sum (map (fun X => weight E X * flow neighbour basis n ps X Y)%R Xs)
  = (weight E Y * sum (map (fun X => flow neighbour basis n ps Y X) Xs))%R.
Proof. exact stationary'. Qed.
Print Assumptions C108_stationary_partial.

(** With transition state theory the condition on the rates is one on the energies: the elements written
    differ from those overwritten by the free energy of reaction, corrected for the pressures. *)
Theorem C108_transition_state : forall (o : owner R) ro r p fls f0 f1 P gaf gar dg E rf rr,
  rate_algo o = L "TST" -> rates_TST o (d_reaction p) = Rate_Model.rates_TST ro (d_reaction p) r true ->
  (0 < Thermo_Model.o_T ro)%R -> Rate_Spec.energies_of ro r (d_reaction p) gaf gar dg -> (gaf - gar = dg)%R ->
  Rxn_Model.rxn_formula_list (d_reaction p) = Ok fls -> lfirst fls = Ok f0 -> llast fls = Ok f1 ->
  Forall Rate_Spec.unnumbered (Rate_Spec.gases f0 ++ Rate_Spec.gases f1) ->
  Rate_Spec.knows_pressures ro P [f0; f1] -> (forall g, 0 < P g)%R ->
  rate_pair o (d_reaction p) rf rr ->
  balanced E p rf rr <->
  (energy E (named (d_after p)) - energy E (named (d_before p))
   = dg / Rate_Spec.kT (Thermo_Model.o_T ro) + ln (Rate_Spec.pressure_factor P f1) - ln (Rate_Spec.pressure_factor P f0))%R.
Proof. exact tst_balanced. Qed.
Print Assumptions C108_transition_state.

(** A redistribution cannot be undone, and neither can what is written over a wildcard; both are accepted. *)
Theorem C108_redistribution_refuted : exists o ds ps m X Y, get_processes o [] ds = (Ok ps, m) /\
  (forall d p, In d ds -> describes d p -> same_wildcards p /\ roomy l_neighbour 2 p) /\
  length X = 2 /\ length Y = 2 /\ (0 < flow l_neighbour l_basis 2 ps X Y)%R /\ flow l_neighbour l_basis 2 ps Y X = 0%R.
Proof. exact redistribution_irreversible. Qed.
Print Assumptions C108_redistribution_refuted.

Theorem C108_wildcards_refuted : exists o ds ps m X Y, get_processes o [] ds = (Ok ps, m) /\
  (forall d, In d ds -> flag d "redist" false) /\ (forall d p, In d ds -> describes d p -> roomy l_neighbour 2 p) /\
  length X = 2 /\ length Y = 2 /\ (0 < flow l_neighbour l_basis 2 ps X Y)%R /\ flow l_neighbour l_basis 2 ps Y X = 0%R.
Proof. exact overwriting_irreversible. Qed.
Print Assumptions C108_wildcards_refuted.

(** Adsorption on two sites at any rates, with energies in their ratio, meets all the conditions; from the
    bare lattice one site is filled at the forward rate, and emptied at the reverse rate. *)
Example C108_example : forall rf rr E, (rf * exp (- E (L "V")) = rr * exp (- E (L "CO")))%R -> exists ps m,
  get_processes (l_owner rf rr) [] [w_ads] = (Ok ps, m) /\
  (forall d, In d [w_ads] -> flag d "redist" false) /\
  (forall d q, In d [w_ads] -> describes d q -> same_wildcards q /\ roomy l_neighbour 2 q) /\
  (forall d p x y, In d [w_ads] -> describes d p -> rate_pair (l_owner rf rr) (d_reaction p) x y -> balanced E p x y) /\
  flow l_neighbour l_basis 2 ps [L "V"; L "V"] [L "CO"; L "V"] = rf /\
  flow l_neighbour l_basis 2 ps [L "CO"; L "V"] [L "V"; L "V"] = rr.
Proof.
  intros rf rr E B. destruct (l_processes rf rr) as (m & H). do 2 eexists. split; [exact H|].
  destruct l_fit as [F1 F2]. split; [exact F1|]. split; [exact F2|].
  split; [intros d p x y; now apply l_balanced|]. apply l_flow.
Qed.

(** CO at 300 K and unit pressure, whose free energy of adsorption is 1 eV. *)
Example C108_transition_example : exists rf rr, rate_pair t_owner (d_reaction t_pdef) rf rr /\
  forall E, balanced E t_pdef rf rr <-> (E (L "CO") - E (L "V") = 1 / Rate_Spec.kT 300)%R.
Proof. exact t_case. Qed.

(** C109.  However long a simulation with the generated processes runs, it keeps its sites and shows declared
    types only ... *)
Theorem C109_declared : forall neighbour basis n (o : owner R) mapping ds ps m X Y,
  get_processes o mapping ds = (Ok ps, m) -> reaches neighbour basis n ps X Y ->
  (forall x, In x X -> In x (possible_element_types o)) ->
  length Y = length X /\ forall y, In y Y -> In y (possible_element_types o).
Proof. exact reaches_declared. Qed.
Print Assumptions C109_declared.

(** ... so that the coverages recorded at any step are the weighted fractions of all types. *)
Theorem C109_recorded : forall neighbour basis n (o : owner R) mapping ds ps m X Y empty ratios,
  get_processes o mapping ds = (Ok ps, m) -> reaches neighbour basis n ps X Y ->
  (forall x, In x X -> In x (possible_element_types o)) ->
  NoDup (possible_element_types o) -> In empty (possible_element_types o) ->
  KCov_Spec.whole_cells ratios X -> (KCov_Spec.total ratios == 1)%Q ->
  exists v, KCov_Model.step_coverages (possible_element_types o) empty ratios Y = Ok v /\
    Forall2 (fun t c => (c == KCov_Spec.fraction ratios Y t)%Q) (possible_element_types o) v.
Proof. exact reaches_recorded. Qed.
Print Assumptions C109_recorded.

(** Whatever all definitions keep (a sum [q] over the elements), every simulation keeps. *)
Theorem C109_conserved_partial : forall neighbour basis n (o : owner R) mapping ds ps m X Y q,
  get_processes o mapping ds = (Ok ps, m) ->
  (forall d p, In d ds -> describes d p -> same_wildcards p /\ roomy neighbour n p /\
     energy q (named (d_before p)) = energy q (named (d_after p))) ->
  length X = n -> reaches neighbour basis n ps X Y -> energy q Y = energy q X.
Proof. exact reaches_conserved. Qed.
Print Assumptions C109_conserved_partial.

(** But not what the reactions keep: elements are not compared with the reaction, so that the only reaction
    of a model may move a CO and a simulation of it make one. *)
Theorem C109_conserved_refuted : exists o ds ps m X Y,
  rxn_expressions o = [L "CO_t + *_b -> *_t + CO_b"] /\ get_processes o [] ds = (Ok ps, m) /\
  (forall d p, In d ds -> describes d p -> same_wildcards p /\ roomy l_neighbour 2 p) /\
  length X = 2 /\ reaches l_neighbour l_basis 2 ps X Y /\
  count_occ (list_eq_dec ascii_dec) X (L "CO") = 1 /\ count_occ (list_eq_dec ascii_dec) Y (L "CO") = 2.
Proof. exact m_created. Qed.
Print Assumptions C109_conserved_refuted.

(** Diffusion on two sites meets the hypotheses. *)
Example C109_example : exists ps m, get_processes m_owner [] [h_def] = (Ok ps, m) /\
  reaches l_neighbour l_basis 2 ps [L "CO"; L "V"] [L "V"; L "CO"] /\
  (forall d p, In d [h_def] -> describes d p -> same_wildcards p /\ roomy l_neighbour 2 p /\
     energy ones (named (d_before p)) = energy ones (named (d_after p))) /\
  (forall x, In x [L "CO"; L "V"] -> In x (possible_element_types m_owner)).
Proof. exact h_conserves. Qed.
