(** Property theorems: consequences for a mechanism as a whole (C77-C80). *)
From Coq Require Import String Ascii List ZArith Bool Reals Lra Permutation.
Import ListNotations.
From Verif Require Import PyBase Rxn_Model Rxn_Spec Species_Model Species_Spec PyReal Energy_Model Energy_Spec
  Thermo_Model Rate_Model Rate_Spec Rate_Proofs MF_Model MF_Spec MF_Witness Whole_Spec Whole_Energy Whole_Rates Whole_Bound Whole_Order
  Whole_Witness.
Local Open Scope list_scope.
Local Open Scope R_scope.

(** C77 *)
Theorem C77_cycles_close : forall ed es r rxns c,
  relative_from_absolute true ed es = Ok r -> mapM rxn_formula_list es = Ok rxns ->
  (forall name, dot c (map (fun fls => IZR (produced name fls)) rxns) = 0) ->
  dot c (r_dG r) = 0.
Proof. exact cycles_close. Qed.
Print Assumptions C77_cycles_close.

Theorem C77_constants_close : forall ec o own ed r rxns c, 0 < o_T o ->
  relative_from_absolute true ed (o_rxns o) = Ok r -> mapM rxn_formula_list (o_rxns o) = Ok rxns ->
  (forall name, dot c (map (fun fls => IZR (produced name fls)) rxns) = 0) ->
  exists kf kr, rate_constants ec o (L "TST") (Some r) own = Ok (kf, kr) /\
    (forall k, In k kf \/ In k kr -> 0 < k) /\ dot c (map ln kf) = dot c (map ln kr).
Proof. exact constants_close. Qed.
Print Assumptions C77_constants_close.

Theorem C77_reference_free : forall es p xs atom site ed ed' r, parse_rxns es = Ok p ->
  (forall fls, In fls (l_rxns p) -> (2 <= length fls)%nat) ->
  rereferenced (reference xs atom site) (l_rxns p) ed ed' ->
  relative_from_absolute true ed es = Ok r -> relative_from_absolute true ed' es = Ok r.
Proof. exact rereference. Qed.
Print Assumptions C77_reference_free.

(** Energies of reactions supplied as such are taken as they are. *)
Theorem C77_supplied_refuted : exists es d st r rxns c,
  rel_parse_data None (Some d) (length es) {| es_rel := None; es_has_rel := false; es_abs := None; es_has_abs := false |}
    = (st, Ok tt) /\ es_rel st = Some r /\
  mapM rxn_formula_list es = Ok rxns /\
  (forall name, dot c (map (fun fls => IZR (produced name fls)) rxns) = 0) /\ dot c (r_dG r) <> 0.
Proof. exact supplied_refutes. Qed.
Print Assumptions C77_supplied_refuted.

(** A text with one state passes the check; its barrier is measured from zero. *)
Theorem C77_one_state_refuted : exists es p xs atom site ed ed' r r',
  parse_rxns es = Ok p /\ rereferenced (reference xs atom site) (l_rxns p) ed ed' /\
  relative_from_absolute true ed es = Ok r /\ relative_from_absolute true ed' es = Ok r' /\ r_Gaf r <> r_Gaf r'.
Proof. exact lone_refutes. Qed.
Print Assumptions C77_one_state_refuted.

Example C77_detour : exists r a b c, relative_from_absolute true detour_energies detour = Ok r /\
  mapM rxn_formula_list detour = Ok detour_parsed /\
  (forall name, dot [1; 1; -1] (map (fun fls => IZR (produced name fls)) detour_parsed) = 0) /\
  r_dG r = [a; b; c] /\ a = 1 /\ b = 6 /\ c = 7.
Proof.
  destruct detour_relative as (r & E & a & b & c & H). exists r, a, b, c. split; [exact E|].
  split; [exact detour_ok|]. split; [exact detour_cycle|exact H].
Qed.

(** C78 *)
Theorem C78_downhill : forall ec o own s r cvgs, usable_setup s -> NoDup (s_exprs s) -> o_rxns o = s_exprs s ->
  0 < o_T o -> consistent r (length (s_exprs s)) -> length cvgs = length (ads s) ->
  exists data kf kr nets,
    get_data s = Ok data /\ rate_constants ec o (L "TST") (Some r) own = Ok (kf, kr) /\
    net_rates s (Ok (kf, kr)) (Some data) cvgs = Ok nets /\ length nets = length (s_exprs s) /\
    forall i fls dg net, nth_error (l_rxns (s_lists s)) i = Some fls -> nth_error (r_dG r) i = Some dg ->
      nth_error nets i = Some net ->
      0 < activities s cvgs (begins fls) -> 0 < activities s cvgs (ends fls) ->
      let G := free_energy s cvgs (o_T o) dg fls in
      (net > 0 <-> G < 0) /\ (net = 0 <-> G = 0) /\ (net < 0 <-> G > 0).
Proof. exact downhill. Qed.
Print Assumptions C78_downhill.

Theorem C78_equilibrium : forall ec o own s r cvgs, usable_setup s -> NoDup (s_exprs s) -> o_rxns o = s_exprs s ->
  0 < o_T o -> consistent r (length (s_exprs s)) -> length cvgs = length (ads s) ->
  (forall i fls dg, nth_error (l_rxns (s_lists s)) i = Some fls -> nth_error (r_dG r) i = Some dg ->
     0 < activities s cvgs (begins fls) /\ 0 < activities s cvgs (ends fls) /\
     free_energy s cvgs (o_T o) dg fls = 0) ->
  exists data kf kr F tof,
    get_data s = Ok data /\ rate_constants ec o (L "TST") (Some r) own = Ok (kf, kr) /\
    steady_state_function s (Ok (kf, kr)) (Some data) cvgs = Ok F /\ length F = length (ads s) /\
    tofs s (Ok (kf, kr)) (Some data) cvgs = Ok tof /\
    (forall y, In y F -> y = 0) /\ (forall y, In y tof -> y = 0).
Proof. exact equilibrium. Qed.
Print Assumptions C78_equilibrium.

Theorem C78_boltzmann : forall ec o own s ed r xs atom site cvgs,
  usable_setup s -> NoDup (s_exprs s) -> o_rxns o = s_exprs s -> 0 < o_T o ->
  relative_from_absolute true ed (s_exprs s) = Ok r -> length cvgs = length (ads s) ->
  (forall st f, end_state s st -> In f st ->
     activity s cvgs f = exp ((reference xs atom site f - value ed (energy_name f)) / kT (o_T o))) ->
  exists data kf kr F tof,
    get_data s = Ok data /\ rate_constants ec o (L "TST") (Some r) own = Ok (kf, kr) /\
    steady_state_function s (Ok (kf, kr)) (Some data) cvgs = Ok F /\ length F = length (ads s) /\
    tofs s (Ok (kf, kr)) (Some data) cvgs = Ok tof /\
    (forall y, In y F -> y = 0) /\ (forall y, In y tof -> y = 0).
Proof. exact boltzmann_equilibrium. Qed.
Print Assumptions C78_boltzmann.

Example C78_oxidation : usable_setup eq_setup /\ NoDup (s_exprs eq_setup) /\
  (exists r, relative_from_absolute true flat (s_exprs eq_setup) = Ok r) /\
  length [/ 3; / 3] = length (ads eq_setup) /\
  forall st f, end_state eq_setup st -> In f st -> activity eq_setup [/ 3; / 3] f
    = exp ((reference [] (fun _ => 0) (fun _ => kT 500 * ln (/ 3)) f - value flat (energy_name f)) / kT 500).
Proof.
  split; [exact eq_usable|]. split; [exact ox_distinct|]. split; [exact flat_relative|]. split; [reflexivity|].
  apply eq_boltzmann. lra.
Qed.

(** C79 *)
Theorem C79_never_negative : forall s cvgs kf kr i name,
  usable_setup s -> NoDup (s_exprs s) -> length cvgs = length (ads s) ->
  length kf = length (s_exprs s) -> length kr = length (s_exprs s) ->
  (forall k, In k kf \/ In k kr -> 0 <= k) -> nothing_negative s cvgs ->
  nth_error (ads s) i = Some name -> nth_error cvgs i = Some 0 ->
  (forall fls, In fls (l_rxns (s_lists s)) -> absent name (removelast (tl fls))) ->
  exists data F y, get_data s = Ok data /\ steady_state_function s (Ok (kf, kr)) (Some data) cvgs = Ok F /\
    nth_error F i = Some y /\ 0 <= y.
Proof. exact never_negative. Qed.
Print Assumptions C79_never_negative.

Theorem C79_never_overfull : forall s cvgs kf kr site,
  usable_setup s -> NoDup (s_exprs s) -> length cvgs = length (ads s) ->
  length kf = length (s_exprs s) -> length kr = length (s_exprs s) ->
  (forall k, In k kf \/ In k kr -> 0 <= k) -> nothing_negative s cvgs ->
  In site (sites s) -> covered site (ads s) cvgs = total s site ->
  (forall n, In n (ads s) -> site_tag n = site -> leading_number (after_last_underscore n) = 1%Z /\
     forall fls, In fls (l_rxns (s_lists s)) -> plain_in n fls) ->
  exists data F, get_data s = Ok data /\ steady_state_function s (Ok (kf, kr)) (Some data) cvgs = Ok F /\
    covered site (ads s) F <= 0.
Proof. exact never_overfull. Qed.
Print Assumptions C79_never_overfull.

(** An adsorbate that is written as transition state is used up though there is none of it. *)
Theorem C79_transition_state_refuted : exists s cvgs kf kr data F i name y,
  usable_setup s /\ NoDup (s_exprs s) /\ length cvgs = length (ads s) /\
  (forall k, In k kf \/ In k kr -> 0 <= k) /\ nothing_negative s cvgs /\
  get_data s = Ok data /\ steady_state_function s (Ok (kf, kr)) (Some data) cvgs = Ok F /\
  nth_error (ads s) i = Some name /\ nth_error cvgs i = Some 0 /\ nth_error F i = Some y /\ y < 0.
Proof. exact passing_refutes. Qed.
Print Assumptions C79_transition_state_refuted.

(** An adsorbate on two sites counts as one: its fragments overfill the site. *)
Theorem C79_two_sites_refuted : exists s cvgs kf kr data F site,
  usable_setup s /\ NoDup (s_exprs s) /\ length cvgs = length (ads s) /\
  (forall k, In k kf \/ In k kr -> 0 <= k) /\ nothing_negative s cvgs /\
  (forall n fls, In n (ads s) -> In fls (l_rxns (s_lists s)) -> plain_in n fls) /\
  In site (sites s) /\ covered site (ads s) cvgs = total s site /\
  get_data s = Ok data /\ steady_state_function s (Ok (kf, kr)) (Some data) cvgs = Ok F /\
  covered site (ads s) F > 0.
Proof. exact wide_refutes. Qed.
Print Assumptions C79_two_sites_refuted.

Example C79_oxidation : usable_setup ox_setup /\ NoDup (s_exprs ox_setup) /\ nothing_negative ox_setup [0; 1] /\
  nth_error (ads ox_setup) 0 = Some (L "CO_s") /\ covered (L "*_s") (ads ox_setup) [0; 1] = total ox_setup (L "*_s") /\
  (forall name fls, In name (ads ox_setup) -> In fls (l_rxns (s_lists ox_setup)) ->
     absent name (removelast (tl fls)) /\ plain_in name fls) /\
  (forall n, In n (ads ox_setup) -> leading_number (after_last_underscore n) = 1%Z).
Proof.
  split; [exact ox_usable|]. split; [exact ox_distinct|]. split; [exact ox_nonneg|]. split; [reflexivity|].
  split; [change (0 + (1 + 0) = 1); lra|].
  split; [intros; split; [now apply ox_middle|now apply ox_plain]|exact ox_single].
Qed.

(** C80 *)
Theorem C80_order : forall s s' cvgs kf kr kf' kr',
  usable_setup s -> NoDup (s_exprs s) -> same_but_reactions s s' ->
  length kf = length (s_exprs s) -> length kr = length (s_exprs s) ->
  length kf' = length (s_exprs s') -> length kr' = length (s_exprs s') ->
  Permutation (combine (s_exprs s) (combine kf kr)) (combine (s_exprs s') (combine kf' kr')) ->
  length cvgs = length (ads s) ->
  ads s' = ads s /\ sites s' = sites s /\ l_gas (s_lists s') = l_gas (s_lists s) /\ l_liq (s_lists s') = l_liq (s_lists s) /\
  exists data data' F tof,
    get_data s = Ok data /\ get_data s' = Ok data' /\
    steady_state_function s (Ok (kf, kr)) (Some data) cvgs = Ok F /\
    steady_state_function s' (Ok (kf', kr')) (Some data') cvgs = Ok F /\
    tofs s (Ok (kf, kr)) (Some data) cvgs = Ok tof /\ tofs s' (Ok (kf', kr')) (Some data') cvgs = Ok tof.
Proof. exact order_free. Qed.
Print Assumptions C80_order.

Theorem C80_direction : forall s s' cvgs kf kr kf' kr',
  usable_setup s -> NoDup (s_exprs s) -> NoDup (s_exprs s') -> same_but_reactions s s' ->
  length kf = length (s_exprs s) -> length kr = length (s_exprs s) ->
  length kf' = length (s_exprs s') -> length kr' = length (s_exprs s') ->
  Forall2 turned (combine (s_exprs s) (combine kf kr)) (combine (s_exprs s') (combine kf' kr')) ->
  (forall n fls, In n (ads s) -> In fls (l_rxns (s_lists s) ++ l_rxns (s_lists s')) -> plain_in n fls) ->
  length cvgs = length (ads s) ->
  ads s' = ads s /\ sites s' = sites s /\ l_gas (s_lists s') = l_gas (s_lists s) /\ l_liq (s_lists s') = l_liq (s_lists s) /\
  exists data data' F tof,
    get_data s = Ok data /\ get_data s' = Ok data' /\
    steady_state_function s (Ok (kf, kr)) (Some data) cvgs = Ok F /\
    steady_state_function s' (Ok (kf', kr')) (Some data') cvgs = Ok F /\
    tofs s (Ok (kf, kr)) (Some data) cvgs = Ok tof /\ tofs s' (Ok (kf', kr')) (Some data') cvgs = Ok tof.
Proof. exact direction_free. Qed.
Print Assumptions C80_direction.

(** An adsorbate on both sides of a reaction changes sign when the reaction is reverted. *)
Theorem C80_spectator_refuted : exists s s' cvgs kf kr kf' kr' data data' F F',
  usable_setup s /\ NoDup (s_exprs s) /\ NoDup (s_exprs s') /\ same_but_reactions s s' /\
  length kf = length (s_exprs s) /\ length kr = length (s_exprs s) /\
  length kf' = length (s_exprs s') /\ length kr' = length (s_exprs s') /\
  Forall2 turned (combine (s_exprs s) (combine kf kr)) (combine (s_exprs s') (combine kf' kr')) /\
  length cvgs = length (ads s) /\ ads s' = ads s /\
  get_data s = Ok data /\ get_data s' = Ok data' /\
  steady_state_function s (Ok (kf, kr)) (Some data) cvgs = Ok F /\
  steady_state_function s' (Ok (kf', kr')) (Some data') cvgs = Ok F' /\ F <> F'.
Proof. exact direction_refutes. Qed.
Print Assumptions C80_spectator_refuted.

Example C80_oxidation : same_but_reactions ox_setup shuffled_setup /\ same_but_reactions ox_setup backwards_setup /\
  Permutation (combine (s_exprs ox_setup) (combine [1; 2; 3] [4; 5; 6]))
              (combine (s_exprs shuffled_setup) (combine [3; 2; 1] [6; 5; 4])) /\
  Forall2 turned (combine (s_exprs ox_setup) (combine [1; 2; 3] [4; 5; 6]))
                 (combine (s_exprs backwards_setup) (combine [4; 2; 6] [1; 5; 3])) /\
  NoDup (s_exprs backwards_setup) /\
  (forall n fls, In n (ads ox_setup) -> In fls (l_rxns (s_lists ox_setup) ++ l_rxns (s_lists backwards_setup)) -> plain_in n fls).
Proof.
  split; [exact shuffled_same|]. split; [exact backwards_same|].
  split; [|split; [apply backwards_turned|split; [apply NoDup_ok; vm_compute; reflexivity|exact backwards_plain]]].
  exact (Permutation_rev (combine (s_exprs ox_setup) (combine [1; 2; 3] [4; 5; 6]))).
Qed.
