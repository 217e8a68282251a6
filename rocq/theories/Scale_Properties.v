(** Property theorems: response of a mechanism to its constants and pressures (C82, C83). *)
From Coq Require Import String Ascii List ZArith Bool Reals Lra.
Import ListNotations.
From Verif Require Import PyBase Rxn_Model Rxn_Spec Species_Model Species_Spec PyReal Energy_Model Energy_Spec
  Thermo_Model Rate_Model Rate_Spec MF_Model MF_Spec MF_Witness Whole_Spec Whole_Bound Whole_Witness Scale_Spec Scale_Proofs
  Scale_Witness.
Local Open Scope list_scope.
Local Open Scope R_scope.

(** C82 *)
Theorem C82_linear : forall s cvgs a b kf kr kf' kr',
  usable_setup s -> NoDup (s_exprs s) -> length cvgs = length (ads s) ->
  length kf = length (s_exprs s) -> length kr = length (s_exprs s) ->
  length kf' = length (s_exprs s) -> length kr' = length (s_exprs s) ->
  exists data rf rr F tof rf' rr' F' tof',
    get_data s = Ok data /\
    rates s (Ok (kf, kr)) (Some data) cvgs = Ok (rf, rr) /\
    rates s (Ok (kf', kr')) (Some data) cvgs = Ok (rf', rr') /\
    rates s (Ok (mix a b kf kf', mix a b kr kr')) (Some data) cvgs = Ok (mix a b rf rf', mix a b rr rr') /\
    steady_state_function s (Ok (kf, kr)) (Some data) cvgs = Ok F /\
    steady_state_function s (Ok (kf', kr')) (Some data) cvgs = Ok F' /\
    steady_state_function s (Ok (mix a b kf kf', mix a b kr kr')) (Some data) cvgs = Ok (mix a b F F') /\
    tofs s (Ok (kf, kr)) (Some data) cvgs = Ok tof /\
    tofs s (Ok (kf', kr')) (Some data) cvgs = Ok tof' /\
    tofs s (Ok (mix a b kf kf', mix a b kr kr')) (Some data) cvgs = Ok (mix a b tof tof').
Proof. exact linear. Qed.
Print Assumptions C82_linear.

Theorem C82_common_shift : forall ec o own s r r' e cvgs,
  usable_setup s -> NoDup (s_exprs s) -> o_rxns o = s_exprs s -> 0 < o_T o ->
  entries r (length (s_exprs s)) -> raised e r r' -> length cvgs = length (ads s) ->
  exists data ks ks' F tof, let c := exp (- e / kT (o_T o)) in
    get_data s = Ok data /\
    rate_constants ec o (L "TST") (Some r) own = Ok ks /\ rate_constants ec o (L "TST") (Some r') own = Ok ks' /\
    steady_state_function s (Ok ks) (Some data) cvgs = Ok F /\
    steady_state_function s (Ok ks') (Some data) cvgs = Ok (map (Rmult c) F) /\
    tofs s (Ok ks) (Some data) cvgs = Ok tof /\ tofs s (Ok ks') (Some data) cvgs = Ok (map (Rmult c) tof) /\
    ((forall y, In y (map (Rmult c) F) -> y = 0) <-> (forall y, In y F -> y = 0)).
Proof. exact raised_mechanism. Qed.
Print Assumptions C82_common_shift.

Theorem C82_switched_off : forall e s s' cvgs kf kr,
  usable_setup s -> NoDup (s_exprs s) -> usable_setup s' -> one_more e s s' ->
  length cvgs = length (ads s) -> length kf = length (s_exprs s) -> length kr = length (s_exprs s) ->
  exists data data' F tof,
    get_data s = Ok data /\ get_data s' = Ok data' /\
    steady_state_function s (Ok (kf, kr)) (Some data) cvgs = Ok F /\
    steady_state_function s' (Ok (kf ++ [0], kr ++ [0])) (Some data') cvgs = Ok F /\
    tofs s (Ok (kf, kr)) (Some data) cvgs = Ok tof /\
    tofs s' (Ok (kf ++ [0], kr ++ [0])) (Some data') cvgs = Ok tof.
Proof. exact switched_off. Qed.
Print Assumptions C82_switched_off.

Example C82_oxidation : usable_setup ox_setup /\ NoDup (s_exprs ox_setup) /\
  usable_setup more_setup /\ one_more direct ox_setup more_setup /\
  (exists r r', relative_from_absolute true flat (s_exprs ox_setup) = Ok r /\ entries r (length (s_exprs ox_setup)) /\ raised (/ 2) r r') /\
  mix 2 3 [1; 0] [5; 1] = [2 * 1 + 3 * 5; 2 * 0 + 3 * 1].
Proof.
  split; [exact ox_usable|]. split; [exact ox_distinct|]. split; [exact more_usable|]. split; [exact more_one|].
  split; [exact flat_raised|reflexivity].
Qed.

(** C83 *)
Theorem C83_reaction_order : forall g c s s' cvgs kf kr,
  usable_setup s -> NoDup (s_exprs s) -> pressure_scaled g c s s' ->
  length cvgs = length (ads s) -> length kf = length (s_exprs s) -> length kr = length (s_exprs s) ->
  exists data data' rf rr rf' rr',
    get_data s = Ok data /\ get_data s' = Ok data' /\
    rates s (Ok (kf, kr)) (Some data) cvgs = Ok (rf, rr) /\
    rates s' (Ok (kf, kr)) (Some data') cvgs = Ok (rf', rr') /\
    length rf = length (s_exprs s) /\ length rr = length (s_exprs s) /\
    forall i fls x y, nth_error (l_rxns (s_lists s)) i = Some fls -> nth_error rf i = Some x -> nth_error rr i = Some y ->
      nth_error rf' i = Some (c ^ order g (begins fls) * x) /\ nth_error rr' i = Some (c ^ order g (ends fls) * y).
Proof. exact reaction_order. Qed.
Print Assumptions C83_reaction_order.

Theorem C83_more_pressure : forall g c s s' cvgs kf kr,
  usable_setup s -> NoDup (s_exprs s) -> pressure_scaled g c s s' -> 1 <= c ->
  nothing_negative s cvgs -> (forall k, In k kf \/ In k kr -> 0 <= k) ->
  length cvgs = length (ads s) -> length kf = length (s_exprs s) -> length kr = length (s_exprs s) ->
  exists data data' rf rr rf' rr',
    get_data s = Ok data /\ get_data s' = Ok data' /\
    rates s (Ok (kf, kr)) (Some data) cvgs = Ok (rf, rr) /\
    rates s' (Ok (kf, kr)) (Some data') cvgs = Ok (rf', rr') /\
    Forall2 Rle rf rf' /\ Forall2 Rle rr rr'.
Proof. exact more_pressure. Qed.
Print Assumptions C83_more_pressure.

(** The pressures enter nowhere else: rate constants are those at standard pressure, by either theory. *)
Theorem C83_constants_without_pressure : forall ec o o' algo given own,
  o_T o' = o_T o -> o_rxns o' = o_rxns o -> o_Auc o' = o_Auc o -> o_act_ratio o' = o_act_ratio o ->
  o_corrector_str o' = o_corrector_str o ->
  rate_constants ec o' algo given own = rate_constants ec o algo given own.
Proof. exact constants_without_pressure. Qed.
Print Assumptions C83_constants_without_pressure.

Example C83_oxidation : pressure_scaled (L "CO_g") 4 ox_setup pressed_setup /\ nothing_negative ox_setup [0; 1] /\
  map (fun fls => order (L "CO_g") (begins fls)) (l_rxns (s_lists ox_setup)) = [1; 0; 0]%nat /\
  map (fun fls => order (L "CO2_g") (ends fls)) (l_rxns (s_lists ox_setup)) = [0; 0; 1]%nat.
Proof.
  split; [exact pressed_ok|]. split; [exact ox_nonneg|]. split; vm_compute; reflexivity.
Qed.
