(** Property theorems for the analytical Jacobian (C29). *)
From Coq Require Import String Ascii List ZArith Bool Reals.
Import ListNotations.
From Verif Require Import PyBase Regex Rxn_Model Species_Model PyReal MF_Model MF_Spec SS_Model SS_Text SS_Lead SS_Spec SS_Jac
  MF_Witness SS_Witness.
Local Open Scope list_scope.

(** C29, exactly, for mechanisms whose states write every surface species once, with one to nine
    molecules, on sites called by letters: the entries are the derivatives, less twice the derivative
    (with respect to the free site) of every subtracted rate that depends both on the adsorbate of the
    column and on its free site.  [cs] are these derivatives, one for each reaction, 0 where there is
    no such rate. *)
Theorem C29_jacobian_exact : forall s, differentiable_setup s -> forall kf kr cvgs,
  length kf = length (s_exprs s) -> length kr = length (s_exprs s) -> length cvgs = length (ads s) ->
  exists data J, get_data s = Ok data /\
    analytical_jacobian s (Ok (kf, kr)) (Some data) cvgs = Ok J /\
    length J = length (ads s) /\ (forall row, In row J -> length row = length (ads s)) /\
    forall i j row col x entries entry,
      nth_error (ads s) i = Some row -> nth_error (ads s) j = Some col -> nth_error cvgs j = Some x ->
      nth_error J i = Some entries -> nth_error entries j = Some entry ->
      exists f cs,
        (forall u, exists F, steady_state_function s (Ok (kf, kr)) (Some data) (with_coverage cvgs j u) = Ok F /\
                             nth_error F i = Some (f u)) /\
        Forall2 (missed s kf kr cvgs row col) (s_exprs s) cs /\
        derivable_pt_lim f x (entry + 2 * Rsum cs)%R.
Proof. exact (fun s D kf kr cvgs Lf Lr => jacobian_ok s D kf kr Lf Lr cvgs). Qed.
Print Assumptions C29_jacobian_exact.

(** C29: true where the equation of the row subtracts no rate that depends both on the
    adsorbate of the column and on its free site, for mechanisms whose states write every
    surface species once, with one to nine molecules, on sites called by letters.  Missing: the
    other mechanisms, see below. *)
Theorem C29_jacobian_partial : forall s, differentiable_setup s -> forall kf kr cvgs,
  length kf = length (s_exprs s) -> length kr = length (s_exprs s) -> length cvgs = length (ads s) ->
  exists data J, get_data s = Ok data /\
    analytical_jacobian s (Ok (kf, kr)) (Some data) cvgs = Ok J /\
    length J = length (ads s) /\ (forall row, In row J -> length row = length (ads s)) /\
    forall i j row col x entries entry,
      nth_error (ads s) i = Some row -> nth_error (ads s) j = Some col -> nth_error cvgs j = Some x ->
      nth_error J i = Some entries -> nth_error entries j = Some entry ->
      (forall fls, In fls (l_rxns (s_lists s)) -> no_clash row col fls) ->
      exists f,
        (forall u, exists F, steady_state_function s (Ok (kf, kr)) (Some data) (with_coverage cvgs j u) = Ok F /\
                             nth_error F i = Some (f u)) /\
        derivable_pt_lim f x entry.
Proof. exact (fun s D kf kr cvgs Lf Lr => jacobian_no_clash s D kf kr Lf Lr cvgs). Qed.
Print Assumptions C29_jacobian_partial.

Example C29_example : differentiable_setup ox_setup /\
  (forall row col fls, In fls (l_rxns (s_lists ox_setup)) -> In col (ads ox_setup) -> no_clash row col fls) /\
  forall t1 t2 a b c a' b' c', exists data,
    get_data ox_setup = Ok data /\
    exists J, analytical_jacobian ox_setup (Ok ([a; b; c], [a'; b'; c'])%R) (Some data) [t1; t2] = Ok J /\
    J = [[- 2 * a - a' - 2 * c' * 0 * (1 - t1 - t2) - c * t2; - 2 * a - 2 * c' * 0 * (1 - t1 - t2) - c * t1];
         [- 12 * b * (1 - t1 - t2) - 2 * c' * 0 * (1 - t1 - t2) - c * t2;
          - 12 * b * (1 - t1 - t2) - 4 * b' * t2 - 2 * c' * 0 * (1 - t1 - t2) - c * t1]]%R.
Proof. exact (conj ox_differentiable (conj ox_no_clash ox_jacobian)). Qed.

(** C29 is false when an adsorbate is used up together with a free site of its kind: the
    derivative of the subtracted product is a sum, written without parentheses. *)
Theorem C29_jacobian_refuted : exists s cvgs kf kr data J i j x entries entry f,
  differentiable_setup s /\ length cvgs = length (ads s) /\
  length kf = length (s_exprs s) /\ length kr = length (s_exprs s) /\ get_data s = Ok data /\
  analytical_jacobian s (Ok (kf, kr)) (Some data) cvgs = Ok J /\
  nth_error cvgs j = Some x /\ nth_error J i = Some entries /\ nth_error entries j = Some entry /\
  (forall u, exists F, steady_state_function s (Ok (kf, kr)) (Some data) (with_coverage cvgs j u) = Ok F /\
                       nth_error F i = Some (f u)) /\
  derivable_pt_lim f x 0%R /\ entry = (- 1)%R.
Proof. exact di_refutes. Qed.
Print Assumptions C29_jacobian_refuted.

(** C29 is also false when a species is written twice in a state: only one of the factors is
    differentiated. *)
Theorem C29_repeated_species_refuted : exists s cvgs kf kr data J i j x entries entry f,
  usable_setup s /\ length cvgs = length (ads s) /\
  length kf = length (s_exprs s) /\ length kr = length (s_exprs s) /\ get_data s = Ok data /\
  (forall row col fls, In fls (l_rxns (s_lists s)) -> In col (ads s) -> no_clash row col fls) /\
  analytical_jacobian s (Ok (kf, kr)) (Some data) cvgs = Ok J /\
  nth_error cvgs j = Some x /\ nth_error J i = Some entries /\ nth_error entries j = Some entry /\
  (forall u, exists F, steady_state_function s (Ok (kf, kr)) (Some data) (with_coverage cvgs j u) = Ok F /\
                       nth_error F i = Some (f u)) /\
  derivable_pt_lim f x (- 1)%R /\ entry = (- / 2)%R.
Proof. exact tc_refutes. Qed.
Print Assumptions C29_repeated_species_refuted.

(** A vector of another length is refused. *)
Theorem C29_wrong_length_rejected : forall s ks data cvgs, usable_setup s -> forall kf kr, ks = Ok (kf, kr) ->
  length kf = length (s_exprs s) -> length kr = length (s_exprs s) ->
  length cvgs <> length (ads s) -> analytical_jacobian s ks data cvgs = Err ParameterError.
Proof. exact jacobian_length. Qed.
Print Assumptions C29_wrong_length_rejected.

Example C29_wrong_length_example : usable_setup ox_setup /\ length [0%R] <> length (ads ox_setup).
Proof. split; [exact ox_usable|rewrite ox_ads; discriminate]. Qed.

(** Before the pressures and concentrations were read there is no Jacobian. *)
Theorem C29_no_data : forall s cvgs, usable_setup s -> forall kf kr,
  length kf = length (s_exprs s) -> length kr = length (s_exprs s) ->
  length cvgs = length (ads s) -> analytical_jacobian s (Ok (kf, kr)) None cvgs = Err AttributeError.
Proof. exact jacobian_no_data. Qed.
Print Assumptions C29_no_data.

(** There is no derivative with respect to something that is no adsorbate. *)
Theorem C29_unknown_adsorbate : forall s cl name poly, ~ In name (ads s) -> (2 < length (words poly))%nat ->
  poly_derivation s cl name poly = Err ValueError.
Proof. exact poly_unknown. Qed.
Print Assumptions C29_unknown_adsorbate.

Example C29_unknown_example : ~ In (L "N_s") (ads ox_setup) /\
  (2 < length (words (L "dtheta_dt[0] = kf[0]*p['CO_g']*theta['*_s'] - kr[0]*theta['CO_s']")))%nat.
Proof.
  split; [|vm_compute; repeat constructor].
  rewrite ox_ads. intros I. apply PyBaseFacts.str_mem_In in I. vm_compute in I. discriminate.
Qed.

(** One product of powers that begins with the coverage itself, followed by the factors
    [f :: fs] (rates always begin with a constant; a hand-written expression need not). *)
Theorem C29_leading_coverage : forall name pow n f fs,
  forallb is_species_char name = true -> small_pow pow n -> name_pattern name = Ok (rlit name) ->
  Forall fac_ok (f :: fs) -> (forall g, In g (f :: fs) -> c_tab g = L "theta" -> c_name g <> name) ->
  term_derivation name (theta_text name ++ pow ++ flat (f :: fs))
  = Ok (if Z.eqb n 1 then tl (flat (f :: fs))
        else str_of_Z n ++ flat (f :: fs) ++ L "*" ++ theta_text name ++ L "**" ++ str_of_Z (n - 1)).
Proof. exact term_derivation_leading. Qed.
Print Assumptions C29_leading_coverage.

Example C29_leading_example : small_pow (L "**2") 2 /\ name_pattern (L "CO_s") = Ok (rlit (L "CO_s")) /\
  Forall fac_ok [{| c_tab := L "theta"; c_name := L "O_s"; c_pow := [] |}] /\
  term_derivation (L "CO_s") (L "theta['CO_s']**2*theta['O_s']") = Ok (L "2*theta['O_s']*theta['CO_s']**1").
Proof.
  split; [right; exists "2"%char; auto|]. split; [reflexivity|]. split; [|vm_compute; reflexivity].
  repeat constructor.
Qed.
