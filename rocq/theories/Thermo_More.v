(** Corrections at the level of [correct_relative_energies]; Shomate values. *)
From Coq Require Import String Ascii List ZArith QArith Qreals Bool Arith Reals Lra Lia.
Import ListNotations.
From Verif Require Import PyBase PyBaseFacts Rxn_Model Rxn_Spec Rxn_Proofs Rxn_Count Rxn_More
  Mol_Model PyReal Energy_Model Energy_Spec Energy_Proofs Thermo_Model Rate_Model Rate_Spec Rate_Proofs
  RDeriv Thermo_Spec Thermo_Proofs Thermo_Entropy Thermo_Witness.
Open Scope list_scope.
Open Scope R_scope.

Lemma correct_by_method rows rot vib o m cf r : method_correction rows rot vib o m cf ->
  correct_relative_energies rows rot vib o m r = correct_loop cf (o_rxns_list o) 0 (length (o_rxns o)) r.
Proof. intros []; reflexivity. Qed.

Lemma correct_all rows rot vib o m cf r :
  method_correction rows rot vib o m cf ->
  (forall j, (j < length (o_rxns o))%nat -> correctable cf (o_rxns_list o) r j) ->
  exists r', correct_relative_energies rows rot vib o m r = (r', Ok tt) /\
    (forall k, entries r k -> entries r' k) /\
    (forall j t, (length (o_rxns o) <= j)%nat -> (entry_t r' j t <-> entry_t r j t)) /\
    (forall j t fls ds t', (j < length (o_rxns o))%nat -> entry_t r j t ->
       nth_error (o_rxns_list o) j = Some fls ->
       Forall2 (state_change cf) fls ds -> corrected ds t t' -> entry_t r' j t').
Proof.
  intros M C. rewrite (correct_by_method _ _ _ _ _ _ _ M).
  destruct (correct_loop_ok cf (o_rxns_list o) (length (o_rxns o)) 0 r) as (r' & A & B & D & F).
  - intros j Hj. apply C. lia.
  - exists r'. split; auto. split; auto. split; intros; [apply D; lia|eapply F; eauto; lia].
Qed.

Lemma correct_failure rows rot vib o m cf r r' er :
  method_correction rows rot vib o m cf ->
  correct_relative_energies rows rot vib o m r = (r', Err er) ->
  exists j, (j < length (o_rxns o))%nat /\ ~ correctable cf (o_rxns_list o) r j /\
    (forall k t, (j <= k)%nat -> (entry_t r' k t <-> entry_t r k t)).
Proof.
  intros M H. rewrite (correct_by_method _ _ _ _ _ _ _ M) in H.
  destruct (correct_loop_err _ _ _ _ _ _ _ H) as (j & J & E & X).
  exists j. split; [lia|]. split; [|intros; apply X; lia].
  intros (t & fls & ds & T1 & T2 & T3 & _).
  rewrite (correct_one_ok cf _ j r' t fls ds) in E; auto; [discriminate|]. apply X; auto.
Qed.

Lemma correct_unknown rows rot vib o m r : m <> L "shomate" -> m <> L "entropy" ->
  correct_relative_energies rows rot vib o m r = (r, Err ValueError).
Proof.
  intros A B. unfold correct_relative_energies.
  now rewrite (proj2 (str_eqb_neq m (L "shomate")) A), (proj2 (str_eqb_neq m (L "entropy")) B).
Qed.

Lemma corrected_total ds t : length ds = 2%nat \/ length ds = 3%nat -> exists t', corrected ds t t'.
Proof. intro H. eexists. now apply change_corrected. Qed.

(** ** Stoichiometry for gases without number *)
Lemma gas_sum_dG rows rot vib o m cf corr r j fls first last t :
  method_correction rows rot vib o m cf ->
  (forall j, (j < length (o_rxns o))%nat -> correctable cf (o_rxns_list o) r j) ->
  (j < length (o_rxns o))%nat -> entry_t r j t -> nth_error (o_rxns_list o) j = Some fls ->
  lfirst fls = Ok first -> llast fls = Ok last ->
  (forall f, In f first \/ In f last -> parse_formula (f_text f) = Ok f) ->
  Forall unnumbered (gases first ++ gases last) ->
  (forall f, In f (gases first ++ gases last) -> cf (f_species_site f) = Ok (corr (f_species_site f))) ->
  exists r' t', correct_relative_energies rows rot vib o m r = (r', Ok tt) /\ entry_t r' j t' /\
    snd t' - snd t = gas_sum corr last - gas_sum corr first.
Proof.
  intros M C J E F L0 L1 PF U K.
  destruct (correct_all _ _ _ _ _ _ _ M C) as (r' & A & _ & _ & B).
  apply Forall_app in U as [U0 U1].
  assert (NG : forall f, In f first \/ In f last -> f_site f <> L "g" -> cf (f_text f) = Ok 0).
  { intros f Hf G. specialize (PF f Hf). destruct M;
      [eapply not_gas_zero_shomate|eapply not_gas_zero_entropy]; eauto. }
  assert (S0 : state_change cf first (gas_sum corr first)).
  { apply change_unnumbered; auto. intros f Hf. apply K. apply in_or_app. now left. }
  assert (S1 : state_change cf last (gas_sum corr last)).
  { apply change_unnumbered; auto. intros f Hf. apply K. apply in_or_app. now right. }
  destruct (C j J) as (t2 & fls2 & ds & E2 & F2 & D & Len).
  rewrite F in F2. injection F2 as <-. clear t2 E2.
  pose proof (Forall2_length _ _ _ D) as LL.
  destruct (corrected_total ds t) as (t' & CT); [lia|].
  exists r', t'. split; auto. split; [eapply B; eauto|].
  destruct fls as [|s0 [|s1 [|s2 [|? ?]]]]; cbn [length] in Len; try lia.
  - inversion D as [|? d0 ? ? D0 Dt]; subst. inversion Dt as [|? d1 ? ? D1 Dt2]; subst. inversion Dt2; subst.
    injection L0 as <-. injection L1 as <-.
    rewrite <- (state_change_fun _ _ _ _ D0 S0), <- (state_change_fun _ _ _ _ D1 S1).
    inversion CT; subst. cbn. lra.
  - inversion D as [|? d0 ? ? D0 Dt]; subst. inversion Dt as [|? d1 ? ? D1 Dt2]; subst.
    inversion Dt2 as [|? d2 ? ? D2 Dt3]; subst. inversion Dt3; subst.
    injection L0 as <-. injection L1 as <-.
    rewrite <- (state_change_fun _ _ _ _ D0 S0), <- (state_change_fun _ _ _ _ D2 S1).
    inversion CT; subst. cbn. lra.
Qed.

(** ** Shomate values in terms of the polynomials of the specification *)
Lemma shomate_H_spec r T : T <> 0 -> shomate_H T r = shomate_enthalpy r T.
Proof. intro H. unfold shomate_H, shomate_enthalpy. cbv zeta. field. auto. Qed.
Lemma shomate_S_spec r T : T <> 0 -> shomate_S T r = shomate_entropy r T.
Proof. intro H. unfold shomate_S, shomate_entropy. cbv zeta. unfold Rdiv. field. auto. Qed.
Lemma shomate_Cp_spec r T : T <> 0 -> shomate_Cp T r = shomate_heat_capacity r T.
Proof. intro H. unfold shomate_Cp, shomate_heat_capacity. cbv zeta. field. auto. Qed.

Lemma gas_type f : f_site f = L "g" -> formula_type f = Gas.
Proof. intro G. apply is_gas_iff in G. unfold is_gas in G. destruct (formula_type f); congruence. Qed.

Lemma shomate_gas rows T s f : parse_formula s = Ok f -> f_site f = L "g" ->
  shomate_correction rows T s = Ok (shomate_loop rows s T).
Proof.
  intros P G. unfold shomate_correction. rewrite P. cbn [bind]. now rewrite (gas_type f G).
Qed.

Lemma T_ref_value : T_ref = 298.15.
Proof. reflexivity. Qed.

Lemma silent_skip before rest s T : Forall (row_silent s T) before ->
  shomate_loop (before ++ rest) s T = shomate_loop rest s T.
Proof.
  induction 1 as [|x l Hx Hl IH]; cbn [app shomate_loop]; auto. rewrite IH.
  destruct (str_eqb_spec (sh_gas x) s) as [G|N]; cbn [negb]; auto.
  destruct Hx as [Hx|[[A B]|[A B]]]; [contradiction| |].
  - rewrite (proj2 (Rleb_false T (sh_max x)) A), andb_false_r.
    now rewrite (proj2 (Rltb_false T (sh_min x)) B).
  - rewrite (proj2 (Rleb_false (sh_min x) T) A). cbn [andb].
    now rewrite (proj2 (Rltb_false (sh_min x) 300) B), andb_false_r.
Qed.

Lemma row_for_inside rows s T r : row_for rows s T r -> sh_min r <= T <= sh_max r ->
  shomate_loop rows s T = row_value r T.
Proof.
  intros (b & a & -> & G & N) R. rewrite silent_skip by auto.
  apply (shomate_row_found (r :: a) s T r); auto. exists [], a. split; [reflexivity|intros ? []].
Qed.

Lemma shomate_inside rows s f r T :
  parse_formula s = Ok f -> f_site f = L "g" -> row_for rows s T r ->
  0 < T -> sh_min r <= T <= sh_max r ->
  shomate_correction rows T s
  = Ok (kJmol2eV * (298.15 * shomate_heat_capacity r 298.15 / 1000
                    + (shomate_enthalpy r T - shomate_enthalpy r 298.15)
                    - T * shomate_entropy r T / 1000)).
Proof.
  intros P G RF HT R. rewrite (shomate_gas _ _ _ _ P G). f_equal.
  rewrite (row_for_inside _ _ _ r) by auto. unfold row_value. rewrite T_ref_value.
  rewrite <- !shomate_H_spec, <- shomate_S_spec, <- shomate_Cp_spec by lra. field.
Qed.

Lemma shomate_below rows s f r T :
  parse_formula s = Ok f -> f_site f = L "g" -> row_for rows s T r ->
  sh_min r <> 0 -> T < sh_min r -> sh_min r < 300 ->
  shomate_correction rows T s
  = Ok (kJmol2eV * (T * (shomate_heat_capacity r (sh_min r) - shomate_entropy r (sh_min r)) / 1000)).
Proof.
  intros P G (b & a & -> & S1 & N) H0 HT R. rewrite (shomate_gas _ _ _ _ P G). f_equal.
  rewrite silent_skip by auto.
  rewrite (shomate_row_below (r :: a) s T r); auto;
    [|exists [], a; split; [reflexivity|intros ? []]].
  rewrite <- shomate_S_spec, <- shomate_Cp_spec by lra. field.
Qed.

Lemma shomate_no_row rows s f T :
  parse_formula s = Ok f -> f_site f = L "g" -> Forall (row_silent s T) rows ->
  shomate_correction rows T s = Ok 0.
Proof.
  intros P G H. rewrite (shomate_gas _ _ _ _ P G). f_equal.
  rewrite <- (app_nil_r rows). now rewrite silent_skip.
Qed.

Lemma shomate_derivative rows s f r lo hi T :
  parse_formula s = Ok f -> f_site f = L "g" ->
  (forall u, lo < u < hi -> row_for rows s u r /\ sh_min r <= u <= sh_max r) -> 0 <= lo -> lo < T < hi ->
  exists g, (forall u, lo < u < hi -> shomate_correction rows u s = Ok (g u)) /\
    derivable_pt_lim g T (- (kJmol2eV / 1000 * shomate_entropy r T)).
Proof.
  intros P G FR M R. exists (row_value r). split.
  - intros u Hu. destruct (FR u Hu) as [A B]. rewrite (shomate_gas _ _ _ _ P G). f_equal.
    now apply row_for_inside.
  - eapply d_eq; [|apply deriv_row; lra]. rewrite shomate_S_spec by lra. ring.
Qed.

Lemma derivative_enthalpy_spec r T : 0 < T ->
  derivable_pt_lim (shomate_enthalpy r) T (shomate_heat_capacity r T / 1000) /\
  derivable_pt_lim (shomate_entropy r) T (shomate_heat_capacity r T / T).
Proof.
  intro H. rewrite <- shomate_Cp_spec by lra. split.
  - eapply (derivable_pt_lim_locally_ext (fun u => shomate_H u r) _ T 0 (T + 1)); [lra| |now apply deriv_H].
    intros z Hz. apply shomate_H_spec. lra.
  - eapply (derivable_pt_lim_locally_ext (fun u => shomate_S u r) _ T 0 (T + 1)); [lra| |now apply deriv_S].
    intros z Hz. apply shomate_S_spec. lra.
Qed.

(** Concrete rows of the table *)
Lemma co_row : exists f r, parse_formula (L "CO_g") = Ok f /\ f_site f = L "g" /\
  (forall u, 1300 < u < 1600 -> row_for shomate_params (L "CO_g") u r /\ sh_min r <= u <= sh_max r) /\
  sh_min r = 1300 /\ sh_max r = 1600.
Proof.
  destruct co_formula as (f & P & G & _ & _). exists f, (nth 6 shomate_params default_row).
  split; auto. split; auto. split; [|split; reflexivity]. intros u Hu. split.
  - exists (firstn 6 shomate_params), (skipn 7 shomate_params). split; [reflexivity|]. split; [reflexivity|].
    cbn [firstn shomate_params]. do 5 (apply Forall_cons; [left; discriminate|]).
    apply Forall_cons; [|constructor]. right. left. cbn [sh_min sh_max]. lra.
  - cbn [nth shomate_params sh_min sh_max]. lra.
Qed.

Definition one_owner (T p : R) : owner :=
  {| o_T := T; o_pressures := [(L "CO_g", Some p)]; o_rxns := [L "CO_g + *_s -> CO_s"];
     o_rxns_list := match rxn_formula_list (L "CO_g + *_s -> CO_s") with Ok l => [l] | Err _ => [] end;
     o_Auc := 1; o_act_ratio := 1; o_corrector_str := false |}.

Lemma one_correctable : exists r fls first last t c,
  (forall j, (j < 1)%nat -> correctable (shomate_correction shomate_params 200) (o_rxns_list (one_owner 200 1)) r j) /\
  entry_t r 0 t /\ nth_error (o_rxns_list (one_owner 200 1)) 0 = Some fls /\
  lfirst fls = Ok first /\ llast fls = Ok last /\
  (forall f, In f first \/ In f last -> parse_formula (f_text f) = Ok f) /\
  Forall unnumbered (gases first ++ gases last) /\
  (forall f, In f (gases first ++ gases last) -> shomate_correction shomate_params 200 (f_species_site f) = Ok c) /\
  c <> 0 /\ gas_sum (fun _ => c) last - gas_sum (fun _ => c) first = - c.
Proof.
  assert (X : exists a b d, o_rxns_list (one_owner 200 1) = [[[a; b]; [d]]] /\
     parse_formula (f_text a) = Ok a /\ parse_formula (f_text b) = Ok b /\ parse_formula (f_text d) = Ok d /\
     f_site a = L "g" /\ f_text a = L "CO_g" /\ f_species_site a = L "CO_g" /\ f_stoich a = 1%Z /\
     f_site b = L "s" /\ f_site d = L "s").
  { do 3 eexists. split; [vm_compute; reflexivity|]. repeat split; vm_compute; reflexivity. }
  destruct X as (a & b & d & E & Pa & Pb & Pd & Ga & Ta & Sa & Na & Gb & Gd).
  destruct shomate_CO_200 as (c & C & Hc).
  assert (Zb : shomate_correction shomate_params 200 (f_text b) = Ok 0).
  { eapply not_gas_zero_shomate; eauto. rewrite Gb. discriminate. }
  assert (Zd : shomate_correction shomate_params 200 (f_text d) = Ok 0).
  { eapply not_gas_zero_shomate; eauto. rewrite Gd. discriminate. }
  assert (G1 : gases [a; b] = [a]) by (unfold gases; cbn [filter]; rewrite Ga, Gb; reflexivity).
  assert (G2 : gases [d] = []) by (unfold gases; cbn [filter]; rewrite Gd; reflexivity).
  exists {| r_Gaf := [0]; r_Gar := [0]; r_dG := [0] |}, [[a; b]; [d]], [a; b], [d], (0, 0, 0), c.
  assert (E0 : entry_t {| r_Gaf := [0]; r_Gar := [0]; r_dG := [0] |} 0 (0, 0, 0)) by (repeat split).
  rewrite E. split.
  - intros [|j] Hj; [|lia]. exists (0, 0, 0), [[a; b]; [d]], [c + (0 + 0); 0 + 0].
    split; auto. split; auto. split; [|auto]. constructor; [|constructor; [|constructor]].
    + exists [c; 0]. split; [|cbn; reflexivity]. repeat constructor; auto. now rewrite Ta.
    + exists [0]. split; [|cbn; reflexivity]. repeat constructor; auto.
  - split; auto. split; auto. split; auto. split; auto. split.
    { intros f [[<-|[<-|[]]]|[<-|[]]]; auto. }
    rewrite G1, G2. split. { cbn. constructor; [|constructor]. split; congruence. }
    split. { intros f [<-|[]]. now rewrite Sa. }
    split; auto. cbn [gas_sum]. rewrite Ga, Gb, Gd, Na. cbn. lra.
Qed.
