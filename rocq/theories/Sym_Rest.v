(** Proofs about the symbolic evaluation: names of symbols, refusals, texts, comparison of the
    rate constants. *)
From Coq Require Import String Ascii List ZArith NArith Bool Arith Reals Lia Lra.
Import ListNotations.
From Verif Require Import PyBase PyBaseFacts Rxn_Model Rxn_Spec Rxn_Proofs Species_Model Species_Spec
  Species_Proofs Species_Matrix PyReal Energy_Model Energy_Spec Thermo_Model Rate_Model Rate_Spec Rate_Proofs
  MF_Model MF_Spec MF_Cover MF_Rate MF_More Archive_Proofs Sym_Model Sym_Spec Sym_Proofs Sym_Eval Sym_Rates Sym_Main
  Sym_Steady Sym_Jac.
Local Open Scope nat_scope.
Local Open Scope list_scope.

Lemma free_sum s (P : prepared s) cvgs d site : length cvgs = length (ads s) ->
  (forall i n x, nth_error (ads s) i = Some n -> nth_error cvgs i = Some x -> dget d (L "theta_" ++ n) = Some x) ->
  sev d (free_sym s site) = Ok (total s site - covered site (ads s) cvgs)%R.
Proof.
  intros Len H.
  assert (V : forall n, In n (ads s) -> sev d (theta_sym n) = Ok (coverage s cvgs n)).
  { intros n Hn. destruct (In_nth_error _ _ Hn) as [i Hi].
    assert (Hc : nth_error cvgs i = Some (coverage s cvgs n)).
    { rewrite <- (coverages_list s P cvgs Len) at 1. exact (map_nth_error (coverage s cvgs) i (ads s) Hi). }
    unfold theta_sym. cbn [sev]. now rewrite (H i n _ Hi Hc). }
  rewrite (covered_sum s P cvgs Len). unfold free_sym.
  assert (G : forall ns acc x, (forall n, In n ns -> In n (ads s)) -> sev d acc = Ok x ->
    sev d (fold_left (fun e n => SSub e (theta_sym n)) ns acc) = Ok (x - Rsum (map (coverage s cvgs) ns))%R).
  { induction ns as [|n ns IH]; intros acc x I E; cbn [fold_left map Rsum].
    - rewrite E. f_equal. ring.
    - rewrite (IH _ (x - coverage s cvgs n)%R).
      + f_equal. ring.
      + intros; apply I; now right.
      + change (sev d (SSub acc (theta_sym n))) with (do x <- sev d acc; do y <- sev d (theta_sym n); Ok (x - y)%R).
        rewrite E, V by (apply I; now left). reflexivity. }
  apply G; [|reflexivity]. intros n Hn. now apply on_In in Hn.
Qed.

Lemma symbols_named s : prepared s -> exists y data, symbolic s y data /\
  y_p y = map (fun n => SSym (L "p_" ++ n)) (l_gas (s_lists s)) /\
  y_c y = map (fun n => SSym (L "c_" ++ n)) (l_liq (s_lists s)) /\
  y_ads y = map (fun n => SSym (L "theta_" ++ n)) (ads s) /\
  length (y_Ga y) = length (s_exprs s) /\ length (y_dG y) = length (s_exprs s) /\ length (y_K y) = length (s_exprs s) /\
  (forall i, i < length (s_exprs s) ->
    nth_error (y_Ga y) i = Some (SSym (L "Ga_" ++ dec (N.of_nat i))) /\
    nth_error (y_dG y) i = Some (SSym (L "dG_" ++ dec (N.of_nat i))) /\
    nth_error (y_K y) i = Some (SSym (L "K_" ++ dec (N.of_nat i)))) /\
  length (y_free y) = length (sites s) /\
  forall k site e cvgs d, nth_error (sites s) k = Some site -> nth_error (y_free y) k = Some e ->
    length cvgs = length (ads s) ->
    (forall i n x, nth_error (ads s) i = Some n -> nth_error cvgs i = Some x -> dget d (L "theta_" ++ n) = Some x) ->
    sev d e = Ok (total s site - covered site (ads s) cvgs)%R.
Proof.
  intro P. destruct (symbolic_exists s P) as (y & data & SY). exists y, data. split; [exact SY|].
  destruct (symbolic_inv s y data P SY) as [-> _]. cbn [y_p y_c y_ads y_Ga y_dG y_K y_free the_symbols].
  destruct (matrices_net (s_exprs s) (s_lists s) (proj1 P)) as (_ & _ & _ & _ & _ & _).
  assert (LR : length (l_rxns (s_lists s)) = length (s_exprs s)).
  { destruct (parse_rxns_facts _ _ (proj1 P)) as (M & _). now apply mapM_length in M. }
  rewrite LR. do 3 (split; [reflexivity|]). do 3 (split; [apply indexed_length|]).
  split; [intros i Hi; repeat split; now apply nth_indexed|].
  split; [now rewrite map_length|]. intros k site e cvgs d Hk He Len H.
  rewrite (map_nth_error (free_sym s) k (sites s) Hk) in He. injection He as <-. now apply free_sum.
Qed.

(** ** Refusals *)
Lemma extract_refusals s y name t :
  (~ In t [L "pressure"; L "concentration"; L "ads_cvg"; L "free_site_cvg"] -> extract s y name t = Err ValueError) /\
  (~ In name (l_gas (s_lists s)) -> extract s y name (L "pressure") = Err ParameterError) /\
  (~ In name (l_liq (s_lists s)) -> extract s y name (L "concentration") = Err ParameterError) /\
  (~ In name (ads s) -> extract s y name (L "ads_cvg") = Err ParameterError) /\
  (~ In name (sites s) -> extract s y name (L "free_site_cvg") = Err ParameterError).
Proof.
  split; [|repeat split; intro H; [change (extract s y name (L "pressure")) with (pick (l_gas (s_lists s)) (y_p y) name)
    |change (extract s y name (L "concentration")) with (pick (l_liq (s_lists s)) (y_c y) name)
    |change (extract s y name (L "ads_cvg")) with (pick (ads s) (y_ads y) name)
    |change (extract s y name (L "free_site_cvg")) with (pick (sites s) (y_free y) name)]; now apply pick_none].
  intro H. unfold extract.
  assert (N : forall a, In a [L "pressure"; L "concentration"; L "ads_cvg"; L "free_site_cvg"] -> str_eqb t a = false).
  { intros a Ha. apply str_eqb_neq. intros ->. now apply H. }
  rewrite !N; auto; repeat (try (now left); right).
Qed.

Lemma extract_found s y data k name : prepared s -> symbolic s y data ->
  (nth_error (l_gas (s_lists s)) k = Some name ->
     exists e, nth_error (y_p y) k = Some e /\ extract s y name (L "pressure") = Ok e) /\
  (nth_error (l_liq (s_lists s)) k = Some name ->
     exists e, nth_error (y_c y) k = Some e /\ extract s y name (L "concentration") = Ok e) /\
  (nth_error (ads s) k = Some name ->
     exists e, nth_error (y_ads y) k = Some e /\ extract s y name (L "ads_cvg") = Ok e) /\
  (nth_error (sites s) k = Some name ->
     exists e, nth_error (y_free y) k = Some e /\ extract s y name (L "free_site_cvg") = Ok e).
Proof.
  intros P SY. destruct (symbolic_inv s y data P SY) as [-> _].
  assert (G : forall names (g : str -> sexpr), nth_error names k = Some name ->
    exists e, nth_error (map g names) k = Some e /\ pick names (map g names) name = Ok e).
  { intros names g H. exists (g name). split; [exact (map_nth_error g k names H)|].
    apply pick_at. eapply nth_error_In; eauto. }
  split; [|split; [|split]]; intro H; now apply G.
Qed.

Lemma dtheta_refusals s y name e :
  (~ In name (ads s) -> elementary_dtheta_sym s y name e = Err ParameterError) /\
  (In name (ads s) -> ~ In e (s_exprs s) -> elementary_dtheta_sym s y name e = Err ParameterError) /\
  (~ In e (s_exprs s) -> elementary_rate_sym s y e = Err ValueError) /\
  (forall l, dtheta_syms s y false = Ok l -> dtheta_syms s y true = Err AttributeError).
Proof.
  assert (M : forall a l, ~ In a l -> str_mem a l = false).
  { intros a l H. destruct (str_mem a l) eqn:E; auto. apply str_mem_In in E. contradiction. }
  unfold elementary_dtheta_sym. change (l_ads (s_lists s)) with (ads s). repeat split; intros.
  - rewrite M by auto. reflexivity.
  - assert (str_mem name (ads s) = true) as -> by now apply str_mem_In. rewrite (M e) by auto. reflexivity.
  - unfold elementary_rate_sym. apply index_of_None in H. now rewrite H.
  - unfold dtheta_syms in *. destruct (mapM _ _); [reflexivity|discriminate].
Qed.

(** Any liquid, or no data. *)
Lemma liquid_fails s y data T r c : prepared s -> symbolic s y data -> l_liq (s_lists s) <> [] ->
  subs_dict s y T r (Some data) c = Err KeyError.
Proof.
  intros P SY NL. destruct (symbolic_inv s y data P SY) as [-> ->].
  unfold subs_dict. cbn [y_p y_c y_ads the_symbols].
  assert (E : exists t, match map (fun n => SSym (L "p_" ++ n)) (l_gas (s_lists s)) with
         | [] => Ok []
         | _ => p_subs (tab (value (s_pressure s)) (l_gas (s_lists s))) (map (fun n => SSym (L "p_" ++ n)) (l_gas (s_lists s))) (l_gas (s_lists s)) []
         end = Ok t).
  { rewrite p_subs_ok.
    - destruct (map _ _); eauto.
    - intros n Hn. exists (value (s_pressure s) n). now apply dget_tab_In. }
  destruct E as [t E].
  destruct (map (fun n => SSym (L "p_" ++ n)) (l_gas (s_lists s))) eqn:M; rewrite ?E; cbn [bind];
    unfold c_subs; cbn [y_c the_symbols]; destruct (l_liq (s_lists s)); try congruence; reflexivity.
Qed.

Lemma no_data_fails s y data T r c : prepared s -> symbolic s y data ->
  (l_gas (s_lists s) <> [] \/ l_liq (s_lists s) <> [] -> subs_dict s y T r None c = Err AttributeError) /\
  (l_gas (s_lists s) = [] -> l_liq (s_lists s) = [] -> subs_dict s y T r None c = subs_dict s y T r (Some data) c).
Proof.
  intros P SY. destruct (symbolic_inv s y data P SY) as [-> ->].
  unfold subs_dict. cbn [y_p y_c y_ads the_symbols]. split.
  - intros H. destruct (l_gas (s_lists s)); [|reflexivity]. cbn [map bind]. destruct H as [H|H]; [congruence|].
    destruct (l_liq (s_lists s)); [congruence|]. reflexivity.
  - intros -> ->. reflexivity.
Qed.

Lemma constants_refusals s y data T r : prepared s -> symbolic s y data ->
  (l_liq (s_lists s) <> [] -> rate_constants_by_sym s y T r (Some data) = Err KeyError) /\
  (l_gas (s_lists s) <> [] \/ l_liq (s_lists s) <> [] -> rate_constants_by_sym s y T r None = Err AttributeError).
Proof.
  intros P SY. unfold rate_constants_by_sym. destruct (rate_constant_syms y) as [kf kr]. split; intro H.
  - rewrite (liquid_fails s y data) by auto. reflexivity.
  - rewrite (proj1 (no_data_fails s y data T r None P SY)) by auto. reflexivity.
Qed.

Lemma rates_refusals s y data T r cvgs l : prepared s -> symbolic s y data -> rate_syms s y = Ok l ->
  (l_liq (s_lists s) <> [] -> rates_by_sym s y T r (Some data) cvgs = Err KeyError /\
     net_rates_by_sym s y T r (Some data) cvgs = Err KeyError /\ tof_by_sym s y T r (Some data) cvgs = Err KeyError) /\
  (l_gas (s_lists s) <> [] \/ l_liq (s_lists s) <> [] -> rates_by_sym s y T r None cvgs = Err AttributeError /\
     net_rates_by_sym s y T r None cvgs = Err AttributeError /\ tof_by_sym s y T r None cvgs = Err AttributeError).
Proof.
  intros P SY E. destruct l as [rf rr].
  assert (LR : length rf = length (s_exprs s) /\ length rr = length (s_exprs s)).
  { unfold rate_syms in E. destruct (mapM _ (s_exprs s)) as [l|] eqn:M; [|discriminate]. cbn [bind] in E.
    apply mapM_length in M. injection E as <- <-. now rewrite !map_length. }
  destruct (matrices_net (s_exprs s) (s_lists s) (proj1 P)) as (m1 & m2 & ES & _ & LM & _).
  assert (ET : exists t, tof_syms s y = Ok t).
  { unfold tof_syms, net_rate_syms. rewrite ES. cbn [bind]. rewrite E. cbn [bind].
    rewrite map_length, combine_length, (proj1 LR), (proj2 LR), Nat.min_id, LM, Nat.eqb_refl. cbn [negb]. eauto. }
  destruct ET as [t ET].
  unfold rates_by_sym, net_rates_by_sym, net_rate_syms, tof_by_sym. rewrite E, ET. cbn [bind]. split; intro H.
  - rewrite (liquid_fails s y data) by auto. auto.
  - rewrite (proj1 (no_data_fails s y data T r (Some cvgs) P SY)) by auto. auto.
Qed.

Lemma steady_refusals s y data T r cvgs l : prepared s -> symbolic s y data -> dtheta_syms s y false = Ok l ->
  (l_liq (s_lists s) <> [] -> steady_state_by_sym s y T r (Some data) cvgs = Err KeyError) /\
  (l_gas (s_lists s) <> [] \/ l_liq (s_lists s) <> [] -> steady_state_by_sym s y T r None cvgs = Err AttributeError).
Proof.
  intros P SY E. unfold steady_state_by_sym. rewrite E. cbn [bind]. split; intro H.
  - rewrite (liquid_fails s y data) by auto. reflexivity.
  - rewrite (proj1 (no_data_fails s y data T r (Some cvgs) P SY)) by auto. reflexivity.
Qed.

(** ** Rate constants of the two ways *)
Lemma constants_agree ec s o y data r : usable_setup s -> NoDup (s_exprs s) -> o_rxns o = s_exprs s ->
  l_liq (s_lists s) = [] -> (0 < o_T o)%R -> entries r (length (s_exprs s)) -> consistent r -> symbolic s y data ->
  rate_constants ec o (L "TST") (Some r) None = rate_constants_by_sym s y (o_T o) r (Some data).
Proof.
  intros U ND Eo NL HT (L1 & L2 & L3) CN SY.
  assert (ER : energies_ready s r) by (split; auto).
  rewrite (constants_by_sym_ok s y data (o_T o) r SY NL HT ER (proj1 U)).
  assert (EN : forall i e, nth_error (s_exprs s) i = Some e -> exists a b c, energies_of o r e a b c /\ entry r i a b c).
  { intros i e He. assert (Li : i < length (s_exprs s)) by (apply nth_error_Some; congruence).
    destruct (nth_error_lt (r_Gaf r) i _ L1 Li) as [a Ea]. destruct (nth_error_lt (r_Gar r) i _ L2 Li) as [b Eb].
    destruct (nth_error_lt (r_dG r) i _ L3 Li) as [c Ec]. exists a, b, c. split; [|repeat split; auto].
    exists i. rewrite Eo. split; auto. split; [|repeat split; auto].
    intros j Hj Hn. assert (j = i); [|lia]. apply (proj1 (NoDup_nth_error (s_exprs s)) ND); [lia|congruence]. }
  destruct (rate_constants_TST ec o (Some r) None r HT eq_refl) as (kf & kr & E & K1 & K2 & K3).
  { intros e He. rewrite Eo in He. destruct (In_nth_error _ _ He) as [i Hi]. destruct (EN i e Hi) as (a & b & c & H & _). eauto. }
  rewrite E. f_equal. rewrite Eo in K1, K2.
  assert (KR : length (kr_list (o_T o) r) = length (s_exprs s)).
  { unfold kr_list. rewrite map_length, combine_length, L1, L3. apply Nat.min_id. }
  f_equal; apply list_eq_nth.
  - unfold kf_list. rewrite map_length. congruence.
  - intros i x z Hx Hz. assert (Li : i < length (s_exprs s)) by (rewrite <- K1; apply nth_error_Some; congruence).
    destruct (nth_error_lt (s_exprs s) i _ eq_refl Li) as [e He]. destruct (EN i e He) as (a & b & c & H & (Ha & Hb & Hc)).
    destruct (K3 i e a b c) as [X _]; auto; [now rewrite Eo|]. rewrite X in Hx. injection Hx as <-.
    unfold kf_list in Hz. rewrite (map_nth_error _ _ _ Ha) in Hz. injection Hz as <-. reflexivity.
  - congruence.
  - intros i x z Hx Hz. assert (Li : i < length (s_exprs s)) by (rewrite <- K2; apply nth_error_Some; congruence).
    destruct (nth_error_lt (s_exprs s) i _ eq_refl Li) as [e He]. destruct (EN i e He) as (a & b & c & H & (Ha & Hb & Hc)).
    destruct (K3 i e a b c) as [_ X]; auto; [now rewrite Eo|]. rewrite X in Hx. injection Hx as <-.
    unfold kr_list in Hz. rewrite (map_nth_error _ _ _ (nth_error_combine _ _ _ _ _ Ha Hc)) in Hz. injection Hz as <-.
    cbn [fst snd]. rewrite (CN i a b c) by (repeat split; auto). reflexivity.
Qed.

(** ** The text *)
Lemma latex_lines_eq latex p1 p2 l : forall i, latex_lines latex p1 p2 i l =
  concat (map (fun p => p1 ++ dec (N.of_nat (fst p)) ++ p2 ++ L " = " ++ latex (snd p) ++ L "\\" ++ newline)
              (combine (seq (S i) (length l)) l)).
Proof.
  induction l as [|e l IH]; intro i; [reflexivity|]. cbn [latex_lines length seq combine map concat fst snd].
  rewrite IH, <- !app_assoc. reflexivity.
Qed.

Lemma log_rates_text latex s y rf rr : rate_syms s y = Ok (rf, rr) ->
  log_rates latex s y = Ok (
    concat (map (fun p => L "r_{f" ++ dec (N.of_nat (fst p)) ++ L "^{+}}" ++ L " = " ++ latex (snd p) ++ L "\\" ++ newline)
                (combine (seq 1 (length rf)) rf)) ++ newline ++
    concat (map (fun p => L "r_{r" ++ dec (N.of_nat (fst p)) ++ L "^{-}}" ++ L " = " ++ latex (snd p) ++ L "\\" ++ newline)
                (combine (seq 1 (length rr)) rr)) ++ newline).
Proof. intro E. unfold log_rates. rewrite E. cbn [bind]. now rewrite !latex_lines_eq. Qed.

(** Constants without coverages, and the equilibrium constants. *)
Lemma equilibrium_main s y data T r c d : prepared s -> symbolic s y data -> l_liq (s_lists s) = [] -> (0 < T)%R ->
  energies_ready s r -> (forall x, c = Some x -> length x = length (ads s)) ->
  subs_dict s y T r (Some data) c = Ok d ->
  mapM (sev d) (equilibrium_syms y) = Ok (map (fun g => exp (- g / kT T)) (r_dG r)).
Proof.
  intros P SY NL HT ER Hc E. destruct (symbolic_inv s y data P SY) as [-> ->].
  destruct (subs_dict_ok s P NL T r c (match c with Some x => coverage s x | None => fun _ => 0%R end)) as (d' & E' & SB).
  { intros x ->. auto. }
  assert (d' = d) by congruence. subst. eapply equilibrium_value; eauto.
Qed.

(** ** Summary *)
Section Evaluable.
  Variables (s : setup) (y : symbols) (data : dict R * dict R) (T : R) (r : rel_energies) (cvgs : list R).
  Hypothesis E : evaluable s y data T r cvgs.

  Lemma ev_constants : rate_constants_by_sym s y T r (Some data) = Ok (kf_list T r, kr_list T r).
  Proof. destruct E as (U & PS & NL & HT & ER & Len & SY). apply constants_by_sym_ok; auto. exact (proj1 U). Qed.

  Lemma ev_rates : exists rfs rrs,
    rates_by_sym s y T r (Some data) cvgs = Ok (rfs, rrs) /\ length rfs = length (s_exprs s) /\ length rrs = length (s_exprs s) /\
    rates s (rate_constants_by_sym s y T r (Some data)) (Some data) cvgs = Ok (rfs, rrs).
  Proof. rewrite ev_constants. destruct E as (U & PS & NL & HT & ER & Len & SY). now apply rates_by_sym_ok. Qed.

  Lemma ev_net : exists nets,
    net_rates_by_sym s y T r (Some data) cvgs = Ok nets /\ length nets = length (s_exprs s) /\
    net_rates s (rate_constants_by_sym s y T r (Some data)) (Some data) cvgs = Ok nets.
  Proof. rewrite ev_constants. destruct E as (U & PS & NL & HT & ER & Len & SY). now apply net_by_sym_ok. Qed.

  Lemma ev_tof : exists l,
    tof_by_sym s y T r (Some data) cvgs = Ok l /\
    tofs s (rate_constants_by_sym s y T r (Some data)) (Some data) cvgs = Ok l.
  Proof. rewrite ev_constants. destruct E as (U & PS & NL & HT & ER & Len & SY). now apply tof_by_sym_ok. Qed.

  Lemma ev_steady : exists F rfs rrs,
    steady_state_by_sym s y T r (Some data) cvgs = Ok F /\ length F = length (ads s) /\
    rates_by_sym s y T r (Some data) cvgs = Ok (rfs, rrs) /\
    forall i name x, nth_error (ads s) i = Some name -> nth_error F i = Some x ->
    exists cs, length cs = length (s_exprs s) /\ x = Rsum cs /\
      forall j fls rf rr c, nth_error (l_rxns (s_lists s)) j = Some fls ->
        nth_error rfs j = Some rf -> nth_error rrs j = Some rr -> nth_error cs j = Some c ->
        bare_change name fls rf rr c.
  Proof. destruct E as (U & PS & NL & HT & ER & Len & SY). now apply steady_by_sym_ok. Qed.

  Lemma ev_single : single s -> exists F,
    steady_state_by_sym s y T r (Some data) cvgs = Ok F /\
    steady_state_function s (rate_constants_by_sym s y T r (Some data)) (Some data) cvgs = Ok F.
  Proof. rewrite ev_constants. destruct E as (U & PS & NL & HT & ER & Len & SY). now apply steady_single. Qed.

  Lemma ev_jacobian : length (ads s) = 2 ->
    exists J, jacobian_by_sym s y T r (Some data) cvgs = Ok J /\ length J = 2 /\ (forall row, In row J -> length row = 2) /\
      forall i j row x, nth_error J i = Some row -> nth_error row j = Some x ->
      exists G, (forall t, exists l, steady_state_by_sym s y T r (Some data) (moved cvgs j t) = Ok l /\ nth_error l i = Some (G t)) /\
        forall c, nth_error cvgs j = Some c -> derivable_pt_lim G c x.
  Proof. destruct E as (U & PS & NL & HT & ER & Len & SY). now apply jacobian_two. Qed.

  Lemma ev_jacobian_size : length (ads s) <> 2 -> jacobian_by_sym s y T r (Some data) cvgs = Err IndexError.
  Proof. destruct E as (U & PS & NL & HT & ER & Len & SY). now apply jacobian_not_two. Qed.
End Evaluable.

(** ** An adsorbate that no reaction mentions *)
Lemma absent_state name fs : (forall f, In f fs -> f_species_site f <> name) -> find_in_state name fs = None.
Proof.
  induction fs as [|f fs IH]; intro H; [reflexivity|]. cbn. destruct (str_eqb (f_species_site f) name) eqn:E.
  - apply str_eqb_eq in E. exfalso. apply (H f); [now left|exact E].
  - apply IH. intros g Hg. apply H. now right.
Qed.
Lemma absent_states name : forall fls i, (forall fs f, In fs fls -> In f fs -> f_species_site f <> name) ->
  find_in_states name i fls = None.
Proof.
  induction fls as [|fs fls IH]; intros i H; [reflexivity|]. cbn. rewrite absent_state.
  - apply IH. intros g f Hg. apply H. now right.
  - intros f. apply H. now left.
Qed.
Lemma unused_sum s y name : forall es acc x, adsorbate_sum s y name acc es = Ok x ->
  (forall e fls fs f, In e es -> rxn_formula_list e = Ok fls -> In fs fls -> In f fs -> f_species_site f <> name) -> x = acc.
Proof.
  induction es as [|e es IH]; intros acc x H A; [now injection H|]. cbn in H.
  destruct (elementary_dtheta_sym s y name e) as [o|] eqn:E; [|discriminate]. cbn [bind] in H.
  assert (o = None) as ->.
  { unfold elementary_dtheta_sym in E.
    destruct (negb (str_mem name (l_ads (s_lists s)))); [discriminate|].
    destruct (negb (str_mem e (s_exprs s))); [discriminate|].
    destruct (rxn_formula_list e) as [fls|] eqn:R; [|discriminate]. cbn [bind] in E.
    destruct (concat fls) as [|f0 r0]; [discriminate|].
    rewrite absent_states in E; [congruence|]. intros fs f. apply (A e fls fs f); auto. now left. }
  apply (IH acc x H). intros e' fls fs f He. apply A. now right.
Qed.
Lemma unused_first s y T r data cvgs name rest l d : l_ads (s_lists s) = name :: rest ->
  (forall e fls fs f, In e (s_exprs s) -> rxn_formula_list e = Ok fls -> In fs fls -> In f fs -> f_species_site f <> name) ->
  dtheta_syms s y false = Ok l -> subs_dict s y T r data (Some cvgs) = Ok d ->
  steady_state_by_sym s y T r data cvgs = Err AttributeError.
Proof.
  intros E A D B. unfold steady_state_by_sym. rewrite D, B. cbn [bind].
  unfold dtheta_syms in D. rewrite E in D. cbn [mapM] in D.
  destruct (adsorbate_dtheta_sym s y name) as [o|] eqn:O; [|discriminate]. cbn [bind] in D.
  destruct (mapM (adsorbate_dtheta_sym s y) rest) as [os|]; [|discriminate]. cbn [bind] in D. injection D as <-.
  now rewrite (unused_sum s y name (s_exprs s) None o O A).
Qed.
Lemma unused_fails s y T r data cvgs name : In name (ads s) ->
  (forall e fls fs f, In e (s_exprs s) -> rxn_formula_list e = Ok fls -> In fs fls -> In f fs -> f_species_site f <> name) ->
  forall l, steady_state_by_sym s y T r data cvgs <> Ok l.
Proof.
  intros I A l H. unfold steady_state_by_sym in H.
  destruct (dtheta_syms s y false) as [os|] eqn:D; [|discriminate]. cbn [bind] in H.
  destruct (subs_dict s y T r data (Some cvgs)) as [d|]; [|discriminate]. cbn [bind] in H.
  unfold dtheta_syms in D. destruct (mapM (adsorbate_dtheta_sym s y) (l_ads (s_lists s))) as [os'|] eqn:M; [|discriminate].
  cbn [bind] in D. injection D as ->.
  assert (N : In None os).
  { apply In_nth_error in I. destruct I as [j J]. apply mapM_ok_iff in M. change (ads s) with (l_ads (s_lists s)) in J.
    clear H. revert j J. induction M as [|a b la lb Hab M IH]; intros j J; [destruct j; discriminate|].
    destruct j as [|j].
    - injection J as ->. left. exact (unused_sum s y name (s_exprs s) None b Hab A).
    - right. exact (IH j J). }
  clear M. revert l H. induction os as [|o os IH]; intros l H; [destruct N|]. cbn in H.
  destruct N as [-> |N]; [discriminate|].
  destruct o as [x|]; [|discriminate]. destruct (sev d x); [|discriminate]. cbn [bind] in H.
  destruct (mapM _ os) as [l'|] eqn:E; [|discriminate]. exact (IH N l' eq_refl).
Qed.
