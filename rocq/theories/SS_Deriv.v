(** The derivative of one product: its text, its value, and the calculus behind it. *)
From Coq Require Import String Ascii List ZArith NArith Bool Arith Reals Lia Lra.
Import ListNotations.
From Verif Require Import PyBase PyBaseFacts Regex RegexFacts Rxn_Model Rxn_Spec Rxn_Proofs Species_Model
  Species_Spec Species_Proofs Species_Matrix PyReal Energy_Proofs PyExpr_Model PyExpr_Proofs RDeriv
  MF_Model MF_Spec MF_Cover MF_Rate MF_More SS_Model SS_Spec SS_Text SS_Term.
Local Open Scope nat_scope.
Local Open Scope list_scope.

(** ** Formulas as factors *)
Definition to_fac (f : formula) : fac :=
  {| c_tab := table_name f; c_name := f_species_site f;
     c_pow := if Z.eqb (f_stoich f) 1 then [] else L "**" ++ str_of_Z (f_stoich f) |}.

Lemma to_fac_text f : readable f -> clean f -> factor_text f = ftext (to_fac f).
Proof.
  intros Rf Cf. rewrite factor_text_eq by auto. unfold ftext, to_fac, power_text. cbn [c_tab c_name c_pow]. reflexivity.
Qed.

Lemma state_flat fs : (forall f, In f fs -> readable f /\ clean f) ->
  concat (map factor_text fs) = flat (map to_fac fs).
Proof.
  induction fs as [|f fs IH]; intro H; [reflexivity|]. cbn [map concat]. rewrite flat_cons.
  destruct (H f (or_introl eq_refl)) as [Rf Cf]. rewrite to_fac_text by auto. f_equal. apply IH.
  intros; apply H; now right.
Qed.

Lemma to_fac_ok f : readable f -> fac_ok (to_fac f).
Proof.
  intro Rf. split; [|split].
  - cbn. unfold table_name. destruct (str_eqb (f_site f) (L "g")); auto. destruct (str_eqb (f_site f) (L "l")); auto.
  - cbn. now apply readable_chars.
  - cbn. destruct (Z.eqb (f_stoich f) 1); [reflexivity|]. rewrite str_of_nonneg by now apply readable_stoich.
    cbn [forallb L list_ascii_of_string app]. cbn [pow_char]. eapply forallb_impl; [|apply dec_digits].
    intros c D. unfold pow_char. now rewrite D.
Qed.

Lemma one_digit n : (1 <= n <= 9)%Z -> exists d, is_digit d = true /\ str_of_Z n = [d] /\ int_of [d] = n.
Proof.
  intro H.
  assert (n = 1 \/ n = 2 \/ n = 3 \/ n = 4 \/ n = 5 \/ n = 6 \/ n = 7 \/ n = 8 \/ n = 9)%Z as C by lia.
  decompose [or] C; subst n; eexists; (split; [|split; [reflexivity|]]; reflexivity).
Qed.

Lemma to_fac_pow f : (1 <= f_stoich f <= 9)%Z -> small_pow (c_pow (to_fac f)) (f_stoich f).
Proof.
  intro H. cbn. destruct (Z.eqb_spec (f_stoich f) 1) as [E|E]; [left; auto|].
  destruct (one_digit _ H) as (d & D & E1 & E2). right. exists d. rewrite E1. auto.
Qed.

Lemma with_other (cvgs : list R) j t x0 i : nth_error cvgs j = Some x0 -> i <> j ->
  nth_error (with_coverage cvgs j t) i = nth_error cvgs i.
Proof.
  unfold with_coverage. revert j i. induction cvgs as [|c l IH]; intros [|j] [|i] H N; try discriminate; try congruence;
    cbn [firstn skipn app nth_error]; auto. apply (IH j i H). congruence.
Qed.

(** The two parts of a product with both the adsorbate and its free site. *)
Lemma both_parts b f1 name pw n f2 : Forall fac_ok f2 -> small_pow pw n ->
  let m := {| m_before := []; m_caps := both_caps b f1 name pw f2; m_rest := [] |} in
  (if truthy m 5 then group_text m 1 ++ L "*" ++ group_text m 6 else group_text m 1) = b ++ flat (f1 ++ f2) /\
  group_text m 2 ++ group_text m 3 = theta_text name ++ pw.
Proof.
  intros F2 Pw m. unfold truthy, group_text, group, m. cbn [m_caps]. unfold both_caps, pre.
  rewrite flat_app, (app_assoc b (flat f1) (flat f2)). split.
  - destruct F2 as [|f fs (T & _) F].
    + cbn [flat map concat rest_caps]. rewrite app_nil_r.
      destruct Pw as [[-> _]|(d & D & -> & _)]; cbn [pow_caps L list_ascii_of_string app cap Nat.eqb]; reflexivity.
    + rewrite flat_cons. unfold ftext. cbn [L list_ascii_of_string app rest_caps cap Nat.eqb].
      destruct T as [E|[E|E]]; rewrite E; cbn [L list_ascii_of_string app];
        destruct Pw as [[-> _]|(d & D & -> & _)]; cbn [pow_caps L list_ascii_of_string app cap Nat.eqb]; reflexivity.
  - destruct Pw as [[-> _]|(d & D & -> & _)]; destruct (flat f2); reflexivity.
Qed.

(** ** Products of activities *)
Section Deriv.
  Variable s : setup.
  Hypothesis DS : differentiable_setup s.
  Let U : usable_setup s := proj1 DS.
  Let P : prepared s := proj1 U.
  Let parsed : parse_rxns (s_exprs s) = Ok (s_lists s) := proj1 P.
  Variables (kf kr : list R).

  Open Scope R_scope.

  Definition act (cvgs : list R) (f : formula) : R := activity s cvgs f ^ Z.to_nat (f_stoich f).
  Definition prodact (cvgs : list R) (fs : list formula) : R := fold_right (fun f x => act cvgs f * x) 1 fs.

  Lemma mass_prod cvgs k fs : mass_action s cvgs k fs = k * prodact cvgs fs.
  Proof.
    unfold prodact. induction fs as [|f fs IH]; cbn [mass_action fold_right]; [ring|]. rewrite IH.
    unfold act. ring.
  Qed.
  Lemma prodact_app cvgs a b : prodact cvgs (a ++ b) = prodact cvgs a * prodact cvgs b.
  Proof. unfold prodact. induction a as [|f a IH]; cbn [app fold_right]; [ring|]. rewrite IH. ring. Qed.
  Lemma prodact_mid cvgs a f b : prodact cvgs (a ++ f :: b) = prodact cvgs (a ++ b) * act cvgs f.
  Proof. rewrite !prodact_app. unfold prodact. cbn [fold_right]. ring. Qed.

  (** States as the reactions have them. *)
  Definition state_of_rxn (st : list formula) : Prop :=
    usable st /\ sparse st /\ exists rxn, In rxn (l_rxns (s_lists s)) /\ In st rxn.

  Lemma st_good st f cvgs : state_of_rxn st -> In f st -> good s cvgs kf kr f.
  Proof. intros (Us & _ & rxn & Hr & Hs) Hf. now apply (usable_good s P cvgs kf kr rxn st f). Qed.
  Lemma st_readable st f : state_of_rxn st -> In f st -> readable f /\ clean f.
  Proof. intros S Hf. destruct (st_good st f [] S Hf) as (Rf & Cf & _). auto. Qed.

  Lemma surface_table f : table_name f = L "theta" <-> surface_site (f_site f).
  Proof.
    unfold table_name, surface_site.
    destruct (str_eqb_spec (f_site f) (L "g")) as [E|E]; [split; [discriminate|intros []; contradiction]|].
    destruct (str_eqb_spec (f_site f) (L "l")) as [E2|E2]; [split; [discriminate|intros []; contradiction]|].
    split; auto.
  Qed.

  Lemma st_names st f : state_of_rxn st -> In f st -> surface_site (f_site f) ->
    In (f_species_site f) (ads s) \/ In (f_species_site f) (sites s).
  Proof.
    intros ((T & _) & _ & rxn & Hr & Hs) Hf Sf.
    destruct (formula_columns _ _ parsed rxn st f Hr Hs Hf) as (_ & _ & _ & C4).
    specialize (C4 Sf (T f Hf Sf)). apply in_app_or in C4. tauto.
  Qed.

  (** The text of a product and its value. *)
  Lemma fac_text_val cvgs f : good s cvgs kf kr f ->
    unary_val (the_env s cvgs kf kr) (c_tab (to_fac f) ++ L "['" ++ c_name (to_fac f) ++ L "']" ++ c_pow (to_fac f))
      (act cvgs f).
  Proof. intro G. apply (factor_val s cvgs kf kr f G). Qed.

  Lemma flat_val cvgs fs b x : (forall f, In f fs -> good s cvgs kf kr f) ->
    prod_val (the_env s cvgs kf kr) b x ->
    prod_val (the_env s cvgs kf kr) (b ++ flat (map to_fac fs)) (x * prodact cvgs fs).
  Proof.
    revert b x. induction fs as [|f fs IH]; intros b x G B; cbn [map prodact fold_right].
    - cbn. rewrite app_nil_r, Rmult_1_r. exact B.
    - rewrite flat_cons.
      pose proof (mul_val _ _ _ _ _ B (unary_prod _ _ _ (fac_text_val cvgs f (G f (or_introl eq_refl))))) as M.
      specialize (IH _ _ (fun g Hg => G g (or_intror Hg)) M).
      replace (x * (act cvgs f * fold_right (fun f x => act cvgs f * x) 1 fs))
        with (x * act cvgs f * prodact cvgs fs) by (unfold prodact; ring).
      unfold ftext. rewrite <- ?app_assoc in IH; rewrite <- ?app_assoc. exact IH.
  Qed.

  (** ** One adsorbate *)
  Variables (cvgs : list R) (j : nat) (name : str) (w : str) (x0 : R).
  Hypothesis Len : length cvgs = length (ads s).
  Hypothesis Hj : nth_error (ads s) j = Some name.
  Hypothesis Hx : nth_error cvgs j = Some x0.
  Hypothesis Tag : site_tag name = L "*_" ++ w.

  Let v := the_env s cvgs kf kr.
  Definition up (t : R) : list R := with_coverage cvgs j t.

  Lemma name_ads : In name (ads s).
  Proof. eapply nth_error_In; eauto. Qed.
  Lemma tag_site : In (L "*_" ++ w) (sites s).
  Proof. rewrite <- Tag. apply (ads_site s P name name_ads). Qed.
  Lemma w_letters : forallb is_letter w = true.
  Proof.
    pose proof DS as (_ & _ & LS & _). destruct (LS _ tag_site) as (w' & E & W).
    apply app_inv_head in E. now subst.
  Qed.
  Lemma w_words : forallb is_word w = true.
  Proof. eapply forallb_impl; [|apply w_letters]. intro c. all_ascii c. Qed.
  Lemma name_word : forallb is_word name = true.
  Proof.
    destruct (ads_known s P name name_ads) as (f & Rf & (_ & Nd & Ns) & E & _).
    destruct (readable_name f Rf) as (ms & En & _ & Dm & Sp & _ & _).
    destruct (site_of_known f Rf) as [_ Et]. rewrite <- E, Tag in Et. apply app_inv_head in Et.
    rewrite E, En, <- Et. rewrite forallb_app. cbn [forallb]. rewrite forallb_app.
    assert (A1 : forallb is_word (f_species f) = true).
    { apply forallb_forall. intros c Hc. rewrite forallb_forall in Sp. specialize (Sp c Hc).
      unfold is_species_char in Sp. apply orb_prop in Sp as [Sp|Sp]; [apply orb_prop in Sp as [Sp|Sp]; auto|];
        apply Ascii.eqb_eq in Sp; subst c; contradiction. }
    rewrite A1, w_words. cbn. rewrite andb_true_r. eapply forallb_impl; [|exact Dm]. intro c. all_ascii c.
  Qed.
  Lemma name_chars : forallb is_species_char name = true.
  Proof. eapply forallb_impl; [|apply name_word]. intro c. all_ascii c. Qed.
  Lemma name_plain : name_pattern name = Ok (rlit name).
  Proof.
    unfold name_pattern.
    assert (forallb plain_char name = true) as ->; auto.
    eapply forallb_impl; [|apply name_word]. intros c Hc. unfold plain_char. now rewrite Hc.
  Qed.
  Lemma tag_chars : forallb is_species_char (L "*_" ++ w) = true.
  Proof.
    rewrite forallb_app. cbn [forallb L list_ascii_of_string andb]. eapply forallb_impl; [|apply w_letters].
    intro c. all_ascii c.
  Qed.
  Lemma tag_plain : name_pattern (L "*_" ++ w) = Ok (rlit (L "*_" ++ w)).
  Proof.
    unfold name_pattern. cbn [L list_ascii_of_string app forallb].
    change (plain_char "*") with false. cbn [andb].
    assert (forallb plain_char w = true) as E.
    { eapply forallb_impl; [|apply w_words]. intros c Hc. unfold plain_char. now rewrite Hc. }
    change (plain_char "_") with true. cbn [andb]. now rewrite E.
  Qed.

  (** ** Coverages along the line *)
  Lemma up_length t : length (up t) = length (ads s).
  Proof.
    unfold up, with_coverage. rewrite app_length. cbn [length]. rewrite skipn_length, firstn_length.
    assert ((j < length cvgs)%nat) by (apply nth_error_Some; congruence). lia.
  Qed.
  Lemma up_at t : nth_error (up t) j = Some t.
  Proof.
    unfold up, with_coverage. assert ((j < length cvgs)%nat) by (apply nth_error_Some; congruence).
    rewrite nth_error_app2; rewrite firstn_length; [|lia]. replace (j - min j (length cvgs))%nat with 0%nat by lia.
    reflexivity.
  Qed.
  Lemma up_other t i : i <> j -> nth_error (up t) i = nth_error cvgs i.
  Proof. intro N. apply (with_other cvgs j t x0 i Hx N). Qed.
  Lemma up_x0 : up x0 = cvgs.
  Proof.
    apply list_ext.
    - rewrite up_length. auto.
    - intros i y. destruct (Nat.eq_dec i j) as [->|N]; [rewrite up_at; congruence|now rewrite up_other].
  Qed.

  Lemma cov_self t : coverage s (up t) name = t.
  Proof. apply (nth_coverage s P (up t) (up_length t) j name t Hj (up_at t)). Qed.
  Lemma cov_other t n : In n (ads s) -> n <> name -> coverage s (up t) n = coverage s cvgs n.
  Proof.
    intros Hn N. destruct (In_nth_error _ _ Hn) as [i Hi].
    assert (Hij : i <> j) by congruence.
    assert (Hl : (i < length cvgs)%nat) by (rewrite Len; apply nth_error_Some; congruence).
    destruct (nth_error cvgs i) as [y|] eqn:Ey; [|apply nth_error_None in Ey; lia].
    rewrite (nth_coverage s P cvgs Len i n y Hi Ey).
    apply (nth_coverage s P (up t) (up_length t) i n y Hi). now rewrite up_other.
  Qed.

  Lemma covered_up_gen site t : forall ns cs i, NoDup ns -> length cs = length ns ->
    nth_error ns i = Some name -> nth_error cs i = Some x0 ->
    covered site ns (firstn i cs ++ t :: skipn (S i) cs)
    = covered site ns cs + (if str_eqb (site_tag name) site then t - x0 else 0).
  Proof.
    clear. induction ns as [|n ns IH]; intros [|c cs] [|i] N Hl H1 H2; try discriminate.
    - cbn in H1, H2. injection H1 as ->. injection H2 as ->. cbn [firstn skipn app covered].
      destruct (str_eqb (site_tag name) site); ring.
    - cbn [firstn skipn app covered]. cbn [skipn] in IH. inversion N; subst.
      rewrite (IH cs i); auto. ring.
  Qed.
  Lemma cov_site t site : In site (sites s) ->
    coverage s (up t) site = coverage s cvgs site - (if str_eqb (site_tag name) site then t - x0 else 0).
  Proof.
    intro Hs. rewrite (site_coverage s P (up t) (up_length t) site Hs), (site_coverage s P cvgs Len site Hs).
    unfold up, with_coverage. rewrite covered_up_gen; auto using (NoDup_ads s P). ring.
  Qed.

  (** A factor that depends neither on the adsorbate nor on its site. *)
  Lemma act_const t st f : state_of_rxn st -> In f st ->
    f_species_site f <> name -> f_species_site f <> L "*_" ++ w -> act (up t) f = act cvgs f.
  Proof.
    intros S Hf N1 N2. unfold act, activity.
    destruct (str_eqb_spec (f_site f) (L "g")); [reflexivity|].
    destruct (str_eqb_spec (f_site f) (L "l")); [reflexivity|]. f_equal.
    destruct (st_names st f S Hf) as [I|I]; [split; auto| |].
    - now apply cov_other.
    - rewrite cov_site by auto. destruct (str_eqb_spec (site_tag name) (f_species_site f)); [congruence|ring].
  Qed.
  Lemma prodact_const t st fs : state_of_rxn st -> (forall f, In f fs -> In f st) ->
    (forall f, In f fs -> f_species_site f <> name) ->
    (forall f, In f fs -> f_species_site f <> L "*_" ++ w) -> prodact (up t) fs = prodact cvgs fs.
  Proof.
    intros S. induction fs as [|f fs IH]; intros I N1 N2; [reflexivity|]. cbn [prodact fold_right].
    rewrite (act_const t st f) by (auto; try (apply I; now left); try (apply N1; now left); apply N2; now left).
    f_equal. apply IH; intros; [apply I|apply N1|apply N2]; now right.
  Qed.

  Lemma name_surface st f : state_of_rxn st -> In f st ->
    f_species_site f = name \/ f_species_site f = L "*_" ++ w -> surface_site (f_site f).
  Proof.
    intros ((T & C) & _ & rxn & Hr & Hs) Hf E.
    destruct (surface_dec (f_site f)) as [Sf|Sf]; auto. exfalso.
    destruct (formula_columns _ _ parsed rxn st f Hr Hs Hf) as (_ & _ & C3 & _).
    apply (C3 Sf). apply in_or_app. destruct E as [-> | ->]; [right; apply name_ads|left; apply tag_site].
  Qed.

  Lemma act_surface c st f : state_of_rxn st -> In f st -> surface_site (f_site f) ->
    act c f = coverage s c (f_species_site f) ^ Z.to_nat (f_stoich f).
  Proof.
    intros _ _ [S1 S2]. unfold act, activity. apply str_eqb_neq in S1, S2. now rewrite S1, S2.
  Qed.

  Lemma pow_pred_text n : (1 <= n)%Z -> n <> 1%Z -> str_of_Z (n - 1) = dec (Z.to_N (n - 1)).
  Proof. intros H N. apply str_of_nonneg. lia. Qed.

  (** ** The derivative with respect to a named coverage *)
  Lemma num_prod n : (0 <= n)%Z -> prod_val v (str_of_Z n) (IZR n).
  Proof.
    intro H. rewrite str_of_nonneg by auto. apply atom_prod. pose proof (dec_val v (Z.to_N n)) as D.
    now rewrite Z2N.id in D by auto.
  Qed.

  (** A formula in its state: what is around it. *)
  Lemma sparse_split st f1 f f2 : state_of_rxn st -> st = f1 ++ f :: f2 -> surface_site (f_site f) ->
    (forall g, In g (f1 ++ f2) -> f_species_site g <> f_species_site f) /\ (1 <= f_stoich f <= 9)%Z.
  Proof. intros (_ & Sp & _) E Sf. apply (Sp f1 f f2 E Sf). Qed.

  Lemma to_fac_this f : surface_site (f_site f) -> to_fac f = this (f_species_site f) (c_pow (to_fac f)).
  Proof. intro Sf. apply surface_table in Sf. unfold to_fac, this. cbn [c_pow]. now rewrite Sf. Qed.

  Lemma map_fac_ok fs : (forall f, In f fs -> readable f) -> Forall fac_ok (map to_fac fs).
  Proof. intro H. apply Forall_forall. intros x I. apply in_map_iff in I as (f & <- & I). apply to_fac_ok; auto. Qed.

  Lemma atom_theta n y : forallb is_species_char n = true -> env_key v (L "theta") n = Ok y ->
    atom_val v (theta_text n) y.
  Proof.
    intros C E. unfold theta_text. change (L "theta['" ++ n ++ L "']") with (L "theta" ++ L "['" ++ n ++ L "']").
    apply key_val; auto; [split; reflexivity|]. eapply forallb_impl; [apply species_key|exact C].
  Qed.

  Lemma theta_env n : In n (ads s) \/ In n (sites s) -> env_key v (L "theta") n = Ok (coverage s cvgs n).
  Proof.
    intro H. change (env_key v (L "theta") n) with (dindex (tab (coverage s cvgs) (ads s ++ sites s)) n).
    apply dindex_tab. apply in_or_app. tauto.
  Qed.

  (** Term derivation with respect to a coverage that is in the product. *)
  Lemma term_val b x f1 f f2 :
    base_ok b -> (2 <= length b)%nat -> prod_val v b x ->
    (forall g, In g (f1 ++ f2) -> good s cvgs kf kr g) -> readable f ->
    surface_site (f_site f) -> (1 <= f_stoich f <= 9)%Z ->
    (forall g, In g (f1 ++ f2) -> f_species_site g <> f_species_site f) ->
    name_pattern (f_species_site f) = Ok (rlit (f_species_site f)) ->
    env_key v (L "theta") (f_species_site f) = Ok (coverage s cvgs (f_species_site f)) ->
    exists t, term_derivation (f_species_site f) (b ++ flat (map to_fac (f1 ++ f :: f2))) = Ok t /\
      prod_val v t (IZR (f_stoich f) * (x * prodact cvgs (f1 ++ f2))
                    * coverage s cvgs (f_species_site f) ^ pred (Z.to_nat (f_stoich f))).
  Proof.
    intros B Lb V G Rf Sf Hn Nx Np Ev.
    rewrite map_app. cbn [map]. rewrite (to_fac_this f Sf).
    assert (G1 : forall g, In g f1 -> readable g) by (intros g Hg; apply (G g); apply in_or_app; auto).
    assert (G2 : forall g, In g f2 -> readable g) by (intros g Hg; apply (G g); apply in_or_app; auto).
    rewrite (term_derivation_product b (map to_fac f1) (f_species_site f) (c_pow (to_fac f)) (f_stoich f) (map to_fac f2));
      auto using map_fac_ok, readable_chars, to_fac_pow.
    2:{ intros g I _. apply in_map_iff in I as (h & <- & I). cbn [c_name to_fac]. apply Nx. apply in_or_app. auto. }
    rewrite <- map_app.
    eexists. split; [reflexivity|]. destruct (Z.eqb_spec (f_stoich f) 1) as [E|E].
    - rewrite E. change (pred (Z.to_nat 1)) with 0%nat. cbn [pow]. rewrite Rmult_1_r, Rmult_1_l.
      apply flat_val; auto.
    - pose proof (num_prod (f_stoich f) ltac:(lia)) as V0.
      pose proof (mul_val v _ _ _ _ V0 V) as V1.
      pose proof (flat_val cvgs (f1 ++ f2) _ _ G V1) as V2.
      rewrite pow_pred_text by lia.
      pose proof (pow_val v _ _ (dec (Z.to_N (f_stoich f - 1)))
        (atom_theta _ _ (readable_chars f Rf) Ev) (dec_digits _) (dec_nonnil _)) as V3.
      pose proof (mul_val v _ _ _ _ V2 (unary_prod _ _ _ V3)) as V4.
      rewrite int_of_dec, Z2N.id in V4 by lia.
      replace (pred (Z.to_nat (f_stoich f))) with (Z.to_nat (f_stoich f - 1)) by lia.
      rewrite <- ?app_assoc in V4; rewrite <- ?app_assoc.
      replace (IZR (f_stoich f) * (x * prodact cvgs (f1 ++ f2))) with (IZR (f_stoich f) * x * prodact cvgs (f1 ++ f2)) by ring.
      exact V4.
  Qed.

  Lemma bare_val n pw : small_pow pw n -> (1 <= n)%Z -> exists t, term_derivation name (theta_text name ++ pw) = Ok t /\
    prod_val v t (IZR n * x0 ^ pred (Z.to_nat n)).
  Proof.
    intros Pw Hn. rewrite (term_derivation_bare name pw n name_chars Pw name_plain).
    eexists. split; [reflexivity|]. destruct (Z.eqb_spec n 1) as [->|E].
    - change (pred (Z.to_nat 1)) with 0%nat. cbn [pow]. rewrite Rmult_1_r. apply (num_prod 1). lia.
    - rewrite pow_pred_text by lia. replace (pred (Z.to_nat n)) with (Z.to_nat (n - 1)) by lia.
      assert (Ev : env_key v (L "theta") name = Ok x0).
      { rewrite theta_env by (left; apply name_ads). f_equal. apply (nth_coverage s P cvgs Len j); auto. }
      pose proof (pow_val v _ _ (dec (Z.to_N (n - 1))) (atom_theta _ _ name_chars Ev) (dec_digits _) (dec_nonnil _)) as V3.
      rewrite int_of_dec, Z2N.id in V3 by lia.
      apply (mul_val v _ _ _ _ (num_prod n ltac:(lia)) (unary_prod _ _ _ V3)).
  Qed.

  (** ** The derivative with respect to the free site *)
  Lemma ads_word n : In n (ads s) -> forallb is_word n = true.
  Proof.
    intro Hn. destruct (ads_known s P n Hn) as (f & Rf & (_ & Nd & Ns) & E & _).
    destruct (readable_name f Rf) as (ms & En & _ & Dm & Sp & _ & _).
    destruct (site_of_known f Rf) as [_ Et]. destruct (ads_site s P n Hn) as [_ I].
    pose proof DS as (_ & _ & LS & _). destruct (LS _ I) as (w' & Ew & Wl). rewrite E, Et in Ew.
    apply app_inv_head in Ew. rewrite E, En, Ew. rewrite forallb_app. cbn [forallb]. rewrite forallb_app.
    assert (A1 : forallb is_word (f_species f) = true).
    { apply forallb_forall. intros c Hc. rewrite forallb_forall in Sp. specialize (Sp c Hc).
      unfold is_species_char in Sp. apply orb_prop in Sp as [Sp|Sp]; [apply orb_prop in Sp as [Sp|Sp]; auto|];
        apply Ascii.eqb_eq in Sp; subst c; contradiction. }
    rewrite A1. cbn. apply andb_true_intro. split; [eapply forallb_impl; [|exact Dm]|eapply forallb_impl; [|exact Wl]];
      intro c; all_ascii c.
  Qed.

  (** Nothing else in a state looks like the free site. *)
  Lemma not_free st f us : state_of_rxn st -> In f st -> forallb (Ascii.eqb "_") us = true ->
    table_name f = L "theta" -> f_species_site f <> L "*_" ++ w -> f_species_site f <> L "*" ++ us ++ L "_" ++ w.
  Proof.
    intros S Hf Us T N E. apply surface_table in T. destruct (st_names st f S Hf T) as [I|I].
    - apply ads_word in I. rewrite E in I. discriminate.
    - pose proof DS as (_ & _ & LS & _). destruct (LS _ I) as (w' & Ew & Wl). rewrite E in Ew.
      destruct us as [|u us]; [apply N; exact E|]. cbn in Ew. injection Ew as Eu Ew.
      rewrite <- Ew in Wl. rewrite forallb_app in Wl. apply andb_prop in Wl as [_ Wl]. discriminate.
  Qed.

  Lemma total_val : exists t, dget (s_total s) (L "*_" ++ w) = Some t /\ n_val t = total s (L "*_" ++ w).
  Proof.
    destruct (total_ok s P _ tag_site) as (t & E & V). exists t. split; auto. unfold dindex in E.
    destruct (dget (s_total s) (L "*_" ++ w)); congruence.
  Qed.

  Lemma minus_val names t x : (forall n, In n names -> In n (ads s)) -> sum_val v t x ->
    sum_val v (t ++ concat (map (fun n => L " - " ++ theta_text n) names))
      (x - Rsum (map (coverage s cvgs) names)).
  Proof.
    revert t x. induction names as [|n ns IH]; intros t x H V; cbn [map concat Rsum].
    - rewrite app_nil_r, Rminus_0_r. exact V.
    - assert (Hn : In n (ads s)) by (apply H; now left).
      assert (Cn : forallb is_species_char n = true).
      { eapply forallb_impl; [|now apply ads_word]. intro c. all_ascii c. }
      pose proof (sub_val v _ _ _ _ V (atom_prod _ _ _ (atom_theta n _ Cn (theta_env n (or_introl Hn))))) as V1.
      specialize (IH _ _ (fun m Hm => H m (or_intror Hm)) V1).
      replace (x - (coverage s cvgs n + Rsum (map (coverage s cvgs) ns)))
        with (x - coverage s cvgs n - Rsum (map (coverage s cvgs) ns)) by ring.
      rewrite <- ?app_assoc in IH; rewrite <- ?app_assoc. exact IH.
  Qed.

  Definition free_text (t : num) : str :=
    n_text t ++ concat (map (fun n => L " - " ++ theta_text n) (on (L "*_" ++ w) (ads s))).

  Lemma free_val t : dget (s_total s) (L "*_" ++ w) = Some t ->
    sum_val v (free_text t) (coverage s cvgs (L "*_" ++ w)).
  Proof.
    intro E. pose proof DS as (_ & RT & _). destruct (RT _ _ tag_site E) as [Nt Nv].
    rewrite (site_coverage s P cvgs Len _ tag_site). rewrite (covered_sum s P cvgs Len).
    destruct total_val as (t' & E' & V'). assert (t' = t) by congruence. subst t'. rewrite <- V'.
    apply minus_val.
    - intros n I. now apply on_In in I.
    - apply prod_sum, atom_prod, num_val; auto.
  Qed.

  Lemma no_backslash t : dget (s_total s) (L "*_" ++ w) = Some t -> has_char "\" (free_text t) = false.
  Proof.
    intro E. pose proof DS as (_ & RT & _). destruct (RT _ _ tag_site E) as [Nt _].
    apply not_true_is_false. intro H. apply has_char_In in H. unfold free_text in H.
    apply in_app_or in H as [H|H].
    - destruct (n_text t) as [|c l]; [contradiction|]. destruct Nt as [N1 N2]. destruct H as [->|H].
      + discriminate.
      + rewrite forallb_forall in N2. specialize (N2 _ H). discriminate.
    - apply in_concat in H as (l & Hl & Hc). apply in_map_iff in Hl as (n & <- & Hn).
      apply on_In in Hn as [Hn _]. apply ads_word in Hn. unfold theta_text in Hc.
      apply in_app_or in Hc as [Hc|Hc]; [cbn in Hc; intuition discriminate|].
      apply in_app_or in Hc as [Hc|Hc]; [cbn in Hc; intuition discriminate|].
      apply in_app_or in Hc as [Hc|Hc]; [|cbn in Hc; intuition discriminate].
      rewrite forallb_forall in Hn. specialize (Hn _ Hc). discriminate.
  Qed.

  Lemma site_val st b x f1 f f2 t :
    dget (s_total s) (L "*_" ++ w) = Some t ->
    state_of_rxn st -> (forall g, In g (f1 ++ f2) -> In g st) -> In f st ->
    base_ok b -> (2 <= length b)%nat -> prod_val v b x ->
    f_species_site f = L "*_" ++ w ->
    surface_site (f_site f) -> (1 <= f_stoich f <= 9)%Z ->
    (forall g, In g (f1 ++ f2) -> f_species_site g <> f_species_site f) ->
    exists d, site_derivation t (on (L "*_" ++ w) (ads s)) w (b ++ flat (map to_fac (f1 ++ f :: f2))) = Ok d /\
      prod_val v d (- (IZR (f_stoich f) * (x * prodact cvgs (f1 ++ f2))
                    * coverage s cvgs (L "*_" ++ w) ^ pred (Z.to_nat (f_stoich f)))).
  Proof.
    intros Et S I If B Lb V En Sf Hn Nx.
    assert (G : forall g, In g (f1 ++ f2) -> good s cvgs kf kr g) by (intros g Hg; apply (st_good st); auto).
    unfold site_derivation. rewrite map_app. cbn [map]. rewrite (to_fac_this f Sf). rewrite En in Nx |- *.
    assert (G1 : forall g, In g f1 -> readable g) by (intros g Hg; apply (G g); apply in_or_app; auto).
    assert (G2 : forall g, In g f2 -> readable g) by (intros g Hg; apply (G g); apply in_or_app; auto).
    assert (G12 : forall g, In g (f1 ++ f2) -> readable g) by (intros g Hg; apply (G g); auto).
    rewrite (term_derivation_product b (map to_fac f1) (L "*_" ++ w) (c_pow (to_fac f)) (f_stoich f) (map to_fac f2));
      auto using map_fac_ok, tag_chars, tag_plain, to_fac_pow.
    2:{ intros g Ig _. apply in_map_iff in Ig as (h & <- & Ih). cbn [c_name to_fac]. apply Nx. apply in_or_app. auto. }
    cbn [bind]. rewrite <- map_app.
    pose proof (species_no_quote _ tag_chars) as NQ.
    destruct (Z.eqb_spec (f_stoich f) 1) as [E|E].
    - destruct (contains (theta_text (L "*_" ++ w)) (b ++ flat (map to_fac (f1 ++ f2)))) eqn:C.
      + apply contains_theta in C; auto using map_fac_ok. destruct C as (g & Ig & _ & Ng).
        apply in_map_iff in Ig as (h & <- & Ih). now apply Nx in Ih.
      + eexists. split; [reflexivity|]. rewrite E. change (pred (Z.to_nat 1)) with 0%nat. cbn [pow].
        rewrite Rmult_1_r, Rmult_1_l. apply neg_val. apply flat_val; auto.
    - set (pw := L "**" ++ str_of_Z (f_stoich f - 1)).
      assert (Pc : forallb pow_char pw = true).
      { unfold pw. rewrite pow_pred_text by lia. cbn [L list_ascii_of_string app forallb]. cbn [pow_char andb].
        eapply forallb_impl; [|apply dec_digits]. intros c D. unfold pow_char. now rewrite D. }
      assert (B' : base_ok (str_of_Z (f_stoich f) ++ L "*" ++ b)).
      { apply base_ok_app; split; [|apply base_ok_app; split; [reflexivity|exact B]]. rewrite str_of_nonneg by lia.
        eapply forallb_impl; [|apply dec_digits]. intro c. all_ascii c. }
      assert (C : contains (theta_text (L "*_" ++ w))
        ((str_of_Z (f_stoich f) ++ L "*" ++ b) ++ flat (map to_fac (f1 ++ f2)) ++ L "*" ++ theta_text (L "*_" ++ w) ++ pw) = true).
      { apply contains_spec. exists ((str_of_Z (f_stoich f) ++ L "*" ++ b) ++ flat (map to_fac (f1 ++ f2)) ++ L "*"), pw.
        rewrite <- ?app_assoc. reflexivity. }
      fold pw. rewrite C. clear C. fold (free_text t). rewrite w_words, (no_backslash t Et). cbn [negb andb].
      eexists. split; [reflexivity|].
      rewrite (sub_free w (L "(" ++ free_text t ++ L ")") (str_of_Z (f_stoich f) ++ L "*" ++ b) (map to_fac (f1 ++ f2)) pw);
        auto using map_fac_ok, w_letters.
      2:{ intros g us Ig Tg Us. apply in_map_iff in Ig as (h & <- & Ih). cbn [c_name to_fac c_tab] in *.
          apply (not_free st); auto. }
      pose proof (mul_val v _ _ _ _ (num_prod (f_stoich f) ltac:(lia)) V) as V1.
      pose proof (flat_val cvgs (f1 ++ f2) _ _ G V1) as V2.
      pose proof (pow_val v _ _ (dec (Z.to_N (f_stoich f - 1)))
        (par_val v _ _ (free_val t Et)) (dec_digits _) (dec_nonnil _)) as V3.
      pose proof (mul_val v _ _ _ _ V2 (unary_prod _ _ _ V3)) as V4.
      rewrite int_of_dec, Z2N.id in V4 by lia.
      apply neg_val.
      replace (pred (Z.to_nat (f_stoich f))) with (Z.to_nat (f_stoich f - 1)) by lia.
      unfold pw. rewrite pow_pred_text by lia.
      rewrite <- ?app_assoc in V4; rewrite <- ?app_assoc.
      replace (IZR (f_stoich f) * (x * prodact cvgs (f1 ++ f2))) with (IZR (f_stoich f) * x * prodact cvgs (f1 ++ f2)) by ring.
      exact V4.
  Qed.

  (** ** The derivative of a product *)
  Definition cl : dict (list str) := tab (fun x => on x (ads s)) (sites s).

  Lemma parse_name : exists f, parse_formula name = Ok f /\ f_site f = w.
  Proof.
    destruct (ads_site s P name name_ads) as [E _]. unfold site_of_name in E.
    destruct (parse_formula name) as [f|]; [|discriminate]. cbn [bind] in E. exists f. split; auto.
    assert (E2 : L "*_" ++ f_site f = L "*_" ++ w) by congruence. now apply app_inv_head in E2.
  Qed.

  Lemma name_not_tag : name <> L "*_" ++ w.
  Proof. intro E. apply (ads_not_site s P name name_ads). rewrite E. apply tag_site. Qed.

  Lemma d_cov_name : deriv (fun t => coverage s (up t) name) x0 1.
  Proof. apply (d_ext (fun t => t)); [intro; symmetry; apply cov_self|apply d_id]. Qed.
  Lemma d_cov_tag : deriv (fun t => coverage s (up t) (L "*_" ++ w)) x0 (- 1).
  Proof.
    apply (d_ext (fun t => (coverage s cvgs (L "*_" ++ w) + x0) - t)).
    - intro t. rewrite (cov_site t _ tag_site), Tag, str_eqb_refl. ring.
    - apply (d_eq _ _ (0 - 1)); [ring|]. apply d_minus; [apply d_const|apply d_id].
  Qed.
  Lemma cov_name : coverage s cvgs name = x0.
  Proof. rewrite <- up_x0 at 1. apply cov_self. Qed.

  Lemma d_act st f a : state_of_rxn st -> In f st -> surface_site (f_site f) -> (1 <= f_stoich f)%Z ->
    deriv (fun t => coverage s (up t) (f_species_site f)) x0 a ->
    deriv (fun t => act (up t) f) x0
      (IZR (f_stoich f) * coverage s cvgs (f_species_site f) ^ pred (Z.to_nat (f_stoich f)) * a).
  Proof.
    intros S If Sf Hn D.
    apply (d_ext (fun t => coverage s (up t) (f_species_site f) ^ Z.to_nat (f_stoich f))).
    - intro t. symmetry. apply (act_surface _ st); auto.
    - pose proof (d_pow_comp _ (Z.to_nat (f_stoich f)) _ _ D) as E. cbv beta in E. rewrite up_x0, INR_IZR_INZ, Z2Nat.id in E by lia.
      exact E.
  Qed.

  (** What the derived text of one product must be. *)
  Definition derives (b : str) (x : R) (st : list formula) (ps : list (str * R)) : Prop :=
    total_derivation s cl name (b ++ flat (map to_fac st)) = Ok (join (L " + ") (map fst ps)) /\
    Forall (fun p => prod_val v (fst p) (snd p)) ps /\
    deriv (fun t => x * prodact (up t) st) x0 (Rsum (map snd ps)) /\
    ((length ps = 1%nat /\ ~ (named name st /\ named (site_tag name) st)) \/
     (exists p q, ps = [p; q] /\ named name st /\ named (site_tag name) st /\
        deriv (fun u => rate_with s cvgs (site_tag name) u x st) (coverage s cvgs (site_tag name)) (- snd q))).

  Lemma rate_with_mid u k a f b : rate_with s cvgs (site_tag name) u k (a ++ f :: b) =
    rate_with s cvgs (site_tag name) u k (a ++ b) *
    (if str_eqb (f_species_site f) (site_tag name) then u else activity s cvgs f) ^ Z.to_nat (f_stoich f).
  Proof. induction a as [|g a IH]; cbn [app rate_with]; [ring|]. rewrite IH. ring. Qed.

  Lemma rate_with_none u k fs : (forall f, In f fs -> f_species_site f <> site_tag name) ->
    rate_with s cvgs (site_tag name) u k fs = k * prodact cvgs fs.
  Proof.
    induction fs as [|f fs IH]; intro H; cbn [rate_with]; [unfold prodact; cbn; ring|].
    rewrite IH by (intros g Hg; apply H; now right).
    destruct (str_eqb (f_species_site f) (site_tag name)) eqn:E.
    - apply str_eqb_eq in E. exfalso. exact (H f (or_introl eq_refl) E).
    - unfold prodact. cbn [fold_right]. unfold act. ring.
  Qed.

  Lemma fac_in st n : (forall f, In f st -> readable f) ->
    (exists f, In f (map to_fac st) /\ c_tab f = L "theta" /\ c_name f = n) <->
    exists f, In f st /\ surface_site (f_site f) /\ f_species_site f = n.
  Proof.
    intro H. split.
    - intros (f & I & T & N). apply in_map_iff in I as (g & <- & I). exists g. cbn in T, N.
      apply surface_table in T. auto.
    - intros (f & I & T & N). exists (to_fac f). split; [now apply in_map|]. apply surface_table in T. auto.
  Qed.

  Lemma nodup_names st n f1 f f2 g : state_of_rxn st -> st = f1 ++ f :: f2 -> surface_site (f_site f) ->
    f_species_site f = n -> In g (f1 ++ f2) -> f_species_site g <> n.
  Proof. intros S E Sf <- I. now apply (sparse_split st f1 f f2 S E Sf). Qed.

  Lemma mid_in {A} (f1 : list A) f f2 g : In g (f1 ++ f2) -> In g (f1 ++ f :: f2).
  Proof. intro I. apply in_app_or in I as [I|I]; apply in_or_app; [now left|right; now right]. Qed.

  Lemma total_ok_text b x st : base_ok b -> (2 <= length b)%nat -> prod_val v b x -> state_of_rxn st ->
    exists ps, derives b x st ps.
  Proof.
    intros B Lb V S.
    assert (Rd : forall f, In f st -> readable f) by (intros f Hf; now apply (st_readable st)).
    assert (Gd : forall f, In f st -> good s cvgs kf kr f) by (intros f Hf; now apply (st_good st)).
    destruct total_val as (t & Et & _). destruct parse_name as (nf & En & Ew).
    pose proof (species_no_quote _ name_chars) as NQ.
    set (text := b ++ flat (map to_fac st)).
    assert (HA : contains (theta_text name) text = true <-> exists f, In f st /\ surface_site (f_site f) /\ f_species_site f = name).
    { unfold text. rewrite contains_theta by auto using map_fac_ok. now apply fac_in. }
    assert (HB : str_mem (L "*_" ++ w) (map (fun m => group_text m 1) (findall sites_pattern text)) = true <->
                 exists f, In f st /\ surface_site (f_site f) /\ f_species_site f = L "*_" ++ w).
    { unfold text. rewrite sites_found by auto using map_fac_ok, w_words. now apply fac_in. }
    assert (HT : forall ps : list (str * R), (do r <- (if str_mem (L "*_" ++ w) (map (fun m => group_text m 1) (findall sites_pattern text))
                                 && contains (theta_text name) text then
              match search (both_pattern name) text with
              | None => Err AttributeError
              | Some m =>
                 let site_part := if truthy m 5 then group_text m 1 ++ L "*" ++ group_text m 6 else group_text m 1 in
                 let adsorbate_part := group_text m 2 ++ group_text m 3 in
                 do a <- term_derivation name adsorbate_part;
                 do d <- site_derivation t (on (L "*_" ++ w) (ads s)) w site_part;
                 Ok (a ++ L "*" ++ site_part ++ L " + " ++ d ++ L "*" ++ adsorbate_part)
              end
            else if str_mem (L "*_" ++ w) (map (fun m => group_text m 1) (findall sites_pattern text))
              then site_derivation t (on (L "*_" ++ w) (ads s)) w text
            else if contains (theta_text name) text then term_derivation name text else Ok (L "0"));
            Ok r) = Ok (join (L " + ") (map fst ps)) ->
            total_derivation s cl name text = Ok (join (L " + ") (map fst ps))).
    { intros ps. unfold total_derivation.
      assert (str_mem name (l_ads (s_lists s)) = true) as -> by (apply str_mem_In, name_ads).
      rewrite En. cbn [negb bind]. rewrite Ew. unfold dindex at 1. rewrite Et. cbn [bind].
      unfold cl. rewrite (dindex_tab _ _ _ tag_site). cbn [bind].
      assert (forallb plain_char name = true) as ->.
      { eapply forallb_impl; [|apply name_word]. intros c Hc. unfold plain_char. now rewrite Hc. }
      cbn [negb].
      destruct (_ && _); [destruct (search _ _); cbn [bind]; auto|].
      - intro H. rewrite <- H. destruct (term_derivation _ _); cbn [bind]; auto. now destruct (site_derivation _ _ _ _).
      - intro H. rewrite <- H. destruct (str_mem _ _); [now destruct (site_derivation _ _ _ _)|].
        destruct (contains _ _); [now destruct (term_derivation _ _)|reflexivity]. }
    destruct (str_mem (L "*_" ++ w) _) eqn:EB; destruct (contains (theta_text name) text) eqn:EA; cbn [andb] in HT.
    - (* both *)
      destruct (proj1 HA eq_refl) as (fa & Ia & Sa & Na). destruct (proj1 HB eq_refl) as (fb & Ib & Sb & Nb).
      clear HA HB. apply in_split in Ia as (f1 & f2 & Es).
      destruct (sparse_split st f1 fa f2 S Es Sa) as [Ua Ka].
      assert (Ib' : In fb (f1 ++ f2)).
      { rewrite Es in Ib. apply in_app_or in Ib as [I|[I|I]]; apply in_or_app; auto. subst fb. exfalso.
        apply name_not_tag. congruence. }
      apply in_split in Ib' as (g1 & g2 & Eg).
      destruct (in_split _ _ Ib) as (h1 & h2 & Eh). destruct (sparse_split st h1 fb h2 S Eh Sb) as [Ub Kb].
      assert (I12 : forall g, In g (f1 ++ f2) -> In g st) by (intros g Hg; rewrite Es; now apply mid_in).
      assert (Ig : forall g, In g (g1 ++ g2) -> In g (f1 ++ f2)) by (intros g Hg; rewrite Eg; now apply mid_in).
      assert (Ug : forall g, In g (g1 ++ g2) -> f_species_site g <> f_species_site fb).
      { intros g Hg.
        assert (E2 : exists k1 k2, st = k1 ++ fb :: k2 /\ In g (k1 ++ k2)).
        { rewrite Es. clear - Eg Hg. apply app_eq_app in Eg as (l & [[E1 E2]|[E1 E2]]); subst.
          - destruct l as [|y l]; cbn in E2.
            + subst f2. rewrite app_nil_r. exists (g1 ++ [fa]), g2. rewrite <- app_assoc. split; [reflexivity|].
              apply in_app_or in Hg as [H|H]; apply in_or_app; [left; apply in_or_app; auto|auto].
            + injection E2 as -> ->. exists g1, (l ++ fa :: f2). rewrite <- app_assoc. split; [reflexivity|].
              apply in_app_or in Hg as [H|H]; apply in_or_app; [auto|]. right.
              apply in_app_or in H as [H|H]; apply in_or_app; [auto|right; now right].
          - exists (f1 ++ fa :: l), g2. split; [rewrite <- app_assoc; reflexivity|].
            apply in_app_or in Hg as [H|H]; [|apply in_or_app; auto]. apply in_or_app. left. now apply mid_in. }
        destruct E2 as (k1 & k2 & E2 & I2). now apply (sparse_split st k1 fb k2 S E2 Sb). }
      assert (Na' : name_pattern (f_species_site fa) = Ok (rlit (f_species_site fa))) by (rewrite Na; apply name_plain).
      pose proof (to_fac_pow fa Ka) as Pw.
      destruct (bare_val (f_stoich fa) (c_pow (to_fac fa)) Pw ltac:(lia)) as (ta & Eta & Va).
      destruct (site_val st b x g1 fb g2 t Et S) as (td & Etd & Vd); auto.
      rewrite <- Eg in Etd.
      assert (Sr : search (both_pattern name) text = Some {| m_before := [];
         m_caps := both_caps b (map to_fac f1) name (c_pow (to_fac fa)) (map to_fac f2); m_rest := [] |}).
      { unfold text. rewrite Es, map_app. cbn [map]. rewrite (to_fac_this fa Sa), Na.
        apply (both_search b (map to_fac f1) name (c_pow (to_fac fa)) (f_stoich fa) (map to_fac f2));
          auto using map_fac_ok, name_chars.
        - apply map_fac_ok. intros g Hg. apply Rd, I12, in_or_app. auto.
        - apply map_fac_ok. intros g Hg. apply Rd, I12, in_or_app. auto.
        - intros g Hg _. apply in_map_iff in Hg as (h & <- & Hh). cbn. rewrite <- Na. apply Ua, in_or_app. auto. }
      destruct (both_parts b (map to_fac f1) name (c_pow (to_fac fa)) (f_stoich fa) (map to_fac f2)) as [E1 E2]; auto.
      { apply map_fac_ok. intros g Hg. apply Rd, I12, in_or_app. auto. }
      cbv zeta in E1, E2. rewrite Sr in HT. cbv zeta in HT. rewrite E1, E2, Eta in HT. cbn [bind] in HT.
      rewrite <- map_app, Etd in HT. cbn [bind] in HT.
      set (C := prodact cvgs (g1 ++ g2)).
      set (na := IZR (f_stoich fa)). set (nb := IZR (f_stoich fb)).
      set (pa := pred (Z.to_nat (f_stoich fa))). set (pb := pred (Z.to_nat (f_stoich fb))).
      set (y0 := coverage s cvgs (L "*_" ++ w)).
      exists [(ta ++ L "*" ++ b ++ flat (map to_fac (f1 ++ f2)), (na * x0 ^ pa) * (x * prodact cvgs (f1 ++ f2)));
              (td ++ L "*" ++ theta_text name ++ c_pow (to_fac fa), - (nb * (x * C) * y0 ^ pb) * act cvgs fa)].
      split; [apply HT; cbn [map fst join]; rewrite <- ?app_assoc; reflexivity|].
      split; [|split].
      + constructor; [|constructor; [|constructor]]; cbn [fst snd].
        * apply mul_val; auto. apply flat_val; auto.
        * apply mul_val; auto. apply unary_prod.
          pose proof (fac_text_val cvgs fa (Gd fa ltac:(rewrite Es; apply in_or_app; right; now left))) as W.
          rewrite (to_fac_this fa Sa) in W at 1 2. cbn [c_tab c_name this] in W. rewrite Na in W.
          unfold theta_text. rewrite <- ?app_assoc. rewrite <- ?app_assoc in W. exact W.
      + apply (d_ext (fun u => (x * C) * (act (up u) fb * act (up u) fa))).
        { intro u. rewrite Es, prodact_mid, Eg, prodact_mid.
          rewrite (prodact_const u st (g1 ++ g2)); auto.
          - fold C. ring.
          - intros g Hg. rewrite <- Na. apply Ua. auto.
          - intros g Hg. rewrite <- Nb. apply Ug. auto. }
        assert (Ia : In fa st) by (rewrite Es; apply in_or_app; right; now left).
        assert (Da : deriv (fun t => coverage s (up t) (f_species_site fa)) x0 1) by (rewrite Na; apply d_cov_name).
        assert (Db : deriv (fun t => coverage s (up t) (f_species_site fb)) x0 (- 1)) by (rewrite Nb; apply d_cov_tag).
        apply (d_act st fa) in Da; auto; try lia. apply (d_act st fb) in Db; auto; try lia.
        pose proof (d_scal (x * C) _ _ _ (d_mult _ _ _ _ _ Db Da)) as D.
        eapply d_eq; [|exact D]. cbn [map snd Rsum]. rewrite up_x0, Eg, prodact_mid. fold C.
        rewrite Na, Nb, cov_name. fold na nb pa pb y0. ring.
      + right. do 2 eexists. split; [reflexivity|].
        split; [exists fa; split; auto; rewrite Es; apply in_or_app; right; now left|].
        split; [rewrite Tag; exists fb; auto|]. cbn [snd].
        assert (Xa : str_eqb (f_species_site fa) (site_tag name) = false).
        { rewrite Tag, Na. destruct (str_eqb name (L "*_" ++ w)) eqn:E; auto. apply str_eqb_eq in E.
          exfalso. exact (name_not_tag E). }
        assert (Xb : str_eqb (f_species_site fb) (site_tag name) = true) by (rewrite Tag, Nb; apply str_eqb_refl).
        apply (d_ext (fun u => (x * C * act cvgs fa) * u ^ Z.to_nat (f_stoich fb))).
        { intro u. rewrite Es, rate_with_mid, Eg, rate_with_mid, Xa, Xb, rate_with_none.
          - unfold C, act. ring.
          - intros g Hg. rewrite Tag, <- Nb. now apply Ug. }
        pose proof (d_pow_comp (fun u => u) (Z.to_nat (f_stoich fb)) (coverage s cvgs (site_tag name)) 1 (d_id _)) as Dp.
        cbv beta in Dp. rewrite INR_IZR_INZ, Z2Nat.id in Dp by lia.
        eapply d_eq; [|apply d_scal; exact Dp]. rewrite Tag. fold y0 nb pb. ring.
    - (* site only *)
      destruct (proj1 HB eq_refl) as (fb & Ib & Sb & Nb). clear HB.
      assert (NA : forall f, In f st -> f_species_site f <> name).
      { intros f Hf E. enough (false = true) by discriminate. apply HA. exists f. split; auto. split; auto.
        apply (name_surface st); auto. }
      apply in_split in Ib as (f1 & f2 & Es). destruct (sparse_split st f1 fb f2 S Es Sb) as [Ub Kb].
      assert (I12 : forall g, In g (f1 ++ f2) -> In g st) by (intros g Hg; rewrite Es; now apply mid_in).
      assert (Ib : In fb st) by (rewrite Es; apply in_or_app; right; now left).
      destruct (site_val st b x f1 fb f2 t Et S) as (td & Etd & Vd); auto.
      rewrite <- Es in Etd. fold text in Etd. rewrite Etd in HT. cbn [bind] in HT.
      eexists [(td, _)]. split; [apply HT; reflexivity|]. split; [constructor; [exact Vd|constructor]|].
      split; [|left; split; [reflexivity|intros [(f & If & Ef) _]; exact (NA f If Ef)]].
      apply (d_ext (fun u => (x * prodact cvgs (f1 ++ f2)) * act (up u) fb)).
      { intro u. rewrite Es, prodact_mid. rewrite (prodact_const u st (f1 ++ f2)); auto; [ring|].
        intros g Hg. rewrite <- Nb. apply Ub. auto. }
      assert (Db : deriv (fun t => coverage s (up t) (f_species_site fb)) x0 (- 1)) by (rewrite Nb; apply d_cov_tag).
      apply (d_act st fb) in Db; auto; try lia.
      eapply d_eq; [|apply d_scal; exact Db]. cbn [map snd Rsum]. rewrite Nb. ring.
    - (* adsorbate only *)
      destruct (proj1 HA eq_refl) as (fa & Ia & Sa & Na). clear HA.
      assert (NB : forall f, In f st -> f_species_site f <> L "*_" ++ w).
      { intros f Hf E. enough (false = true) by discriminate. apply HB. exists f. split; auto. split; auto.
        apply (name_surface st); auto. }
      apply in_split in Ia as (f1 & f2 & Es). destruct (sparse_split st f1 fa f2 S Es Sa) as [Ua Ka].
      assert (I12 : forall g, In g (f1 ++ f2) -> In g st) by (intros g Hg; rewrite Es; now apply mid_in).
      assert (Ia : In fa st) by (rewrite Es; apply in_or_app; right; now left).
      destruct (term_val b x f1 fa f2 B Lb V) as (td & Etd & Vd); auto.
      { rewrite Na. apply name_plain. }
      { rewrite Na. apply theta_env. left. apply name_ads. }
      rewrite <- Es, Na in Etd. fold text in Etd. rewrite Etd in HT. cbn [bind] in HT.
      eexists [(td, _)]. split; [apply HT; reflexivity|]. split; [constructor; [exact Vd|constructor]|].
      split; [|left; split; [reflexivity|intros [_ (f & If & Ef)]; rewrite Tag in Ef; exact (NB f If Ef)]].
      apply (d_ext (fun u => (x * prodact cvgs (f1 ++ f2)) * act (up u) fa)).
      { intro u. rewrite Es, prodact_mid. rewrite (prodact_const u st (f1 ++ f2)); auto; [ring|].
        intros g Hg. rewrite <- Na. apply Ua. auto. }
      assert (Da : deriv (fun t => coverage s (up t) (f_species_site fa)) x0 1) by (rewrite Na; apply d_cov_name).
      apply (d_act st fa) in Da; auto; try lia.
      eapply d_eq; [|apply d_scal; exact Da]. cbn [map snd Rsum]. ring.
    - (* neither *)
      exists [(L "0", 0)]. split; [apply HT; reflexivity|]. split; [|split; [|left; split; [reflexivity|]]].
      3:{ intros [(f & If & Ef) _]. enough (false = true) by discriminate. apply HA. exists f. split; auto.
          split; auto. apply (name_surface st); auto. }
      + constructor; [|constructor]. cbn [fst snd]. apply (num_prod 0). lia.
      + apply (d_ext (fun u => x * prodact cvgs st)).
        * intro u. rewrite (prodact_const u st st); auto.
          -- intros f Hf E. enough (false = true) by discriminate. apply HA. exists f. split; auto. split; auto.
             apply (name_surface st); auto.
          -- intros f Hf E. enough (false = true) by discriminate. apply HB. exists f. split; auto. split; auto.
             apply (name_surface st); auto.
        * eapply d_eq; [|apply d_const]. cbn. ring.
  Qed.
End Deriv.
